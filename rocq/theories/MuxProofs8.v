(* Proofs about the MPEG-TS muxer, part 8: the simulation goes the same way, and leaves
   everything as it was. *)

From Coq Require Import ZArith List Bool Lia ZifyBool.
From Verif Require Import Lists TsModel TsSpec TsProofs12 MuxModel MuxSpec.
From Verif Require Import MuxProofs MuxProofs2 MuxProofs3 MuxProofs4 MuxProofs5 MuxProofs6 MuxProofs7.
Import ListNotations.
Open Scope Z_scope.

(* ---------- all frames ---------- *)

Lemma mux_all c chs : strms c chs -> good_chans c chs -> forall n l ops ps, GI c chs l ops ps ->
  forall l' ops', mux n c chs l = Some (l', ops') ->
  exists ps', GI c chs l' (ops ++ ops') ps' /\ forall i s, nth_error l' i = Some s -> ms_frames s = [].
Proof.
  intros HS HG. induction n as [|n IH]; intros l ops ps HI0 l' ops' E; cbn [mux] in E.
  - destruct (choose 0 None l) as [[k t]|] eqn:EC; [discriminate|]. injection E as <- <-.
    exists ps. rewrite app_nil_r. split; [exact HI0|exact (proj2 (choose_none _ _ _ EC))].
  - destruct (choose 0 None l) as [[k t]|] eqn:EC.
    + destruct (mux_frame c chs k l) as [[l1 o1]|] eqn:E1; [|discriminate].
      destruct (mux n c chs l1) as [[l2 o2]|] eqn:E2; [|discriminate]. injection E as <- <-.
      destruct (mux_step c chs k t l ops ps HS HG HI0 EC _ _ E1) as (lx & ox & oy & psx & ps1 & _ & _ & A1 & _).
      destruct (IH _ _ _ A1 _ _ E2) as (ps2 & A2 & A3). rewrite app_assoc. eauto.
    + injection E as <- <-. exists ps. rewrite app_nil_r. split; [exact HI0|exact (proj2 (choose_none _ _ _ EC))].
Qed.

Lemma mux_total c chs : strms c chs -> good_chans c chs -> Forall readable chs -> forall n l ops ps, GI c chs l ops ps ->
  (frames_left l <= n)%nat -> exists l' ops', mux n c chs l = Some (l', ops').
Proof.
  intros HS HG HR. induction n as [|n IH]; intros l ops ps HI0 HN; cbn [mux];
    (destruct (choose 0 None l) as [[k t]|] eqn:EC; [|eauto]).
  - exfalso. apply choose_is in EC. destruct EC as (s & H1 & _ & H2 & _). pose proof (left_one _ _ _ H1 H2). lia.
  - destruct (mux_goes c chs k t l ops ps HS HG HR HI0 EC) as (l1 & o1 & E1). rewrite E1.
    destruct (mux_step c chs k t l ops ps HS HG HI0 EC _ _ E1) as (lx & ox & oy & psx & ps1 & _ & _ & A1 & A2 & _).
    destruct (IH _ _ _ A1 ltac:(lia)) as (l2 & o2 & E2). rewrite E2. eauto.
Qed.

(* ---------- in step ---------- *)

Definition lock (c : conf) (ch : chan) (s ss : mst) : Prop :=
  ms_frames ss = ms_frames s /\ ms_time ss = ms_time s /\ SRm (mid_of c (ch_top ch)) (ms_fil s) (ms_fil ss).

Definition LS (c : conf) (chs : list chan) (l ls : list mst) : Prop :=
  length ls = length l /\ length l = length chs /\
  forall i ch s ss, nth_error chs i = Some ch -> nth_error l i = Some s -> nth_error ls i = Some ss -> lock c ch s ss.

Lemma choose_same l : forall ls j best, length ls = length l ->
  (forall i s ss, nth_error l i = Some s -> nth_error ls i = Some ss ->
     ms_frames ss = ms_frames s /\ ms_time ss = ms_time s) ->
  choose j best ls = choose j best l.
Proof.
  induction l as [|s l IH]; intros [|ss ls] j best HL H; cbn [length] in HL; try discriminate; [reflexivity|].
  cbn [choose]. destruct (H O s ss eq_refl eq_refl) as [-> ->].
  apply IH; [lia|]. intros i s0 ss0 E1 E2. exact (H (S i) s0 ss0 E1 E2).
Qed.

Lemma LS_choose c chs l ls : LS c chs l ls -> choose 0 None ls = choose 0 None l.
Proof.
  intros (H1 & H2 & H3). apply choose_same; [exact H1|]. intros i s ss E1 E2.
  destruct (nth_error chs i) as [ch|] eqn:E3; [|apply nth_error_None in E3; apply nth_lt in E1; lia].
  destruct (H3 i ch s ss E3 E1 E2) as (A & B & _). auto.
Qed.

Definition slate_one (c : conf) (ch : chan) (k j : nat) (dts : Z) (s : mst) : mst * list sop :=
  match mid_of c (ch_top ch), buf_dts (fl_buf (ms_fil s)) with
  | MBuf, Some d =>
      if negb (j =? k)%nat && (d + delay / 2 <? dts) then
        let '(m, ops) :=
          swith_buf (ms_fil s) (sbuf_force j false (fl_buf (ms_fil s))) in
        (Mst (ms_frames s) (ms_time s) m, ops)
      else (s, [])
  | _, _ => (s, [])
  end.

Lemma slate_cons c ch chs k j dts s l :
  sim_late c (ch :: chs) k j dts (s :: l) =
  let '(s, ops1) := slate_one c ch k j dts s in
  let '(l, ops2) := sim_late c chs k (S j) dts l in (s :: l, ops1 ++ ops2).
Proof. reflexivity. Qed.

Lemma SR_dts b s : SRb b s -> buf_dts s = buf_dts b.
Proof.
  intros H. unfold buf_dts. pose proof (sr_cur _ _ H) as HC. rewrite <- (sr_phase _ _ H).
  destruct (bf_phase b); [reflexivity| | |]; destruct (HC ltac:(discriminate)) as [-> _]; reflexivity.
Qed.

Lemma late_one_sim c ch k j dts s ss B : lock c ch s ss -> held c (mid_of c (ch_top ch)) (ms_fil s) B ->
  forall s1 o1 ss1 so1, late_one c ch k j dts s = (s1, o1) -> slate_one c ch k j dts ss = (ss1, so1) ->
  eqv c o1 so1 /\ lock c ch s1 ss1.
Proof.
  intros (L1 & L2 & L3) HB s1 o1 ss1 so1 E1 E2. unfold late_one in E1. unfold slate_one in E2.
  assert (Hno : (s1, o1) = (s, []) -> (ss1, so1) = (ss, []) -> eqv c o1 so1 /\ lock c ch s1 ss1).
  { intros A1 A2. injection A1 as -> ->. injection A2 as -> ->. split; [apply eqv_nil|]. unfold lock. auto. }
  destruct (mid_of c (ch_top ch)) eqn:Em; [apply Hno; congruence| |apply Hno; congruence].
  cbn [SRm held] in *. rewrite (SR_dts _ _ L3) in E2.
  destruct (buf_dts (fl_buf (ms_fil s))) as [d|]; [|apply Hno; congruence].
  destruct (negb (j =? k)%nat && (d + delay / 2 <? dts)); [|apply Hno; congruence].
  unfold with_buf in E1. unfold swith_buf in E2.
  destruct (buf_force j (c_align c) false (fl_buf (ms_fil s))) as [b' o'] eqn:E3.
  destruct (sbuf_force j false (fl_buf (ms_fil ss))) as [sb' so'] eqn:E4. cbn [fst snd] in *.
  injection E1 as <- <-. injection E2 as <- <-.
  destruct (late_sim c j _ _ B HB L3 _ _ _ _ E3 E4) as [Q1 Q2].
  split; [exact Q1|]. unfold lock. cbn [ms_frames ms_time ms_fil]. rewrite Em. cbn [SRm fl_buf]. auto.
Qed.

Lemma late_sims c k dts : forall chs l ls j, length l = length chs -> length ls = length l ->
  (forall n ch s ss, nth_error chs n = Some ch -> nth_error l n = Some s -> nth_error ls n = Some ss ->
     lock c ch s ss /\ exists B, held c (mid_of c (ch_top ch)) (ms_fil s) B) ->
  forall l1 o1 ls1 so1, flush_late c chs k j dts l = (l1, o1) -> sim_late c chs k j dts ls = (ls1, so1) ->
  eqv c o1 so1 /\ length l1 = length l /\ length ls1 = length ls /\
  forall n ch s ss, nth_error chs n = Some ch -> nth_error l1 n = Some s -> nth_error ls1 n = Some ss -> lock c ch s ss.
Proof.
  induction chs as [|ch chs IH]; intros [|s l] [|ss ls] j HL1 HL2 H l1 o1 ls1 so1 E1 E2; cbn [length] in *; try discriminate.
  - cbn in E1, E2. injection E1 as <- <-. injection E2 as <- <-. split; [apply eqv_nil|].
    split; [reflexivity|]. split; [reflexivity|]. intros [|n]; discriminate.
  - rewrite late_cons in E1. rewrite slate_cons in E2.
    destruct (late_one c ch k j dts s) as [s1 oa] eqn:A1. destruct (slate_one c ch k j dts ss) as [ss1 sa] eqn:A2.
    destruct (flush_late c chs k (S j) dts l) as [l2 ob] eqn:B1. destruct (sim_late c chs k (S j) dts ls) as [ls2 sb] eqn:B2.
    injection E1 as <- <-. injection E2 as <- <-.
    destruct (H O ch s ss eq_refl eq_refl eq_refl) as [HLk [B HB]].
    destruct (late_one_sim c ch k j dts s ss B HLk HB _ _ _ _ A1 A2) as [Q1 Q2].
    assert (H' : forall n ch0 s0 ss0, nth_error chs n = Some ch0 -> nth_error l n = Some s0 -> nth_error ls n = Some ss0 ->
       lock c ch0 s0 ss0 /\ exists B0, held c (mid_of c (ch_top ch0)) (ms_fil s0) B0)
      by (intros n ch0 s0 ss0; exact (H (S n) ch0 s0 ss0)).
    assert (HL1' : length l = length chs) by congruence. assert (HL2' : length ls = length l) by congruence.
    destruct (IH l ls (S j) HL1' HL2' H' _ _ _ _ B1 B2) as (Q3 & Q4 & Q5 & Q6).
    split; [apply eqv_app; assumption|]. cbn [length]. split; [congruence|]. split; [congruence|].
    intros [|n] ch0 s0 ss0 N1 N2 N3; cbn in N1, N2, N3; [|exact (Q6 n ch0 s0 ss0 N1 N2 N3)].
    injection N1 as <-. injection N2 as <-. injection N3 as <-. exact Q2.
Qed.

(* The frame of the simulation. *)
Lemma sim_top_frame c i k m s B f W fr tp last : held c k m B -> SRm k m s ->
  f_dts f = f_dts f -> f_header f = top_header tp -> W <> [] -> Forall full W ->
  zlen (concat W) = top_extra tp fr + i_size fr -> 1 <= i_size fr ->
  forall m' ops s' sops, mid_calls c i k m (frame_calls f W last) = Some (m', ops) ->
  sim_mids i k s (sim_top tp fr (f_dts f) last) = (s', sops) ->
  eqv c ops sops /\ SRm k m' s'.
Proof.
  intros HB HS _ Hh HW HF HZ Hsz m' ops s' sops ER ES.
  assert (Hex : 0 <= top_extra tp fr).
  { destruct tp as [v|a| |]; cbn [top_extra]; try lia. pose proof (zlen_ge (vc_aud v)). pose proof (zlen_ge (vc_extra v)).
    destruct (i_key fr); lia. }
  assert (H2 : forall f', same f f' ->
    sim_mids i k s [ZStart f'; ZWrite (top_extra tp fr); ZWrite (i_size fr); ZFlush last] = (s', sops) ->
    eqv c ops sops /\ SRm k m' s').
  { intros f' Hf E.
    assert (Hu : k = MBuf -> 0 <= bf_used (fl_buf s)).
    { intros ->. cbn [SRm] in HS. exact (SR_used _ _ HS). }
    destruct (sim_two c i k s f' (top_extra tp fr) (i_size fr) last Hex ltac:(lia) Hu) as (o2 & o1 & s1 & A1 & A2 & A3 & A4).
    rewrite E in A1. injection A1 as <- <-. rewrite <- HZ in A2.
    destruct (sim_frame_one c i k m s B f f' W last HB HS Hf HW HF _ _ _ _ ER A2) as [Q1 Q2].
    split; [|exact Q2]. apply (eqv_trans c ops o1 sops Q1); [exact (A3 (proj1 Q1))|].
    intros z Hz. symmetry. exact (A4 z Hz (proj1 Q1)). }
  destruct tp as [v|a| |]; cbn [sim_top top_header] in *.
  - eapply H2; [|exact ES]. split; cbn; auto.
  - eapply H2; [|exact ES]. split; cbn; auto.
  - cbn [top_extra] in HZ. rewrite Z.add_0_l in HZ. rewrite <- HZ in ES.
    eapply (sim_frame_one c i k m s B f); [exact HB|exact HS| |exact HW|exact HF|exact ER|exact ES]. split; cbn; auto.
  - eapply H2; [|exact ES]. split; cbn; auto.
Qed.

Lemma GI_held c chs l ops ps n ch s : GI c chs l ops ps -> nth_error chs n = Some ch -> nth_error l n = Some s ->
  exists B, held c (mid_of c (ch_top ch)) (ms_fil s) B.
Proof.
  intros H H1 H2. destruct (gi_each _ _ _ _ _ H n ch H1) as (s0 & p & dn & F & B & A1 & A2 & A3).
  assert (s0 = s) by congruence. subst s0. exists B. exact (ci_held _ _ _ _ _ _ _ _ A3).
Qed.

Lemma sup_nal4 chs ch : supported chs = true -> In ch chs -> nal4 (ch_top ch).
Proof.
  intros H HI0. unfold supported in H. rewrite forallb_forall in H. specialize (H _ HI0).
  unfold nal4. destruct (ch_top ch); auto. apply Nat.eqb_eq. exact H.
Qed.

Lemma step_sim c chs k t l ls ops ps : strms c chs -> good_chans c chs -> supported chs = true ->
  GI c chs l ops ps -> LS c chs l ls -> choose 0 None l = Some (k, t) ->
  forall l' o' ls' so', mux_frame c chs k l = Some (l', o') -> sim_frame c chs k ls = (ls', so') ->
  eqv c o' so' /\ LS c chs l' ls'.
Proof.
  intros HS HG HSup HI0 HL HC l' o' ls' so' ER ES. apply choose_is in HC. destruct HC as (s & Hs & Et & Hf & _).
  pose proof HL as (HL1 & HL2 & HL3).
  unfold mux_frame in ER. unfold sim_frame in ES. rewrite Hs in ER.
  destruct (nth_error chs k) as [ch|] eqn:Hch; [|discriminate].
  destruct (nth_error ls k) as [ss|] eqn:Hss; [|apply nth_error_None in Hss; apply nth_lt in Hs; lia].
  destruct (HL3 k ch s ss Hch Hs Hss) as (K1 & K2 & K3). rewrite K1, K2 in ES.
  destruct (ms_frames s) as [|fr frs] eqn:Ef; [congruence|].
  destruct (flush_late c chs k 0 (ms_time s) l) as [l1 o1] eqn:E1.
  destruct (sim_late c chs k 0 (ms_time s) ls) as [ls1 so1] eqn:E2.
  set (last := match frs with [] => true | _ => false end) in *.
  destruct (top_frame (ch_top ch) fr (ms_time s) last) as [calls|] eqn:ET; [|discriminate].
  destruct (mid_calls c k (mid_of c (ch_top ch)) (ms_fil s) calls) as [[m o2]|] eqn:EM; [|discriminate].
  destruct (sim_mids k (mid_of c (ch_top ch)) (ms_fil ss) (sim_top (ch_top ch) fr (ms_time s) last)) as [sm so2] eqn:E3.
  injection ER as <- <-. injection ES as <- <-.
  assert (HH : forall n ch0 s0 ss0, nth_error chs n = Some ch0 -> nth_error l n = Some s0 -> nth_error ls n = Some ss0 ->
     lock c ch0 s0 ss0 /\ exists B, held c (mid_of c (ch_top ch0)) (ms_fil s0) B).
  { intros n ch0 s0 ss0 N1 N2 N3. split; [exact (HL3 n ch0 s0 ss0 N1 N2 N3)|exact (GI_held _ _ _ _ _ _ _ _ HI0 N1 N2)]. }
  destruct (late_sims c k (ms_time s) chs l ls 0 HL2 HL1 HH _ _ _ _ E1 E2) as (Q1 & Q2 & Q3 & Q4).
  destruct (GI_held _ _ _ _ _ _ _ _ HI0 Hch Hs) as (B & HB).
  pose proof (good_nth _ _ _ _ HG Hch) as (G1 & G2 & _).
  destruct (gi_each _ _ _ _ _ HI0 k ch Hch) as (s0 & p & dn & F & B0 & D1 & D2 & D3).
  assert (s0 = s) by congruence. subst s0.
  pose proof (ci_dn _ _ _ _ _ _ _ _ D3) as HD. rewrite Ef in HD. pose proof (timed_fr _ _ _ _ _ HD) as HIn.
  rewrite Forall_forall in G1. pose proof (G1 _ HIn) as Hfr.
  destruct (top_shape _ _ _ _ _ _ _ _ ET Hfr G2) as (f & W & T1 & T2 & T3 & T4 & T5 & T6 & T7 & T8).
  specialize (T7 (sup_nal4 chs ch HSup (nth_error_In _ _ Hch))).
  rewrite T1 in EM. rewrite <- T4 in E3.
  destruct (sim_top_frame c k (mid_of c (ch_top ch)) (ms_fil s) (ms_fil ss) B f W fr (ch_top ch) last HB K3 eq_refl T6 T2 T3 T7
    (proj1 Hfr) _ _ _ _ EM E3) as [R1 R2].
  split; [apply eqv_app; assumption|].
  split; [rewrite !set_nth_length; lia|]. split; [rewrite set_nth_length; lia|].
  intros n ch0 s0 ss0 N1 N2 N3. destruct (Nat.eq_dec n k) as [->|Hne].
  - rewrite nth_error_set_nth_eq in N2 by (rewrite Q2; exact (nth_lt _ _ _ _ Hs)).
    rewrite nth_error_set_nth_eq in N3 by (rewrite Q3; exact (nth_lt _ _ _ _ Hss)).
    injection N2 as <-. injection N3 as <-. assert (ch0 = ch) by congruence. subst ch0.
    unfold lock. cbn [ms_frames ms_time ms_fil]. auto.
  - rewrite nth_error_set_nth_neq in N2, N3 by congruence. exact (Q4 n ch0 s0 ss0 N1 N2 N3).
Qed.

Lemma sims_all c chs : strms c chs -> good_chans c chs -> supported chs = true -> forall n l ls ops ps,
  GI c chs l ops ps -> LS c chs l ls ->
  forall l' o' ls' so', mux n c chs l = Some (l', o') -> sim_mux n c chs ls = (ls', so') -> eqv c o' so'.
Proof.
  intros HS HG HSup. induction n as [|n IH]; intros l ls ops ps HI0 HL l' o' ls' so' ER ES; cbn [mux sim_mux] in *;
    rewrite (LS_choose _ _ _ _ HL) in ES; (destruct (choose 0 None l) as [[k t]|] eqn:EC;
      [|injection ER as <- <-; injection ES as <- <-; apply eqv_nil]).
  - discriminate.
  - destruct (mux_frame c chs k l) as [[l1 o1]|] eqn:E1; [|discriminate].
    destruct (mux n c chs l1) as [[l2 o2]|] eqn:E2; [|discriminate]. injection ER as <- <-.
    destruct (sim_frame c chs k ls) as [ls1 so1] eqn:E3. destruct (sim_mux n c chs ls1) as [ls2 so2] eqn:E4.
    injection ES as <- <-.
    destruct (step_sim c chs k t l ls ops ps HS HG HSup HI0 HL EC _ _ _ _ E1 E3) as [Q1 Q2].
    destruct (mux_step c chs k t l ops ps HS HG HI0 EC _ _ E1) as (lx & ox & oy & psx & ps1 & _ & _ & A1 & _).
    apply eqv_app; [exact Q1|]. exact (IH _ _ _ _ A1 Q2 _ _ _ _ E2 E4).
Qed.

(* ---------- the filters after the simulation ---------- *)

Definition fixed (b : buf) : Prop :=
  bf_data b = [] /\ bf_fl b = O /\ bf_ring b = repeat (frame0, O) ring_size /\ bf_w b = O /\ bf_r b = O /\ bf_full b = false.

Definition sb_init (b : buf) : Prop := bf_phase b = BInit /\ bf_used b = 0 /\ bf_fsz b = 0.
Definition SB (b : buf) : Prop :=
  fixed b /\ (sb_init b \/ bf_phase b = BFlushed /\ bf_used b = bf_fsz b /\ 0 < bf_fsz b).
Definition SM (b : buf) (n : Z) : Prop :=
  fixed b /\ (bf_phase b = BStarted /\ 0 <= bf_fsz b /\ bf_fsz b + n <= bf_used b \/
              bf_phase b = BDirect /\ bf_used b = 0 /\ bf_fsz b = 0).

Lemma fixed_set b ph cur last used fsz : fixed b -> fixed (set_used b ph cur last used fsz).
Proof. intros H. exact H. Qed.

Lemma SB_force i last b : SB b -> fixed (fst (sbuf_force i last b)) /\ sb_init (fst (sbuf_force i last b)).
Proof.
  intros [HF [(P & U & Z0)|(P & U & Z0)]]; unfold sbuf_force.
  - rewrite Z0. cbn [Z.leb Z.compare fst]. split; [exact HF|]. split; auto.
  - replace (bf_fsz b <=? 0) with false by lia. rewrite P. cbn [fst]. split; [apply fixed_set; exact HF|].
    split; [reflexivity|]. split; [|reflexivity]. cbn. lia.
Qed.

Lemma SM_write i n b k : SM b k -> 0 <= k -> 0 <= n -> SM (fst (sbuf_write i n b)) (k + n).
Proof.
  intros [HF HP] Hk Hn. unfold sbuf_write. destruct HP as [(P & Z0 & U)|(P & U & Z0)]; rewrite P.
  - unfold sbuf_force. rewrite P. destruct (buf_size <? bf_used b + n) eqn:E1.
    + destruct (bf_fsz b <=? 0) eqn:E2.
      * replace (bf_used b + n <=? buf_size) with false by lia. cbn [fst]. split; [exact HF|]. right.
        cbn. split; [reflexivity|]. split; [reflexivity|lia].
      * cbn [set_used bf_used]. destruct (bf_used b - bf_fsz b + n <=? buf_size); cbn [fst]; (split; [exact HF|]).
        -- left. cbn. split; [reflexivity|]. lia.
        -- right. cbn. auto.
    + replace (bf_used b + n <=? buf_size) with true by lia. cbn [fst]. split; [exact HF|]. left. cbn. split; [exact P|lia].
  - cbn [fst]. split; [exact HF|]. right. auto.
Qed.

Lemma SM_flush i last b n : SM b n -> 0 < n ->
  SB (fst (sbuf_flush i last b)) /\ (last = true -> sb_init (fst (sbuf_flush i last b))).
Proof.
  intros [HF HP] Hn. unfold sbuf_flush. destruct HP as [(P & Z0 & U)|(P & U & Z0)]; rewrite P.
  - set (b1 := set_used b BFlushed (bf_cur b) (bf_last b) (bf_used b) (bf_used b)).
    assert (H1 : SB b1). { split; [exact HF|]. right. cbn. split; [reflexivity|]. split; [reflexivity|lia]. }
    destruct last; [|split; [exact H1|discriminate]].
    destruct (SB_force i true b1 H1) as [A1 A2]. split; [split; [exact A1|left; exact A2]|auto].
  - cbn [fst]. assert (sb_init (set_used b BInit (bf_cur b) (bf_last b) (bf_used b) (bf_fsz b))) by (split; auto).
    split; [split; [exact HF|left; assumption]|auto].
Qed.

Definition SI (c : conf) (ch : chan) (s : mst) : Prop :=
  Forall good_frame (ms_frames s) /\
  match mid_of c (ch_top ch) with
  | MNone => ms_fil s = Fil buf0 None
  | MBuf => fl_join (ms_fil s) = None /\ SB (fl_buf (ms_fil s)) /\ (ms_frames s = [] -> sb_init (fl_buf (ms_fil s)))
  | MJoin => fl_buf (ms_fil s) = buf0 /\ (ms_frames s = [] -> fl_join (ms_fil s) = None)
  end.

Definition SIs (c : conf) (chs : list chan) (l : list mst) : Prop :=
  length l = length chs /\ forall i ch s, nth_error chs i = Some ch -> nth_error l i = Some s -> SI c ch s.

Lemma SI_late c ch k j dts s : SI c ch s -> SI c ch (fst (slate_one c ch k j dts s)) /\
  ms_frames (fst (slate_one c ch k j dts s)) = ms_frames s /\ ms_time (fst (slate_one c ch k j dts s)) = ms_time s.
Proof.
  intros H. unfold slate_one. destruct (mid_of c (ch_top ch)) eqn:Em; try (cbn [fst]; auto; fail).
  destruct (buf_dts (fl_buf (ms_fil s))) as [d|]; [|cbn [fst]; auto].
  destruct (negb (j =? k)%nat && (d + delay / 2 <? dts)); [|cbn [fst]; auto].
  unfold swith_buf. cbn [fst]. split; [|split; reflexivity].
  unfold SI in *. rewrite Em in *. cbn [ms_frames ms_fil fl_buf fl_join]. destruct H as (H1 & H2 & H3 & H4).
  destruct (SB_force j false _ H3) as [A1 A2]. split; [exact H1|]. split; [exact H2|]. split; [split; auto|auto].
Qed.

Lemma SIs_late c k dts : forall chs l j, length l = length chs ->
  (forall n ch s, nth_error chs n = Some ch -> nth_error l n = Some s -> SI c ch s) ->
  let l1 := fst (sim_late c chs k j dts l) in
  length l1 = length l /\
  forall n ch s, nth_error chs n = Some ch -> nth_error l1 n = Some s ->
    SI c ch s /\ exists s0, nth_error l n = Some s0 /\ ms_frames s = ms_frames s0 /\ ms_time s = ms_time s0.
Proof.
  induction chs as [|ch chs IH]; intros [|s l] j HL H; cbn [length] in HL; try discriminate.
  - cbn. split; [reflexivity|]. intros [|n]; discriminate.
  - rewrite slate_cons. destruct (SI_late c ch k j dts s (H O ch s eq_refl eq_refl)) as (A1 & A2 & A3).
    destruct (slate_one c ch k j dts s) as [s1 o1]. cbn [fst] in *.
    specialize (IH l (S j) ltac:(lia) (fun n ch0 s0 => H (S n) ch0 s0)).
    destruct (sim_late c chs k (S j) dts l) as [l2 o2]. cbn [fst length] in *. destruct IH as [I1 I2].
    split; [lia|]. intros [|n] ch0 s0 N1 N2; cbn in N1, N2.
    + injection N1 as <-. injection N2 as <-. split; [exact A1|]. exists s. auto.
    + exact (I2 n ch0 s0 N1 N2).
Qed.

Lemma SI_top c ch i s fr frs : SI c ch s -> ms_frames s = fr :: frs ->
  SI c ch (Mst frs (ms_time s + i_dur fr)
    (fst (sim_mids i (mid_of c (ch_top ch)) (ms_fil s)
       (sim_top (ch_top ch) fr (ms_time s) (match frs with [] => true | _ => false end))))).
Proof.
  intros [H1 H2] Ef. rewrite Ef in *. inversion H1 as [|? ? Hfr H1']; subst.
  split; [exact H1'|]. cbn [ms_frames ms_fil]. set (last := match frs with [] => true | _ => false end).
  assert (HL : frs = [] -> last = true) by (intros ->; reflexivity).
  destruct Hfr as (Hsz & _).
  assert (HT : exists f ns, sim_top (ch_top ch) fr (ms_time s) last = ZStart f :: map ZWrite ns ++ [ZFlush last] /\
    Forall (fun n => 0 <= n) ns /\ 0 < fold_right Z.add 0 ns).
  { destruct (ch_top ch) as [v|a| |]; cbn [sim_top].
    - eexists _, [_; i_size fr]. split; [reflexivity|]. pose proof (zlen_ge (vc_aud v)). pose proof (zlen_ge (vc_extra v)).
      cbn [fold_right]. split; [constructor; [destruct (i_key fr); lia|constructor; [lia|constructor]]|]. destruct (i_key fr); lia.
    - eexists _, [7; i_size fr]. split; [reflexivity|]. cbn [fold_right]. split; [repeat constructor; lia|lia].
    - eexists _, [i_size fr]. split; [reflexivity|]. cbn [fold_right]. split; [repeat constructor; lia|lia].
    - eexists _, [21; i_size fr]. split; [reflexivity|]. cbn [fold_right]. split; [repeat constructor; lia|lia]. }
  destruct HT as (f & ns & -> & Hns & Hsum).
  destruct (mid_of c (ch_top ch)) eqn:Em.
  - assert (G : forall l m, fst (sim_mids i MNone m l) = m).
    { induction l as [|x l IH]; intros m; [reflexivity|]. cbn [sim_mids]. destruct x; cbn [sim_mid];
        specialize (IH m); destruct (sim_mids i MNone m l) as [m2 o2]; exact IH. }
    rewrite G. exact H2.
  - destruct H2 as (J & HB & _). cbn [sim_mids sim_mid]. unfold swith_buf. cbn [fst snd].
    assert (HM : SM (sbuf_start f (fl_buf (ms_fil s))) 0).
    { destruct HB as [HF HP]. split; [exact HF|]. left. cbn [sbuf_start set_used bf_phase bf_fsz bf_used].
      split; [reflexivity|]. destruct HP as [(_ & U & Z0)|(_ & U & Z0)]; lia. }
    assert (G : forall ns m n, Forall (fun n => 0 <= n) ns -> fl_join m = None -> SM (fl_buf m) n -> 0 <= n ->
      0 < n + fold_right Z.add 0 ns ->
      let r := fst (sim_mids i MBuf m (map ZWrite ns ++ [ZFlush last])) in
      fl_join r = None /\ SB (fl_buf r) /\ (last = true -> sb_init (fl_buf r))).
    { clear. induction ns as [|x ns IH]; intros m n Hns HJ HM Hn HS; cbn [map app sim_mids sim_mid fold_right] in *.
      - unfold swith_buf. cbn [fst]. split; [exact HJ|]. apply (SM_flush i last _ n HM). lia.
      - inversion Hns; subst. unfold swith_buf.
        specialize (IH (Fil (fst (sbuf_write i x (fl_buf m))) (fl_join m)) (n + x) ltac:(assumption) HJ
          (SM_write i x _ n HM Hn ltac:(assumption)) ltac:(lia) ltac:(lia)).
        cbv zeta in IH. destruct (sim_mids i MBuf _ (map ZWrite ns ++ [ZFlush last])) as [m2 o2]. exact IH. }
    specialize (G ns (Fil (sbuf_start f (fl_buf (ms_fil s))) (fl_join (ms_fil s))) 0 Hns J HM ltac:(lia) ltac:(lia)).
    cbv zeta in G. destruct (sim_mids i MBuf _ (map ZWrite ns ++ [ZFlush last])) as [m2 o2]. cbn [fst] in *.
    destruct G as (G1 & G2 & G3). split; [exact G1|]. split; [exact G2|]. intros E. exact (G3 (HL E)).
  - destruct H2 as (HB & _). cbn [sim_mids].
    assert (G : forall ns m, fl_buf m = buf0 ->
      let r := fst (sim_mids i MJoin m (map ZWrite ns ++ [ZFlush last])) in
      fl_buf r = buf0 /\ (last = true -> fl_join r = None)).
    { clear. induction ns as [|x ns IH]; intros m HM; cbn [map app sim_mids sim_mid].
      - destruct last; cbn; auto. split; [exact HM|discriminate].
      - specialize (IH m HM). cbv zeta in IH. destruct (sim_mids i MJoin m (map ZWrite ns ++ [ZFlush last])) as [m2 o2]. exact IH. }
    assert (HB1 : fl_buf (fst (sim_mid i MJoin (ms_fil s) (ZStart f))) = buf0).
    { cbn [sim_mid]. destruct (fl_join (ms_fil s)); [destruct (z + join_time <=? f_dts f)|]; exact HB. }
    destruct (sim_mid i MJoin (ms_fil s) (ZStart f)) as [m1 o1]. cbn [fst] in HB1.
    specialize (G ns m1 HB1). cbv zeta in G.
    destruct (sim_mids i MJoin m1 (map ZWrite ns ++ [ZFlush last])) as [m2 o2]. cbn [fst] in *.
    destruct G as (G1 & G2). split; [exact G1|]. intros E. exact (G2 (HL E)).
Qed.

Lemma SIs_frame c chs k t l : SIs c chs l -> choose 0 None l = Some (k, t) ->
  SIs c chs (fst (sim_frame c chs k l)) /\ S (frames_left (fst (sim_frame c chs k l))) = frames_left l.
Proof.
  intros [HL H] HC. apply choose_is in HC. destruct HC as (s & Hs & _ & Hf & _). unfold sim_frame. rewrite Hs.
  destruct (nth_error chs k) as [ch|] eqn:Hch; [|apply nth_error_None in Hch; apply nth_lt in Hs; lia].
  destruct (ms_frames s) as [|fr frs] eqn:Ef; [congruence|].
  pose proof (SIs_late c k (ms_time s) chs l 0 HL H) as HH. cbv zeta in HH.
  destruct (sim_late c chs k 0 (ms_time s) l) as [l1 o1]. cbn [fst] in HH. destruct HH as [A1 A2].
  pose proof (SI_top c ch k s fr frs (H k ch s Hch Hs) Ef) as HT.
  destruct (sim_mids k (mid_of c (ch_top ch)) (ms_fil s)
    (sim_top (ch_top ch) fr (ms_time s) match frs with [] => true | _ :: _ => false end)) as [m o2]. cbn [fst] in *.
  split.
  - split; [rewrite set_nth_length; lia|]. intros n ch0 s0 N1 N2. destruct (Nat.eq_dec n k) as [->|Hne].
    + rewrite nth_error_set_nth_eq in N2 by (rewrite A1; exact (nth_lt _ _ _ _ Hs)). injection N2 as <-.
      assert (ch0 = ch) by congruence. subst ch0. exact HT.
    + rewrite nth_error_set_nth_neq in N2 by congruence. exact (proj1 (A2 n ch0 s0 N1 N2)).
  - destruct (nth_error l1 k) as [s1|] eqn:E1; [|apply nth_error_None in E1; apply nth_lt in Hs; lia].
    destruct (A2 k ch s1 Hch E1) as (_ & s0 & Q1 & Q2 & _). assert (s0 = s) by congruence. subst s0.
    pose proof (left_set l1 k s1 (Mst frs (ms_time s + i_dur fr) m) E1) as HLs. cbn [ms_frames] in HLs.
    rewrite Q2, Ef in HLs. cbn [length] in HLs.
    assert (frames_left l1 = frames_left l).
    { apply left_same; [lia|]. intros n x y Hx Hy.
      destruct (nth_error chs n) as [chn|] eqn:En; [|apply nth_error_None in En; apply nth_lt in Hx; lia].
      destruct (A2 n chn y En Hy) as (_ & z & Hz & Z1 & _). congruence. }
    lia.
Qed.

Lemma SIs_all c chs : forall n l, SIs c chs l -> (frames_left l <= n)%nat ->
  SIs c chs (fst (sim_mux n c chs l)) /\
  forall i s, nth_error (fst (sim_mux n c chs l)) i = Some s -> ms_frames s = [].
Proof.
  induction n as [|n IH]; intros l H HN; cbn [sim_mux];
    (destruct (choose 0 None l) as [[k t]|] eqn:EC; [|cbn [fst]; split; [exact H|exact (proj2 (choose_none _ _ _ EC))]]).
  - exfalso. apply choose_is in EC. destruct EC as (s & H1 & _ & H2 & _). pose proof (left_one _ _ _ H1 H2). lia.
  - destruct (SIs_frame c chs k t l H EC) as [A1 A2]. destruct (sim_frame c chs k l) as [l1 o1]. cbn [fst] in *.
    specialize (IH l1 A1 ltac:(lia)). destruct (sim_mux n c chs l1) as [l2 o2]. exact IH.
Qed.

(* ---------- the encoder after the simulation ---------- *)

Definition rest (c : conf) (z : sst) (i : nat) : Prop :=
  forall t m, nth_error (c_strms c) i = Some t -> nth_error (z_sims z) i = Some m -> m_temp m = 0 /\ m_cc m = t_cc0 t.

Lemma rest_son c z i j g : rest c z i -> i <> j -> rest c (son c z j g) i.
Proof.
  intros H Hne t m E1 E2. unfold son in E2. destruct (nth_error (c_strms c) j); [|exact (H t m E1 E2)].
  destruct (nth_error (z_sims z) j); [|exact (H t m E1 E2)]. cbn [z_sims] in E2.
  rewrite nth_error_set_nth_neq in E2 by congruence. exact (H t m E1 E2).
Qed.

Lemma rest_close c z i j : rest c z i -> rest c (sim_close_other c z j) i.
Proof.
  intros H. unfold sim_close_other. destruct (q_who (z_q z)) as [w|]; [|exact H].
  destruct (negb (c_inter c) && negb (w =? j)%nat); [|exact H].
  destruct (Nat.eq_dec i w) as [<-|Hne]; [|apply rest_son; assumption].
  intros t m E1 E2. unfold son in E2. rewrite E1 in E2.
  destruct (nth_error (z_sims z) i) as [m0|] eqn:E3; [|congruence]. destruct (H t m0 E1 E3) as [H1 H2].
  unfold sim_stuff in E2. rewrite H1 in E2. cbn [Z.ltb Z.compare fst snd z_sims] in E2.
  rewrite nth_error_set_nth_eq in E2 by exact (nth_lt _ _ _ _ E3). injection E2 as <-. auto.
Qed.

Lemma rest_step c o z ps ps' : track c ps o = Some ps' -> okz z ->
  (forall i p, nth_error ps i = Some p -> p = New \/ p = Done -> rest c z i) ->
  forall i p, nth_error ps' i = Some p -> p = New \/ p = Done -> rest c (sim_step c z o) i.
Proof.
  intros HT HZ H i p Hp HD. unfold track in HT.
  destruct (nth_error (c_strms c) (op_strm o)) as [t|] eqn:Et; [|discriminate].
  destruct (nth_error ps (op_strm o)) as [p0|] eqn:E0; [|discriminate].
  destruct (alone c ps o); [|discriminate].
  destruct (next_phase c t p0 o) as [p1|] eqn:E1; [|discriminate]. injection HT as <-.
  destruct (Nat.eq_dec i (op_strm o)) as [->|Hne].
  - rewrite nth_error_set_nth_eq in Hp by exact (nth_lt _ _ _ _ E0). injection Hp as ->.
    destruct o as [j f|j f|j b|j last]; cbn [op_strm next_phase sim_step] in *.
    + destruct p0 as [|[|] n| |]; try discriminate;
        (match type of E1 with (if ?b then _ else _) = _ => destruct b; [|discriminate] end);
        injection E1 as <-; destruct HD; discriminate.
    + destruct p0 as [|[|] n| |]; try discriminate; injection E1 as <-; destruct HD; discriminate.
    + destruct p0 as [|b0 n| |]; try discriminate;
        (match type of E1 with (if ?b then _ else _) = _ => destruct b; [|discriminate] end);
        injection E1 as <-; destruct HD; discriminate.
    + destruct p0 as [|[|] n| |]; try discriminate.
      match type of E1 with (if ?b then _ else _) = _ => destruct b; [|discriminate] end.
      injection E1 as <-. destruct last; [|destruct HD; discriminate].
      intros t0 m A1 A2. assert (t0 = t) by congruence. subst t0. unfold son in A2. rewrite Et in A2.
      destruct (nth_error (z_sims z) j) as [m0|] eqn:E3; [|congruence]. cbn [z_sims] in A2.
      rewrite nth_error_set_nth_eq in A2 by exact (nth_lt _ _ _ _ E3). injection A2 as <-.
      assert (0 <= m_temp m0).
      { unfold okz in HZ. rewrite Forall_forall in HZ. apply HZ. eapply nth_error_In. exact E3. }
      unfold sim_flush. rewrite !orb_true_r. unfold sim_stuff.
      destruct (0 <? m_temp m0) eqn:Em; cbn [fst m_temp m_cc]; (split; [|reflexivity]); [reflexivity|lia].
  - rewrite nth_error_set_nth_neq in Hp by congruence. specialize (H i p Hp HD).
    destruct o as [j f|j f|j b|j last]; cbn [op_strm sim_step] in *; try (apply rest_son; [|congruence]); try exact H.
    apply rest_close. exact H.
Qed.

Lemma okz_step c z o : okz z -> okz (sim_step c z o).
Proof.
  intros H. destruct o as [i f|i f|i b|i last]; cbn [sim_step].
  - exact (okz_sstep c z (SStart i f) H I).
  - exact H.
  - exact (okz_sstep c z (SWrite i (zlen b)) H (zlen_ge b)).
  - exact (okz_sstep c z (SFlush i last) H I).
Qed.

Lemma rest_run c ops : forall z ps ps', tracks c ps ops = Some ps' -> okz z ->
  (forall i p, nth_error ps i = Some p -> p = New \/ p = Done -> rest c z i) ->
  forall i p, nth_error ps' i = Some p -> p = New \/ p = Done -> rest c (sim_run c z ops) i.
Proof.
  induction ops as [|o ops IH]; intros z ps ps' HT HZ H; cbn [tracks] in HT.
  - injection HT as <-. exact H.
  - destruct (track c ps o) as [ps1|] eqn:E; [|discriminate]. unfold sim_run. cbn [fold_left].
    apply (IH _ ps1 ps' HT (okz_step c z o HZ)). exact (rest_step c o z ps ps1 E HZ H).
Qed.

Lemma sims_len c z i g : length (z_sims (son c z i g)) = length (z_sims z).
Proof.
  unfold son. destruct (nth_error (c_strms c) i); [|reflexivity]. destruct (nth_error (z_sims z) i); [|reflexivity].
  apply set_nth_length.
Qed.

Lemma run_len c ops : forall z, length (z_sims (sim_run c z ops)) = length (z_sims z).
Proof.
  induction ops as [|o ops IH]; intros z; [reflexivity|]. unfold sim_run in *. cbn [fold_left]. rewrite IH.
  destruct o as [i f|i f|i b|i last]; cbn [sim_step]; rewrite ?sims_len; try reflexivity.
  unfold sim_close_other. destruct (q_who (z_q z)); [|reflexivity]. destruct (_ && _); [apply sims_len|reflexivity].
Qed.

Lemma tracks_len c ops : forall ps ps', tracks c ps ops = Some ps' -> length ps' = length ps.
Proof.
  induction ops as [|o ops IH]; intros ps ps' H; cbn [tracks] in H; [injection H as <-; reflexivity|].
  destruct (track c ps o) as [ps1|] eqn:E; [|discriminate]. rewrite (IH _ _ H). unfold track in E.
  destruct (nth_error (c_strms c) (op_strm o)); [|discriminate]. destruct (nth_error ps (op_strm o)); [|discriminate].
  destruct (alone c ps o); [|discriminate]. destruct (next_phase c s p o); [|discriminate]. injection E as <-. apply set_nth_length.
Qed.

Lemma okz_init c : okz (sim_init c).
Proof. unfold okz, sim_init. cbn [z_sims]. apply Forall_forall. intros m Hm. apply in_map_iff in Hm as (t & <- & _). cbn. lia. Qed.

Lemma map2_enc ts : forall ms, length ms = length ts ->
  (forall i t m, nth_error ts i = Some t -> nth_error ms i = Some m -> m_cc m = t_cc0 t) ->
  map2 (fun t m => set_cc (enc0 t) (m_cc m)) ts ms = map enc0 ts.
Proof.
  induction ts as [|t ts IH]; intros [|m ms] HL H; cbn [length map2 map] in *; try discriminate; [reflexivity|].
  rewrite (H O t m eq_refl eq_refl). f_equal. apply IH; [lia|]. intros i t0 m0. exact (H (S i) t0 m0).
Qed.

Lemma encs_rest c ops : finished c ops ->
  St (map2 (fun t m => set_cc (enc0 t) (m_cc m)) (c_strms c) (z_sims (sim_run c (sim_init c) ops))) (Queue [] None) = init c.
Proof.
  intros (ps & HP & HF). unfold init. f_equal. apply map2_enc.
  - rewrite run_len. unfold sim_init. cbn [z_sims]. apply map_length.
  - intros i t m E1 E2.
    assert (Hps : exists p, nth_error ps i = Some p).
    { destruct (nth_error ps i) eqn:E; [eauto|]. apply nth_error_None in E. apply nth_lt in E1.
      unfold phases in HP. pose proof (tracks_len _ _ _ _ HP) as HL. rewrite map_length in HL. lia. }
    destruct Hps as (p & Ep). pose proof HF as HF'. rewrite Forall_forall in HF'. pose proof (HF' _ (nth_error_In _ _ Ep)) as HD.
    apply (fun H0 => rest_run c ops (sim_init c) _ ps HP (okz_init c) H0 i p Ep HD t m E1 E2).
    intros j q Eq _ t0 m0 F1 F2. unfold sim_init in F2. cbn [z_sims] in F2. rewrite nth_error_map, F1 in F2.
    injection F2 as <-. split; reflexivity.
Qed.

(* ---------- the segment ---------- *)

Lemma clean_held c ch s : SI c ch s -> ms_frames s = [] -> held c (mid_of c (ch_top ch)) (ms_fil s) [] /\
  SRm (mid_of c (ch_top ch)) (ms_fil s) (Fil buf0 None) /\
  before (mid_of c (ch_top ch)) (ms_fil s) New [].
Proof.
  intros [_ H] Ef. destruct (mid_of c (ch_top ch)); cbn [held SRm before].
  - split; [reflexivity|]. split; [exact I|]. left. reflexivity.
  - destruct H as (J & [(F1 & F2 & F3 & F4 & F5 & F6) _] & HI0). destruct (HI0 Ef) as (P1 & P2 & P3).
    split; [|split].
    + constructor; auto; try (cbn; unfold buf_size; lia). congruence.
      intros _. apply RI_nil; rewrite ?F3, ?F4, ?F5, ?F6; auto. cbn; lia.
    + constructor; cbn [fl_buf buf0 bf_phase bf_cur bf_last bf_used bf_fsz]; try congruence.
      rewrite F1. reflexivity. rewrite F2. reflexivity.
    + left. reflexivity.
  - destruct H as (_ & HJ). rewrite (HJ Ef). split; [reflexivity|]. split; [reflexivity|]. cbn. left. reflexivity.
Qed.

Lemma map2_nth {A B C} (f : A -> B -> C) : forall l m i a b, nth_error l i = Some a -> nth_error m i = Some b ->
  nth_error (map2 f l m) i = Some (f a b).
Proof.
  induction l as [|x l IH]; intros [|y m] [|i] a b E1 E2; cbn in *; try discriminate; [congruence|eauto].
Qed.
Lemma map2_len {A B C} (f : A -> B -> C) : forall l m, length m = length l -> length (map2 f l m) = length l.
Proof. induction l as [|x l IH]; intros [|y m] H; cbn in *; try discriminate; [reflexivity|]. f_equal. apply IH. lia. Qed.

(* Filters that a segment may begin with. *)
Definition ready_fil (c : conf) (ch : chan) (m : fil) : Prop :=
  held c (mid_of c (ch_top ch)) m [] /\ SRm (mid_of c (ch_top ch)) m (Fil buf0 None) /\
  before (mid_of c (ch_top ch)) m New [].

Definition begun (c : conf) (chs : list chan) (l : list mst) : Prop :=
  length l = length chs /\ forall i ch s, nth_error chs i = Some ch -> nth_error l i = Some s ->
    ms_frames s = ch_frames ch /\ ms_time s = ch_dts ch /\ ready_fil c ch (ms_fil s).

Lemma mst0_SI c chs : good_chans c chs -> SIs c chs (map mst0 chs).
Proof.
  intros HG. split; [apply map_length|]. intros i ch s E1 E2. rewrite nth_error_map, E1 in E2. injection E2 as <-.
  pose proof (good_nth _ _ _ _ HG E1) as (G1 & _). split; [exact G1|]. cbn [mst0 ms_fil ms_frames].
  assert (HF : fixed buf0) by (repeat split). assert (HB : sb_init buf0) by (repeat split).
  destruct (mid_of c (ch_top ch)); cbn [fl_buf fl_join]; auto.
  split; [reflexivity|]. split; [split; [exact HF|left; exact HB]|]. intros _. exact HB.
Qed.

Lemma SI_drop c ch s : SI c ch s -> ms_fil s = Fil buf0 None -> ready_fil c ch (ms_fil s).
Proof.
  intros [H1 H2] E. assert (H : SI c ch (Mst [] 0 (Fil buf0 None))).
  { split; [constructor|]. cbn [ms_fil ms_frames]. rewrite E in H2. destruct (mid_of c (ch_top ch)); auto.
    destruct H2 as (A & B & C). split; [exact A|]. split; [exact B|]. intros _. repeat split. }
  rewrite E. exact (clean_held c ch _ H eq_refl).
Qed.

Lemma begun_mst0 c chs : good_chans c chs -> begun c chs (map mst0 chs).
Proof.
  intros HG. pose proof (mst0_SI c chs HG) as [A B]. split; [exact A|]. intros i ch s E1 E2.
  pose proof (B i ch s E1 E2) as HSI. rewrite nth_error_map, E1 in E2. injection E2 as <-.
  split; [reflexivity|]. split; [reflexivity|]. apply SI_drop; [exact HSI|reflexivity].
Qed.

Lemma begun_reset c chs : good_chans c chs ->
  begun c chs (map2 reset chs (fst (sim_mux (frames_left (map mst0 chs)) c chs (map mst0 chs)))).
Proof.
  intros HG. destruct (SIs_all c chs _ _ (mst0_SI c chs HG) (le_n _)) as [[A1 A2] A3].
  destruct (sim_mux (frames_left (map mst0 chs)) c chs (map mst0 chs)) as [l o]. cbn [fst] in *.
  split; [apply map2_len; exact A1|]. intros i ch s E1 E2.
  destruct (nth_error l i) as [s0|] eqn:E3; [|apply nth_error_None in E3; apply nth_lt in E1; lia].
  rewrite (map2_nth _ _ _ _ _ _ E1 E3) in E2. injection E2 as <-. cbn [reset ms_frames ms_time ms_fil].
  split; [reflexivity|]. split; [reflexivity|]. exact (clean_held c ch s0 (A2 i ch s0 E1 E3) (A3 i s0 E3)).
Qed.

Lemma begun_GI c chs l : strms c chs -> begun c chs l -> GI c chs l [] (map (fun _ => New) (c_strms c)).
Proof.
  intros HS [A1 A2]. constructor; [reflexivity|exact A1|]. intros i ch Hch.
  destruct (nth_error l i) as [s|] eqn:Es; [|apply nth_error_None in Es; apply nth_lt in Hch; lia].
  destruct (A2 i ch s Hch Es) as (B1 & B2 & B3 & B4 & B5).
  exists s, New, [], [], []. split; [reflexivity|].
  split; [rewrite HS, map_map, nth_error_map, Hch; reflexivity|].
  constructor.
  - rewrite B1, B2. reflexivity.
  - constructor.
  - exact B3.
  - exact (HI_nil c).
  - reflexivity.
  - reflexivity.
  - destruct (ms_frames s); exact B5.
Qed.

Lemma begun_LS c chs l : begun c chs l -> LS c chs l (map mst0 chs).
Proof.
  intros [A1 A2]. split; [rewrite map_length; lia|]. split; [exact A1|]. intros i ch s ss E1 E2 E3.
  rewrite nth_error_map, E1 in E3. injection E3 as <-. destruct (A2 i ch s E1 E2) as (B1 & B2 & B3 & B4 & B5).
  split; [symmetry; exact B1|]. split; [symmetry; exact B2|exact B4].
Qed.

Lemma begun_left c chs l : begun c chs l -> frames_left l = frames_left (map mst0 chs).
Proof.
  intros [A1 A2]. apply left_same; [rewrite map_length; lia|]. intros n x y Hx Hy.
  rewrite nth_error_map in Hx. destruct (nth_error chs n) as [ch|] eqn:E; [|discriminate]. injection Hx as <-.
  destruct (A2 n ch y E Hy) as (B1 & _). exact B1.
Qed.

Lemma GI_finished c chs l ops ps : strms c chs -> GI c chs l ops ps ->
  (forall i s, nth_error l i = Some s -> ms_frames s = []) -> finished c ops.
Proof.
  intros HS HI0 HE. exists ps. split; [exact (gi_ph _ _ _ _ _ HI0)|]. apply Forall_forall. intros p Hp.
  apply In_nth_error in Hp as (i & Hp).
  assert (Hi : exists ch, nth_error chs i = Some ch).
  { destruct (nth_error chs i) eqn:E; [eauto|]. apply nth_error_None in E. apply nth_lt in Hp.
    pose proof (gi_ph _ _ _ _ _ HI0) as HP. unfold phases in HP. pose proof (tracks_len _ _ _ _ HP) as HL.
    rewrite map_length, HS, map_length in HL. lia. }
  destruct Hi as (ch & Hch). destruct (gi_each _ _ _ _ _ HI0 i ch Hch) as (s & p0 & dn & F & B & E1 & E2 & HC).
  assert (p0 = p) by congruence. subst p0. pose proof (ci_ph _ _ _ _ _ _ _ _ HC) as HP. rewrite (HE _ _ E1) in HP.
  destruct dn; [left; exact (ci_new _ _ _ _ _ _ _ _ HC eq_refl)|right; exact (proj1 HP)].
Qed.

(* What the muxer does, whether or not there was a simulation. *)
Definition muxed (inter align : bool) (chs : list chan) (l : list mst) (ops : list op) : Prop :=
  let c := conf_of inter align chs in
  exists l0, begun c chs l0 /\ mux (frames_left l0) c chs l0 = Some (l, ops).

Lemma strms_of inter align chs : strms (conf_of inter align chs) chs.
Proof. reflexivity. Qed.

Lemma muxed_GI inter align chs l ops : good_chans (conf_of inter align chs) chs -> muxed inter align chs l ops ->
  finished (conf_of inter align chs) ops /\
  exists ps, GI (conf_of inter align chs) chs l ops ps /\ forall i s, nth_error l i = Some s -> ms_frames s = [].
Proof.
  intros HG (l0 & HB & E). set (c := conf_of inter align chs) in *. assert (HS : strms c chs) by reflexivity.
  destruct (mux_all c chs HS HG _ _ _ _ (begun_GI c chs l0 HS HB) _ _ E) as (ps & A1 & A2). cbn [app] in A1.
  split; [exact (GI_finished c chs l ops ps HS A1 A2)|]. eauto.
Qed.

Lemma muxed_sim inter align chs l ops : let c := conf_of inter align chs in
  good_chans c chs -> supported chs = true -> muxed inter align chs l ops ->
  snd (simulate inter align chs) = sim_run c (sim_init c) ops.
Proof.
  intros c HG HSup (l0 & HB & E). assert (HS : strms c chs) by reflexivity.
  unfold simulate. fold c. rewrite (begun_left c chs l0 HB) in E.
  destruct (sim_mux (frames_left (map mst0 chs)) c chs (map mst0 chs)) as [ls so] eqn:ES. cbn [snd].
  destruct (sims_all c chs HS HG HSup _ _ _ _ _ (begun_GI c chs l0 HS HB) (begun_LS c chs l0 HB) _ _ _ _ E ES) as [_ Q].
  symmetry. apply Q. apply okz_init.
Qed.

Lemma segment_is inter align chs s ops : let c := conf_of inter align chs in
  good_chans c chs -> segment inter align chs = Some (s, ops) ->
  s = run c (init c) ops /\ exists l, muxed inter align chs l ops.
Proof.
  intros c HG E. unfold segment in E. fold c in E. destruct (supported chs) eqn:HSup.
  - destruct (simulate inter align chs) as [ls z] eqn:ES.
    assert (HB : begun c chs (map2 reset chs ls)).
    { pose proof (begun_reset c chs HG) as HB. unfold simulate in ES. fold c in ES.
      destruct (sim_mux (frames_left (map mst0 chs)) c chs (map mst0 chs)) as [l1 o1]. injection ES as <- _. exact HB. }
    destruct (mux (frames_left (map2 reset chs ls)) c chs (map2 reset chs ls)) as [[l' o']|] eqn:EM; [|discriminate].
    injection E as <- <-. assert (HM : muxed inter align chs l' o') by (exists (map2 reset chs ls); auto).
    split; [|exists l'; exact HM].
    pose proof (muxed_sim _ _ _ _ _ HG HSup HM) as HZ. rewrite ES in HZ. cbn [snd] in HZ. subst z.
    pose proof (encs_rest c o' (proj1 (muxed_GI _ _ _ _ _ HG HM))) as HE.
    exact (f_equal (fun s => run c s o') HE).
  - pose proof (begun_mst0 c chs HG) as HB.
    destruct (mux (frames_left (map mst0 chs)) c chs (map mst0 chs)) as [[l' o']|] eqn:EM; [|discriminate].
    injection E as <- <-. split; [reflexivity|]. exists l', (map mst0 chs). auto.
Qed.

Lemma segment_goes inter align chs : let c := conf_of inter align chs in
  good_chans c chs -> Forall readable chs -> exists s ops, segment inter align chs = Some (s, ops).
Proof.
  intros c HG HR. unfold segment. fold c.
  assert (G : forall l, begun c chs l -> exists l' ops, mux (frames_left l) c chs l = Some (l', ops)).
  { intros l HB. exact (mux_total c chs eq_refl HG HR _ _ _ _ (begun_GI c chs l eq_refl HB) (le_n _)). }
  destruct (supported chs).
  - destruct (simulate inter align chs) as [ls z] eqn:ES.
    assert (HB : begun c chs (map2 reset chs ls)).
    { pose proof (begun_reset c chs HG) as HB. unfold simulate in ES. fold c in ES.
      destruct (sim_mux (frames_left (map mst0 chs)) c chs (map mst0 chs)) as [l1 o1]. injection ES as <- _. exact HB. }
    destruct (G _ HB) as (l' & o' & ->). eauto.
  - destruct (G _ (begun_mst0 c chs HG)) as (l' & o' & ->). eauto.
Qed.
