(* Proofs about the MPEG-TS muxer, part 9: what a player gets, and the order in which the
   streams are written. *)

From Coq Require Import ZArith List Bool Lia ZifyBool.
From Verif Require Import Lists TsModel TsSpec TsProofs12 MuxModel MuxSpec.
From Verif Require Import MuxProofs MuxProofs2 MuxProofs3 MuxProofs4 MuxProofs5 MuxProofs6 MuxProofs7 MuxProofs8.
Import ListNotations.
Open Scope Z_scope.

(* ---------- the frames as they are in the stream ---------- *)

Definition enc (tp : top) (x : iframe * Z) : list Z :=
  match top_frame tp (fst x) (snd x) true with Some calls => written calls | None => [] end.

Lemma written_last tp fr dts last calls : top_frame tp fr dts last = Some calls -> enc tp (fr, dts) = written calls.
Proof.
  unfold enc, top_frame. cbn [fst snd]. destruct tp as [v|a| |].
  - destruct (nal_start v (i_key fr) _) as [[s c1]|]; [|discriminate].
    destruct (nal_writes v s (i_chunks fr)) as [[s2 c2]|]; [|discriminate].
    unfold nal_flush. intros H;
      repeat match type of H with context [if ?b then _ else _] => destruct b; try discriminate end;
      injection H as <-; rewrite !written_app; reflexivity.
  - intros H. injection H as <-. cbn [written]. rewrite !written_app. reflexivity.
  - intros H. injection H as <-. cbn [written]. rewrite !written_app. reflexivity.
  - intros H. injection H as <-. cbn [written]. rewrite !written_app. reflexivity.
Qed.

Lemma pieces_enc tp : forall dn P, Forall2 (piece_of tp) dn P -> map snd P = map (enc tp) dn.
Proof.
  intros dn P H. induction H as [|[fr d] p dn P HP H IH]; [reflexivity|]. cbn [map]. f_equal; [|exact IH].
  destruct HP as (_ & _ & _ & _ & _ & _ & calls & last & E1 & E2). cbn [fst snd] in *. rewrite E2.
  symmetry. exact (written_last _ _ _ _ _ E1).
Qed.

Lemma pieces_begins tp : forall dn P, Forall2 (piece_of tp) dn P -> forall off,
  map (fun x => (fst x, (f_pts (snd x), f_dts (snd x)))) (pbegins off P) = begins off dn (map (enc tp) dn).
Proof.
  intros dn P H. pose proof (pieces_enc tp dn P H) as HE. revert HE.
  induction H as [|[fr d] [f e] dn P HP H IH]; intros HE off; [reflexivity|]. cbn [map pbegins begins] in *.
  injection HE as E1 E2. destruct HP as (P1 & P2 & _). cbn [fst snd] in *. rewrite P1, P2, <- E1. f_equal.
  apply IH. exact E2.
Qed.

Lemma pieces_marks tp dn P off : Forall2 (piece_of tp) dn P -> pmarks off P = marks_of (begins off dn (map (enc tp) dn)).
Proof.
  intros H. rewrite <- (pieces_begins tp dn P H off). unfold pmarks, marks_of. rewrite map_map. apply map_ext.
  intros [o f]. reflexivity.
Qed.

Lemma timed_fst d l : map fst (timed d l) = l.
Proof. revert d. induction l as [|x l IH]; intros d; [reflexivity|]. cbn [timed map fst]. f_equal. apply IH. Qed.

Lemma enc_encodes align k ch : Forall good_frame (ch_frames ch) -> good_top align (ch_top ch) k (ch_frames ch) ->
  readable ch ->
  Forall2 (encodes (ch_top ch)) (ch_frames ch) (map (enc (ch_top ch)) (timed (ch_dts ch) (ch_frames ch))).
Proof.
  intros HF HT HR. rewrite Forall_forall in HF.
  assert (G : forall l d, incl l (ch_frames ch) -> Forall2 (encodes (ch_top ch)) l (map (enc (ch_top ch)) (timed d l))).
  { induction l as [|fr l IH]; intros d HI0; cbn [timed map]; [constructor|].
    pose proof (HI0 fr (or_introl eq_refl)) as Hin.
    constructor; [|apply IH; intros x Hx; apply HI0; right; exact Hx].
    assert (HU : match ch_top ch with TVideo v => exists us, nal_frame (vc_nal v) (data_of fr) us | _ => True end).
    { unfold readable in HR. destruct (ch_top ch); auto. rewrite Forall_forall in HR. exact (HR _ Hin). }
    destruct (top_encodes _ fr d true _ _ _ (HF _ Hin) HT Hin HU) as (calls & E1 & E2).
    rewrite (written_last _ _ _ _ _ E1). exact E2. }
  apply G. apply incl_refl.
Qed.

(* ---------- the timestamps ---------- *)

Lemma good_all_marks c t m1 m2 : forall l off ss,
  (forall pos f o, In (pos, f) ss -> pos - 184 < o <= pos -> (c_align c = true -> o = pos) ->
     exists x, first_pts m1 o = Some x /\ first_pts m2 o = Some x) ->
  good_all c t m1 off l ss -> good_all c t m2 off l ss.
Proof.
  induction l as [|[pcr p] l IH]; intros off [|[pos f] ss] H HG; cbn [good_all] in *; auto.
  destruct HG as [HG1 HG2]. split; [|apply IH; [|exact HG2]; intros pos' f' o Hin; apply (H pos' f' o); right; exact Hin].
  unfold good_pes in *. destruct HG1 as (A1 & A2 & (x & X1 & X2) & A4 & A5 & A6 & A7 & A8).
  do 2 (split; [assumption|]). split; [|auto].
  destruct (H pos f off (or_introl eq_refl) ltac:(lia) (fun Ha => A7 (A8 Ha))) as (y & Y1 & Y2).
  exists y. split; [exact Y2|]. congruence.
Qed.

Lemma sublist_map {A B} (f : A -> B) a b : sublist a b -> sublist (map f a) (map f b).
Proof. intros H. induction H; cbn [map]; [apply sl_nil|apply sl_skip; assumption|apply sl_take; assumption]. Qed.

(* All frames of a stream, at the end. *)
Lemma end_CI c ch s p hh dn F B : CI c ch s p hh dn F B -> ms_frames s = [] ->
  dn = timed (ch_dts ch) (ch_frames ch) /\ B = [].
Proof.
  intros H E. pose proof (ci_dn _ _ _ _ _ _ _ _ H) as HD. rewrite E in HD. cbn [timed] in HD. rewrite app_nil_r in HD.
  split; [auto|]. pose proof (ci_ph _ _ _ _ _ _ _ _ H) as HP. rewrite E in HP.
  pose proof (ci_pieces _ _ _ _ _ _ _ _ H) as HF.
  destruct dn; [|exact (proj2 HP)]. inversion HF as [H1|]. destruct F; [|discriminate]. cbn in *. auto.
Qed.

Definition merged (ch : chan) : bool := match t_kind (ch_strm ch) with Audio => true | _ => false end.

Lemma mid_merged c align ch : good_top align (ch_top ch) (t_kind (ch_strm ch)) (ch_frames ch) -> merged ch = false ->
  mid_of c (ch_top ch) = MNone.
Proof. unfold merged. destruct (ch_top ch); cbn; auto; intros (-> & _); discriminate. Qed.

Lemma player_gets inter align chs : let c := conf_of inter align chs in
  good_conf c -> Forall (good_chan inter align) chs -> Forall readable chs ->
  exists s ops out ps, segment inter align chs = Some (s, ops) /\ contents (q_slots (s_q s)) = Some out /\
    parse_all out = Some ps /\ Forall (fun p => In (x_pid p) (map t_pid (c_strms c))) ps /\
    forall i ch, nth_error chs i = Some ch ->
      exists es ccs l starts,
        Forall2 (encodes (ch_top ch)) (ch_frames ch) es /\
        demux (t_pid (ch_strm ch)) out = Some (ccs, l) /\
        counts (t_cc0 (ch_strm ch)) ccs /\
        (is_other (ch_strm ch) = false -> l <> [] -> (t_cc0 (ch_strm ch) + Z.of_nat (length ccs)) mod 16 = 0) /\
        concat (map (fun r => p_data (snd r)) l) = concat es /\
        good_all c (ch_strm ch) (marks_of (begins 0 (timed (ch_dts ch) (ch_frames ch)) es)) 0 l starts /\
        sublist (map (fun x => (fst x, (f_pts (snd x), f_dts (snd x)))) starts)
          (begins 0 (timed (ch_dts ch) (ch_frames ch)) es) /\
        (merged ch = false ->
         map (fun x => (fst x, (f_pts (snd x), f_dts (snd x)))) starts =
         begins 0 (timed (ch_dts ch) (ch_frames ch)) es).
Proof.
  intros c HC HG HR. assert (HG' : good_chans c chs) by exact HG.
  destruct (segment_goes inter align chs HG' HR) as (s & ops & ES).
  destruct (segment_is inter align chs s ops HG' ES) as (-> & lf & HM).
  destruct (muxed_GI _ _ _ _ _ HG' HM) as (HF & ps & HI0 & HE). fold c in HF, HI0.
  destruct (player c ops HC HF) as (out & tps & P1 & P2 & P3 & P4).
  exists (run c (init c) ops), ops, out, tps. split; [exact ES|]. split; [exact P1|]. split; [exact P2|].
  split; [exact P3|]. intros i ch Hch.
  assert (Ht : nth_error (c_strms c) i = Some (ch_strm ch)) by (unfold c, conf_of; cbn [c_strms]; rewrite nth_error_map, Hch; reflexivity).
  destruct (P4 i _ Ht) as (ccs & l & Q1 & Q2 & Q3 & Q4 & Q5).
  destruct (gi_each _ _ _ _ _ HI0 i ch Hch) as (sf & p & dn & F & B & E1 & E2 & HCI).
  destruct (end_CI _ _ _ _ _ _ _ _ HCI (HE _ _ E1)) as (-> & ->).
  pose proof (ci_pieces _ _ _ _ _ _ _ _ HCI) as HP. rewrite app_nil_r in HP.
  pose proof (good_nth _ _ _ _ HG' Hch) as (G1 & G2 & _).
  assert (HRc : readable ch) by (rewrite Forall_forall in HR; exact (HR _ (nth_error_In _ _ Hch))).
  pose proof (ci_HI _ _ _ _ _ _ _ _ HCI) as HHI.
  exists (map (enc (ch_top ch)) (timed (ch_dts ch) (ch_frames ch))), ccs, l, (h_frames (pushed i ops)).
  split; [exact (enc_encodes _ _ ch G1 G2 HRc)|]. split; [exact Q1|]. split; [exact Q2|]. split; [exact Q3|].
  split. { rewrite Q4, (hi_data _ _ _ HHI). unfold pdata. rewrite (pieces_enc _ _ _ HP). reflexivity. }
  rewrite <- (pieces_marks _ _ _ 0 HP), <- (pieces_begins _ _ _ HP 0).
  split; [exact (good_all_marks _ _ _ _ _ _ _ (hi_cov _ _ _ HHI) Q5)|].
  split; [apply sublist_map; exact (hi_sub _ _ _ HHI)|].
  intros Hm. rewrite (ci_all _ _ _ _ _ _ _ _ HCI (mid_merged _ _ _ G2 Hm)). reflexivity.
Qed.

Lemma size_announced inter align chs s ops : let c := conf_of inter align chs in
  good_conf c -> Forall (good_chan inter align) chs -> supported chs = true -> segment inter align chs = Some (s, ops) ->
  announced inter align chs = 188 * (2 + Z.of_nat (length (q_slots (s_q s)))).
Proof.
  intros c HC HG HSup ES. destruct (segment_is inter align chs s ops HG ES) as (-> & lf & HM).
  destruct (muxed_GI _ _ _ _ _ HG HM) as (HF & _).
  unfold announced. rewrite (muxed_sim _ _ _ _ _ HG HSup HM). fold c in HF |- *. rewrite (size_is c ops HC HF). reflexivity.
Qed.

(* ---------- the order ---------- *)

Definition durs (ch : chan) : Prop := Forall (fun fr => 0 <= i_dur fr) (ch_frames ch).

Lemma timed_ge d l : Forall (fun fr => 0 <= i_dur fr) l -> Forall (fun x => d <= snd x) (timed d l).
Proof.
  intros H. revert d. induction H as [|fr l Hf H IH]; intros d; cbn [timed]; [constructor|].
  constructor; [cbn; lia|]. eapply Forall_impl; [|exact (IH (d + i_dur fr))]. cbn. intros; lia.
Qed.

Lemma timed_split l : forall d a x b, Forall (fun fr => 0 <= i_dur fr) l -> timed d l = a ++ x :: b ->
  Forall (fun y => snd x <= snd y) b.
Proof.
  induction l as [|fr l IH]; intros d a x b H E; cbn [timed] in E; [destruct a; discriminate|].
  inversion H; subst. destruct a as [|y a]; cbn [app] in E; injection E as E1 E2.
  - subst x b. cbn [snd]. eapply Forall_impl; [|apply timed_ge; assumption]. cbn. intros; lia.
  - exact (IH _ _ _ _ ltac:(assumption) E2).
Qed.

Lemma timed_len d l : length (timed d l) = length l.
Proof. rewrite <- (map_length fst), timed_fst. reflexivity. Qed.

(* What has been chosen is not later than what is to come. *)
Definition PW (chs : list chan) (l : list mst) : Prop :=
  forall i j ch dn si sj, nth_error chs i = Some ch -> nth_error l i = Some si -> nth_error l j = Some sj ->
    timed (ch_dts ch) (ch_frames ch) = dn ++ timed (ms_time si) (ms_frames si) ->
    ms_frames sj <> [] -> Forall (fun x => snd x <= ms_time sj) dn.

Lemma PW_same chs l l1 : length l1 = length l -> (forall n s, nth_error l n = Some s ->
    exists s1, nth_error l1 n = Some s1 /\ ms_frames s1 = ms_frames s /\ ms_time s1 = ms_time s) -> PW chs l -> PW chs l1.
Proof.
  intros HL H HP i j ch dn si sj E1 E2 E3 E4 E5.
  destruct (nth_error l i) as [xi|] eqn:Xi; [|apply nth_error_None in Xi; apply nth_lt in E2; lia].
  destruct (nth_error l j) as [xj|] eqn:Xj; [|apply nth_error_None in Xj; apply nth_lt in E3; lia].
  destruct (H i xi Xi) as (y & Y1 & Y2 & Y3). destruct (H j xj Xj) as (w & W1 & W2 & W3).
  assert (y = si) by congruence. assert (w = sj) by congruence. subst y w. rewrite Y2, Y3 in E4. rewrite W3. rewrite W2 in E5.
  exact (HP i j ch dn xi xj E1 Xi Xj E4 E5).
Qed.


Lemma PW_step c chs k l l1 l' ops ops1 ops2 : Forall durs chs -> length l = length chs ->
  (forall n ch s, nth_error chs n = Some ch -> nth_error l n = Some s -> exists dn,
     timed (ch_dts ch) (ch_frames ch) = dn ++ timed (ms_time s) (ms_frames s)) ->
  step_at c chs k l l1 l' ops ops1 ops2 -> PW chs l -> PW chs l'.
Proof.
  intros HDu HLen HTm HST HP.
  assert (HP1 : PW chs l1) by exact (PW_same chs l l1 (st_len _ _ _ _ _ _ _ _ _ HST) (st_same _ _ _ _ _ _ _ _ _ HST) HP).
  destruct (st_in _ _ _ _ _ _ _ _ _ HST) as (s & fr & frs & ch & S1 & S2 & S3 & S4 & S5 & _ & f & W & m' & _ & _ & ->).
  destruct (HTm k ch s S4 S1) as (dn0 & D0). rewrite S3 in D0. cbn [timed] in D0.
  assert (Hdur : 0 <= i_dur fr).
  { rewrite Forall_forall in HDu. pose proof (HDu ch (nth_error_In _ _ S4)) as Hd. unfold durs in Hd.
    rewrite Forall_forall in Hd. apply Hd. exact (timed_fr ch dn0 (ms_time s) fr frs D0). }
  pose proof (nth_lt _ _ _ _ S2) as Hlt.
  intros i j chi dn si sj E1 E2 E3 E4 E5.
  (* the stream j before *)
  assert (HJ : exists sj0, nth_error l1 j = Some sj0 /\ ms_frames sj0 <> [] /\ ms_time sj0 <= ms_time sj /\ ms_time s <= ms_time sj).
  { destruct (Nat.eq_dec j k) as [->|Hne].
    - rewrite nth_error_set_nth_eq in E3 by exact Hlt. injection E3 as <-. exists s. cbn [ms_time ms_frames] in *.
      split; [exact S2|]. split; [congruence|]. lia.
    - rewrite nth_error_set_nth_neq in E3 by congruence. exists sj. split; [exact E3|]. split; [exact E5|]. split; [lia|].
      destruct (nth_error l j) as [x|] eqn:Ex.
      + destruct (st_same _ _ _ _ _ _ _ _ _ HST j x Ex) as (y & Y1 & Y2 & Y3). assert (y = sj) by congruence. subst y.
        rewrite Y3. apply (S5 j x Ex). congruence.
      + apply nth_error_None in Ex. apply nth_lt in E3. pose proof (st_len _ _ _ _ _ _ _ _ _ HST). lia. }
  destruct HJ as (sj0 & J1 & J2 & J3 & J4).
  destruct (Nat.eq_dec i k) as [->|Hne].
  - rewrite nth_error_set_nth_eq in E2 by exact Hlt. injection E2 as <-. cbn [ms_time ms_frames] in E4.
    assert (chi = ch) by congruence. subst chi.
    assert (EQ : dn = dn0 ++ [(fr, ms_time s)]).
    { assert (HH : dn ++ timed (ms_time s + i_dur fr) frs = (dn0 ++ [(fr, ms_time s)]) ++ timed (ms_time s + i_dur fr) frs)
        by (rewrite <- app_assoc; cbn [app]; congruence).
      apply app_inv_tail in HH. exact HH. }
    subst dn. apply Forall_app. split; [|constructor; [exact J4|constructor]].
    assert (H0 : Forall (fun x : iframe * Z => snd x <= ms_time sj0) dn0).
    { apply (HP1 k j ch dn0 s sj0 S4 S2 J1); [rewrite S3; exact D0|exact J2]. }
    eapply Forall_impl; [|exact H0]. cbn. intros; lia.
  - rewrite nth_error_set_nth_neq in E2 by congruence.
    pose proof (HP1 i j chi dn si sj0 E1 E2 J1 E4 J2) as H0. eapply Forall_impl; [|exact H0]. cbn. intros; lia.
Qed.

(* Stream j when a frame of stream i begins. *)
Definition in_order (ch : chan) (j : nat) (a : list op) (d : Z) : Prop :=
  let l := timed (ch_dts ch) (ch_frames ch) in
  exists n, (n <= length l)%nat /\
    h_data (pushed j a) = concat (firstn n (map (enc (ch_top ch)) l)) /\
    Forall (fun x => snd x <= d) (firstn n l) /\ Forall (fun x => d - 31500 <= snd x) (skipn n l).

Definition ordered (chs : list chan) (i : nat) (ops : list op) : Prop :=
  forall a f b, ops = a ++ OStart i f :: b ->
  forall j ch, j <> i -> nth_error chs j = Some ch -> in_order ch j a (f_dts f).

Lemma split3 {A} (x y : list A) a o b : x ++ y = a ++ o :: b ->
  (exists b', x = a ++ o :: b') \/ (exists a', a = x ++ a' /\ y = a' ++ o :: b).
Proof.
  revert a. induction x as [|z x IH]; intros a H; [right; exists a; auto|].
  destruct a as [|w a]; cbn [app] in H; injection H as -> H.
  - left. exists x. reflexivity.
  - destruct (IH a H) as [(b' & ->)|(a' & -> & E)]; [left; exists b'; reflexivity|right; exists a'; auto].
Qed.

Lemma group_start i f W last f' a b : group i f W [] last = a ++ OStart i f' :: b -> a = [] /\ f' = f.
Proof.
  unfold group. cbn [sub_ops flat_map app]. destruct a as [|o a]; cbn [app]; intros H; injection H as E1 E2; [auto|].
  exfalso. assert (Hin : In (OStart i f') (map (OWrite i) W ++ [OFlush i last])) by (rewrite E2; apply in_elt).
  apply in_app_iff in Hin as [Hin|[Hin|[]]]; [|discriminate]. apply in_map_iff in Hin as (x & Hx & _). discriminate.
Qed.

Lemma fresh_order c ch s p hh dn F B d : CI c ch s p hh dn F B -> durs ch -> fresh c ch d s ->
  (ms_frames s <> [] -> d <= ms_time s) ->
  (forall x, In x dn -> snd x <= d) -> forall j a, hh = pushed j a -> in_order ch j a d.
Proof.
  intros HC HD HFr HT HLe j a ->. set (l := timed (ch_dts ch) (ch_frames ch)).
  pose proof (ci_dn _ _ _ _ _ _ _ _ HC) as HDn. pose proof (ci_pieces _ _ _ _ _ _ _ _ HC) as HP.
  apply Forall2_app_inv_r in HP as (dF & dB & PF & PB & ->). rewrite <- app_assoc in HDn.
  unfold in_order. fold l. exists (length dF). unfold l. rewrite HDn. rewrite app_length.
  assert (FA : forall A (x y : list A), firstn (length x) (x ++ y) = x /\ skipn (length x) (x ++ y) = y).
  { intros A x y. rewrite firstn_app, skipn_app, Nat.sub_diag, firstn_all, skipn_all. cbn. rewrite app_nil_r. auto. }
  split; [lia|]. rewrite map_app, (proj1 (FA _ dF _)), (proj2 (FA _ dF _)).
  rewrite <- (map_length (enc (ch_top ch)) dF), (proj1 (FA _ (map (enc (ch_top ch)) dF) _)). split; [|split].
  - rewrite (hi_data _ _ _ (ci_HI _ _ _ _ _ _ _ _ HC)). unfold pdata. rewrite (pieces_enc _ _ _ PF). reflexivity.
  - apply Forall_forall. intros x Hx. apply HLe. apply in_app_iff. left. exact Hx.
  - apply Forall_app. split.
    + destruct B as [|[f e] B]; [inversion PB; constructor|]. inversion PB as [|x p0 dB' B' HP1 HP2]; subst.
      pose proof (ci_held _ _ _ _ _ _ _ _ HC) as HH. unfold fresh in HFr.
      destruct (mid_of c (ch_top ch)) eqn:Em; cbn [held] in HH; try discriminate.
      specialize (HFr eq_refl). unfold buf_dts in HFr. rewrite (bi_phase _ _ _ HH) in HFr.
      pose proof (bi_cur _ _ _ HH ltac:(discriminate)) as HCu. unfold head_is in HCu. cbn [fst] in HCu. rewrite HCu in HFr.
      destruct HP1 as (P1 & _). cbn [fst] in P1.
      assert (Hx : d - 31500 <= snd x) by lia.
      constructor; [exact Hx|]. cbn [app] in HDn.
      pose proof (timed_split _ _ dF x (dB' ++ timed (ms_time s) (ms_frames s)) HD HDn) as HS.
      apply Forall_app in HS as [HS _]. eapply Forall_impl; [|exact HS]. cbn. intros; lia.
    + destruct (ms_frames s) as [|fr frs] eqn:Ef; [constructor|]. specialize (HT ltac:(discriminate)).
      assert (HDf : Forall (fun fr => 0 <= i_dur fr) (fr :: frs)).
      { unfold durs in HD. apply Forall_forall. intros x Hx. rewrite Forall_forall in HD. apply HD.
        rewrite <- (timed_fst (ch_dts ch) (ch_frames ch)), HDn, !map_app, timed_fst. apply in_app_iff. right. apply in_app_iff. auto. }
      eapply Forall_impl; [|apply timed_ge; exact HDf]. cbn. intros; lia.
Qed.

Lemma ordered_step c chs k t l ops ps i chi : strms c chs -> good_chans c chs -> Forall durs chs -> GI c chs l ops ps ->
  PW chs l -> nth_error chs i = Some chi -> mid_of c (ch_top chi) = MNone -> ordered chs i ops ->
  choose 0 None l = Some (k, t) ->
  forall l' ops', mux_frame c chs k l = Some (l', ops') ->
  PW chs l' /\ ordered chs i (ops ++ ops').
Proof.
  intros HS HG HDu HI0 HPW Hchi Hm HO HC l' ops' E.
  destruct (mux_step c chs k t l ops ps HS HG HI0 HC l' ops' E) as (l1 & o1 & o2 & ps1 & ps' & -> & G1 & G2 & _ & HST).
  assert (HTm : forall n ch s, nth_error chs n = Some ch -> nth_error l n = Some s -> exists dn,
     timed (ch_dts ch) (ch_frames ch) = dn ++ timed (ms_time s) (ms_frames s)).
  { intros n ch s E1 E2. destruct (gi_each _ _ _ _ _ HI0 n ch E1) as (s0 & p & dn & F & B & A1 & A2 & A3).
    assert (s0 = s) by congruence. subst s0. exists dn. exact (ci_dn _ _ _ _ _ _ _ _ A3). }
  pose proof (gi_len _ _ _ _ _ HI0) as HLen.
  split; [exact (PW_step c chs k l l1 l' ops o1 o2 HDu HLen HTm HST HPW)|].
  intros a f b EQ j chj Hne Hj. apply split3 in EQ as [(b' & EQ)|(a' & -> & EQ)]; [exact (HO a f b' EQ j chj Hne Hj)|].
  apply split3 in EQ as [(b' & EQ)|(a2 & -> & EQ)].
  - exfalso. pose proof (st_late _ _ _ _ _ _ _ _ _ HST) as HL. rewrite EQ in HL. apply Forall_app in HL as [_ HL].
    inversion HL as [|? ? (ch & X1 & X2) _]. cbn [op_strm] in X1. congruence.
  - pose proof (st_on _ _ _ _ _ _ _ _ _ HST) as HOn. rewrite EQ in HOn. apply Forall_app in HOn as [_ HOn].
    inversion HOn as [|? ? X1 _]. cbn [op_strm] in X1. subst k. clear HOn.
    destruct (st_in _ _ _ _ _ _ _ _ _ HST) as (s & fr & frs & ch & S1 & S2 & S3 & S4 & S5 & S6 & f0 & W & m' & D1 & D2 & _).
    assert (ch = chi) by congruence. subst ch. rewrite (D2 Hm) in EQ. destruct (group_start _ _ _ _ _ _ _ EQ) as [-> ->].
    rewrite D1. rewrite app_nil_r.
    destruct (gi_each _ _ _ _ _ G1 j chj Hj) as (sj & p & dn & F & B & A1 & A2 & A3).
    assert (HP1 : PW chs l1) by exact (PW_same chs l l1 (st_len _ _ _ _ _ _ _ _ _ HST) (st_same _ _ _ _ _ _ _ _ _ HST) HPW).
    apply (fresh_order c chj sj p (pushed j (ops ++ o1)) dn F B (ms_time s) A3).
    + rewrite Forall_forall in HDu. exact (HDu _ (nth_error_In _ _ Hj)).
    + exact (S6 j sj chj Hne A1 Hj).
    + intros Hf. destruct (nth_error l j) as [s9|] eqn:Ex; [|apply nth_error_None in Ex; apply nth_lt in A1; pose proof (st_len _ _ _ _ _ _ _ _ _ HST); lia].
      destruct (st_same _ _ _ _ _ _ _ _ _ HST j s9 Ex) as (y & Y1 & Y2 & Y3). assert (y = sj) by congruence. subst y.
      rewrite Y3. apply (S5 j s9 Ex). congruence.
    + assert (HH : Forall (fun x : iframe * Z => snd x <= ms_time s) dn).
      { apply (HP1 j i chj dn sj s Hj A1 S2 (ci_dn _ _ _ _ _ _ _ _ A3)). congruence. }
      rewrite Forall_forall in HH. exact HH.
    + reflexivity.
Qed.

Lemma ordered_all c chs i chi : strms c chs -> good_chans c chs -> Forall durs chs ->
  nth_error chs i = Some chi -> mid_of c (ch_top chi) = MNone -> forall n l ops ps, GI c chs l ops ps ->
  PW chs l -> ordered chs i ops -> forall l' ops', mux n c chs l = Some (l', ops') -> ordered chs i (ops ++ ops').
Proof.
  intros HS HG HDu Hchi Hm. induction n as [|n IH]; intros l ops ps HI0 HPW HO l' ops' E; cbn [mux] in E;
    (destruct (choose 0 None l) as [[k t]|] eqn:EC; [|injection E as <- <-; rewrite app_nil_r; exact HO]).
  - discriminate.
  - destruct (mux_frame c chs k l) as [[l1 o1]|] eqn:E1; [|discriminate].
    destruct (mux n c chs l1) as [[l2 o2]|] eqn:E2; [|discriminate]. injection E as <- <-.
    destruct (ordered_step c chs k t l ops ps i chi HS HG HDu HI0 HPW Hchi Hm HO EC _ _ E1) as [A1 A2].
    destruct (mux_step c chs k t l ops ps HS HG HI0 EC _ _ E1) as (lx & ox & oy & psx & ps1 & _ & _ & A3 & _).
    rewrite app_assoc. exact (IH _ _ _ A3 A1 A2 _ _ E2).
Qed.

Lemma begun_PW c chs l : begun c chs l -> PW chs l.
Proof.
  intros [A1 A2] i j ch dn si sj E1 E2 E3 E4 E5. destruct (A2 i ch si E1 E2) as (B1 & B2 & _).
  rewrite B1, B2 in E4. apply (f_equal (@length _)) in E4. rewrite app_length in E4.
  destruct dn; [constructor|cbn in E4; lia].
Qed.

Lemma segment_order inter align chs s ops i chi : Forall (good_chan inter align) chs -> Forall durs chs ->
  segment inter align chs = Some (s, ops) -> nth_error chs i = Some chi -> merged chi = false -> ordered chs i ops.
Proof.
  intros HG HDu ES Hchi Hm. set (c := conf_of inter align chs). assert (HG' : good_chans c chs) by exact HG.
  destruct (segment_is inter align chs s ops HG' ES) as (-> & lf & l0 & HB & E). fold c in HB, E.
  pose proof (good_nth _ _ _ _ HG' Hchi) as (_ & G2 & _).
  apply (ordered_all c chs i chi eq_refl HG' HDu Hchi (mid_merged c _ _ G2 Hm) _ _ [] _ (begun_GI c chs l0 eq_refl HB)
    (begun_PW c chs l0 HB)) with (2 := E). intros a f b EQ. destruct a; discriminate.
Qed.
