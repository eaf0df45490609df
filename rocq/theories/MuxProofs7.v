(* Proofs about the MPEG-TS muxer, part 7: all streams. *)

From Coq Require Import ZArith List Bool Lia ZifyBool.
From Verif Require Import Lists TsModel TsSpec TsProofs12 MuxModel MuxSpec.
From Verif Require Import MuxProofs MuxProofs2 MuxProofs3 MuxProofs4 MuxProofs5 MuxProofs6.
Import ListNotations.
Open Scope Z_scope.

(* ---------- the next stream ---------- *)

Lemma choose_some l : forall j best k t, choose j best l = Some (k, t) ->
  (best = Some (k, t) \/
   exists n s, nth_error l n = Some s /\ k = (j + n)%nat /\ ms_time s = t /\ ms_frames s <> []) /\
  (forall n s, nth_error l n = Some s -> ms_frames s <> [] -> t <= ms_time s) /\
  (forall k' t', best = Some (k', t') -> t <= t').
Proof.
  induction l as [|s l IH]; intros j best k t H; cbn [choose] in H.
  - split; [auto|]. split; [intros [|n]; discriminate|]. intros k' t' E. rewrite H in E. injection E as -> ->. lia.
  - apply IH in H. destruct H as (H1 & H2 & H3).
    destruct (ms_frames s) as [|fr frs] eqn:Ef.
    + split.
      { destruct H1 as [H1|(n & s1 & A1 & A2 & A3 & A4)]; [auto|]. right. exists (S n), s1. cbn. repeat split; auto; lia. }
      split; [|exact H3]. intros [|n] s1 E1 E2; cbn in E1; [injection E1 as <-; congruence|eauto].
    + destruct best as [[kb tb]|].
      * destruct (ms_time s <? tb) eqn:Et.
        -- split.
           { destruct H1 as [H1|(n & s1 & A1 & A2 & A3 & A4)].
             - injection H1 as <- <-. right. exists O, s. cbn. repeat split; auto; try lia; congruence.
             - right. exists (S n), s1. cbn. repeat split; auto; lia. }
           specialize (H3 _ _ eq_refl). split.
           ++ intros [|n] s1 E1 E2; cbn in E1; [injection E1 as <-; lia|eauto].
           ++ intros k' t' E. injection E as <- <-. lia.
        -- split.
           { destruct H1 as [H1|(n & s1 & A1 & A2 & A3 & A4)]; [auto|]. right. exists (S n), s1. cbn. repeat split; auto; lia. }
           specialize (H3 _ _ eq_refl). split.
           ++ intros [|n] s1 E1 E2; cbn in E1; [injection E1 as <-; lia|eauto].
           ++ intros k' t' E. injection E as <- <-. lia.
      * split.
        { destruct H1 as [H1|(n & s1 & A1 & A2 & A3 & A4)].
          - injection H1 as <- <-. right. exists O, s. cbn. repeat split; auto; try lia; congruence.
          - right. exists (S n), s1. cbn. repeat split; auto; lia. }
        specialize (H3 _ _ eq_refl). split; [|discriminate].
        intros [|n] s1 E1 E2; cbn in E1; [injection E1 as <-; lia|eauto].
Qed.

Lemma choose_is l k t : choose 0 None l = Some (k, t) ->
  exists s, nth_error l k = Some s /\ ms_time s = t /\ ms_frames s <> [] /\
    forall n s', nth_error l n = Some s' -> ms_frames s' <> [] -> ms_time s <= ms_time s'.
Proof.
  intros H. apply choose_some in H. destruct H as ([H|(n & s & H1 & H2 & H3 & H4)] & H5 & _); [discriminate|].
  cbn in H2. subst n t. exists s. split; [exact H1|]. split; [reflexivity|]. split; [exact H4|exact H5].
Qed.

Lemma choose_none l : forall j best, choose j best l = None ->
  best = None /\ forall n s, nth_error l n = Some s -> ms_frames s = [].
Proof.
  induction l as [|s l IH]; intros j best H; cbn [choose] in H.
  - split; [exact H|]. intros [|n]; discriminate.
  - apply IH in H. destruct H as [H1 H2]. destruct (ms_frames s) as [|fr frs] eqn:Ef.
    + split; [exact H1|]. intros [|n] s1 E; cbn in E; [injection E as <-; exact Ef|eauto].
    + destruct best as [[kb tb]|]; [destruct (ms_time s <? tb); discriminate|discriminate].
Qed.

(* ---------- how many frames are left ---------- *)

Lemma left_set l : forall k s s', nth_error l k = Some s ->
  (frames_left (set_nth l k s') + length (ms_frames s) = frames_left l + length (ms_frames s'))%nat.
Proof.
  induction l as [|x l IH]; intros [|k] s s' H; cbn in *; try discriminate.
  - injection H as ->. lia.
  - specialize (IH _ _ s' H). unfold frames_left in *. lia.
Qed.

Lemma left_same l : forall l', length l = length l' ->
  (forall n s s', nth_error l n = Some s -> nth_error l' n = Some s' -> ms_frames s' = ms_frames s) ->
  frames_left l' = frames_left l.
Proof.
  induction l as [|x l IH]; intros [|y l'] HL H; cbn [length] in *; try discriminate; [reflexivity|].
  change (length (ms_frames y) + frames_left l' = length (ms_frames x) + frames_left l)%nat.
  rewrite (H O x y eq_refl eq_refl), (IH l'); [reflexivity|lia|]. intros n s s' E1 E2. exact (H (S n) s s' E1 E2).
Qed.

Lemma left_one l k s : nth_error l k = Some s -> ms_frames s <> [] -> (0 < frames_left l)%nat.
Proof.
  revert k. induction l as [|x l IH]; intros [|k] H1 H2; cbn in *; try discriminate.
  - injection H1 as ->. destruct (ms_frames s); [congruence|cbn; lia].
  - specialize (IH _ H1 H2). unfold frames_left in IH. lia.
Qed.

Lemma F2_length A B (R : A -> B -> Prop) l m : Forall2 R l m -> length l = length m.
Proof. induction 1; cbn; congruence. Qed.

(* ---------- a stream ---------- *)

(* p is what becomes of a frame. *)
Definition piece_of (tp : top) (x : iframe * Z) (p : frame * list Z) : Prop :=
  f_dts (fst p) = snd x /\ f_pts (fst p) = snd x + i_delay (fst x) /\ f_header (fst p) = top_header tp /\
  snd p <> [] /\ good_frame (fst x) /\
  (match tp with TVideo _ => True | _ => zlen (snd p) = top_extra tp (fst x) + i_size (fst x) end) /\
  exists calls last, top_frame tp (fst x) (snd x) last = Some calls /\ snd p = written calls.

Record CI (c : conf) (ch : chan) (s : mst) (p : phase) (hh : hist)
  (dn : list (iframe * Z)) (F B : list (frame * list Z)) : Prop := {
  ci_dn : timed (ch_dts ch) (ch_frames ch) = dn ++ timed (ms_time s) (ms_frames s);
  ci_pieces : Forall2 (piece_of (ch_top ch)) dn (F ++ B);
  ci_held : held c (mid_of c (ch_top ch)) (ms_fil s) B;
  ci_HI : HI c hh F;
  ci_new : dn = [] -> p = New;
  ci_all : mid_of c (ch_top ch) = MNone -> h_frames hh = pbegins 0 F;
  ci_ph : match ms_frames s, dn with
          | [], _ :: _ => p = Done /\ B = []
          | _, _ => before (mid_of c (ch_top ch)) (ms_fil s) p F
          end
}.

Record GI (c : conf) (chs : list chan) (l : list mst) (ops : list op) (ps : list phase) : Prop := {
  gi_ph : phases c ops = Some ps;
  gi_len : length l = length chs;
  gi_each : forall i ch, nth_error chs i = Some ch ->
    exists s p dn F B, nth_error l i = Some s /\ nth_error ps i = Some p /\ CI c ch s p (pushed i ops) dn F B
}.

Definition strms (c : conf) (chs : list chan) : Prop := c_strms c = map ch_strm chs.

Lemma strm_of c chs i ch : strms c chs -> nth_error chs i = Some ch -> nth_error (c_strms c) i = Some (ch_strm ch).
Proof. intros H E. unfold strms in H. rewrite H. apply map_nth_error. exact E. Qed.

Lemma ready_out p : ready p -> is_in p = false.
Proof. intros [->| ->]; reflexivity. Qed.

Lemma not_join c tp : c_inter c = false -> mid_of c tp <> MJoin.
Proof. intros H. destruct tp; cbn; rewrite ?H; discriminate. Qed.

Lemma CI_out c ch s p hh dn F B : c_inter c = false -> CI c ch s p hh dn F B -> is_in p = false.
Proof.
  intros Hi H. pose proof (ci_ph _ _ _ _ _ _ _ _ H) as HP. pose proof (not_join c (ch_top ch) Hi) as HN.
  assert (HB : before (mid_of c (ch_top ch)) (ms_fil s) p F -> is_in p = false).
  { destruct (mid_of c (ch_top ch)); [exact (ready_out p)|exact (ready_out p)|congruence]. }
  destruct (ms_frames s); [|exact (HB HP)]. destruct dn; [exact (HB HP)|]. destruct HP as [-> _]. reflexivity.
Qed.

Lemma GI_update c chs l ops ps k ch s' p ops2 p' dn F B : strms c chs ->
  GI c chs l ops ps -> nth_error chs k = Some ch -> nth_error ps k = Some p ->
  all_on k ops2 -> local c (ch_strm ch) p ops2 = Some p' ->
  CI c ch s' p' (push k (pushed k ops) ops2) dn F B ->
  GI c chs (set_nth l k s') (ops ++ ops2) (set_nth ps k p').
Proof.
  intros HS [P L E] Hch Hp HO HL HC. constructor.
  - unfold phases in *. rewrite tracks_app, P.
    apply (tracks_local c k (ch_strm ch) ops2 (strm_of _ _ _ _ HS Hch) ps p p' Hp HO HL).
    destruct (c_inter c) eqn:Ei; [left; reflexivity|right]. intros j q Hj Hq.
    assert (Hlt : (j < length chs)%nat).
    { assert (HL2 : length ps = length (c_strms c)).
      { clear - P. assert (G : forall o ps ps', tracks c ps o = Some ps' -> length ps' = length ps).
        { induction o as [|x o IH]; intros ps0 ps' H; cbn in H; [injection H as <-; reflexivity|].
          unfold track in H. destruct (nth_error (c_strms c) (op_strm x)); [|discriminate].
          destruct (nth_error ps0 (op_strm x)) as [q|]; [|discriminate]. destruct (alone c ps0 x); [|discriminate].
          destruct (next_phase c s q x) as [q'|]; [|discriminate]. rewrite (IH _ _ H). apply set_nth_length. }
        rewrite (G _ _ _ P), map_length. reflexivity. }
      rewrite HS, map_length in HL2. rewrite <- HL2. exact (nth_lt _ _ _ _ Hq). }
    destruct (nth_error chs j) as [chj|] eqn:Ej; [|apply nth_error_None in Ej; lia].
    destruct (E j chj Ej) as (sj & pj & dnj & Fj & Bj & A1 & A2 & A3).
    rewrite A2 in Hq. injection Hq as <-. exact (CI_out _ _ _ _ _ _ _ _ Ei A3).
  - rewrite set_nth_length. exact L.
  - intros j chj Ej. destruct (Nat.eq_dec j k) as [->|Hne].
    + assert (chj = ch) by congruence. subst chj. destruct (E k ch Hch) as (sk & pk & dnk & Fk & Bk & A1 & A2 & A3).
      exists s', p', dn, F, B. rewrite nth_error_set_nth_eq by exact (nth_lt _ _ _ _ A1).
      rewrite nth_error_set_nth_eq by exact (nth_lt _ _ _ _ A2). rewrite pushed_push. auto.
    + destruct (E j chj Ej) as (sj & pj & dnj & Fj & Bj & A1 & A2 & A3).
      exists sj, pj, dnj, Fj, Bj. rewrite !nth_error_set_nth_neq by congruence.
      rewrite pushed_push, (push_other j k) by (auto; congruence). auto.
Qed.

(* ---------- good channels ---------- *)

Lemma timed_in d l x : In x (timed d l) -> In (fst x) l.
Proof.
  revert d. induction l as [|fr l IH]; intros d H; cbn in *; [destruct H|].
  destruct H as [<-|H]; [auto|right; eauto].
Qed.

Lemma chan_start c ch : good_chan (c_inter c) (c_align c) ch -> can_start c (ch_strm ch) (top_header (ch_top ch)).
Proof.
  intros (_ & HT & _). unfold can_start. destruct (ch_top ch) as [v|a| |]; cbn [top_header].
  - destruct (aud_full _ _ _ _ HT) as (_ & _ & A). split; [right; right; lia|lia].
  - split; [right; right; lia|lia].
  - destruct HT as [_ ->]. split; [auto|lia].
  - destruct HT as [HT _]. split; [right; left; unfold is_other; rewrite HT; reflexivity|lia].
Qed.

Lemma piece_is_ok c ch x p : good_chan (c_inter c) (c_align c) ch -> In (fst x) (ch_frames ch) ->
  piece_of (ch_top ch) x p -> piece_ok c (ch_strm ch) (top_header (ch_top ch)) p.
Proof.
  intros (HG & HT & _) HI0 (P1 & P2 & P3 & P4 & P5 & P6 & P7). destruct P5 as (S1 & _ & _). constructor.
  - exact P4.
  - exact P3.
  - unfold fits. destruct (ch_top ch) as [v|a| |].
    + destruct HT as [HT _]. right. left. unfold is_video. rewrite HT. reflexivity.
    + destruct HT as (_ & _ & _ & _ & HT). rewrite Forall_forall in HT. specialize (HT _ HI0). right. right.
      rewrite P6. cbn [top_extra]. lia.
    + left. exact (proj2 HT).
    + destruct HT as (_ & _ & HT). rewrite Forall_forall in HT. destruct (HT _ HI0) as [_ [HA|HA]]; [auto|].
      right. right. rewrite P6. cbn [top_extra]. lia.
  - intros Ha Hv Ho. destruct (ch_top ch) as [v|a| |].
    + destruct HT as [HT _]. unfold is_video in Hv. rewrite HT in Hv. discriminate.
    + rewrite P6. cbn [top_extra]. lia.
    + destruct HT as [_ HT]. congruence.
    + destruct HT as [HT _]. unfold is_other in Ho. rewrite HT in Ho. discriminate.
Qed.

Lemma pieces_ok c ch dn ps rest : good_chan (c_inter c) (c_align c) ch ->
  timed (ch_dts ch) (ch_frames ch) = dn ++ rest -> Forall2 (piece_of (ch_top ch)) dn ps ->
  Forall (piece_ok c (ch_strm ch) (top_header (ch_top ch))) ps.
Proof.
  intros HG HT H.
  assert (HIn : Forall (fun x => In (fst x) (ch_frames ch)) dn).
  { apply Forall_forall. intros x Hx. apply (timed_in (ch_dts ch)). rewrite HT. apply in_or_app. auto. }
  clear HT. induction H as [|x p dn ps Hx H IH]; [constructor|]. inversion HIn; subst.
  constructor; [exact (piece_is_ok c ch x p HG ltac:(assumption) Hx)|auto].
Qed.

Lemma mid_kind c ch : good_chan (c_inter c) (c_align c) ch -> mid_of c (ch_top ch) <> MNone ->
  is_video (ch_strm ch) = false /\ is_other (ch_strm ch) = false.
Proof.
  intros (_ & HT & _) HK. unfold is_video, is_other. destruct (ch_top ch) as [v|a| |]; cbn in HK; try congruence;
    destruct HT as [-> _]; split; reflexivity.
Qed.

Lemma last_frame c ch (last : bool) d fr frs dn : good_chan (c_inter c) (c_align c) ch ->
  timed (ch_dts ch) (ch_frames ch) = dn ++ timed d (fr :: frs) ->
  last = (match frs with [] => true | _ => false end) ->
  last = true \/ c_align c = true \/ is_other (ch_strm ch) = false.
Proof.
  intros (_ & HT & _) HD ->. destruct (ch_top ch) as [v|a| |] eqn:Et.
  - right. right. unfold is_other. destruct HT as [-> _]. reflexivity.
  - right. right. unfold is_other. destruct HT as [-> _]. reflexivity.
  - right. left. exact (proj2 HT).
  - destruct HT as (_ & HL & _). destruct HL as [HL|HL]; [auto|]. left.
    apply (f_equal (@length _)) in HD. rewrite app_length in HD.
    assert (EL : forall d l, length (timed d l) = length l).
    { clear. intros d l. revert d. induction l as [|x l IH]; intros d; cbn; auto. }
    rewrite !EL in HD. cbn in HD. destruct frs; [reflexivity|cbn in HD; lia].
Qed.

(* The joined frames fit. *)
Lemma pieces_split tp dn ps : Forall2 (piece_of tp) dn ps -> forall a b, ps = a ++ b ->
  exists da db, dn = da ++ db /\ Forall2 (piece_of tp) da a /\ Forall2 (piece_of tp) db b.
Proof.
  intros H a b ->. apply Forall2_app_inv_r in H. destruct H as (da & db & H1 & H2 & ->). eauto.
Qed.

Lemma last_rel A B (R : A -> B -> Prop) D P : Forall2 R D P -> forall dy dx, R dy dx -> R (last D dy) (last P dx).
Proof.
  induction 1 as [|y x D P Hxy H IH]; intros dy dx Hd; [exact Hd|].
  destruct H as [|y2 x2 D P Hxy2 H]; [exact Hxy|].
  change (last (y :: y2 :: D) dy) with (last (y2 :: D) dy). change (last (x :: x2 :: P) dx) with (last (x2 :: P) dx).
  exact (IH dy dx Hd).
Qed.

Lemma chan_JB c ch dn ps rest : good_chan (c_inter c) (c_align c) ch ->
  timed (ch_dts ch) (ch_frames ch) = dn ++ rest -> Forall2 (piece_of (ch_top ch)) dn ps ->
  mid_of c (ch_top ch) = MJoin -> JB c (ch_strm ch) ps.
Proof.
  intros (HG & HT & HS) HD HP HM a x b Ep Hlt. unfold fits.
  destruct (c_align c) eqn:Ea; [auto|]. right. right.
  assert (Hi : c_inter c = true).
  { destruct (c_inter c) eqn:Ei; [reflexivity|]. destruct (not_join c (ch_top ch) Ei HM). }
  assert (Haac : exists q, ch_top ch = TAac q).
  { destruct (ch_top ch) as [v|q| |]; cbn in HM; try discriminate; [eauto|]. destruct HT; congruence. }
  destruct Haac as (q & Eq). rewrite Eq in *. destruct HT as (Hk & _).
  specialize (HS Hi eq_refl Hk).
  destruct (pieces_split _ _ _ HP a (x :: b) Ep) as (da & db & E1 & F1 & F2).
  inversion F2 as [|y p' db' ps' Hy F3]; subst.
  assert (Hlast : f_dts (fst (last (x :: b) x)) = snd (last (y :: db') y)).
  { pose proof (last_rel _ _ _ _ _ F2 y x Hy) as (E & _). exact E. }
  assert (Hsz : zlen (pdata (x :: b)) = fold_right (fun p n => i_size (fst p) + 7 + n) 0 (y :: db')).
  { clear - F2. revert F2. generalize (x :: b) as P, (y :: db') as D. intros P D H.
    induction H as [|[fr d] [f e] D P Hxy H IH]; [reflexivity|].
    unfold pdata in *. cbn [map concat snd fst fold_right] in *. rewrite zlen_app, IH.
    destruct Hxy as (_ & _ & _ & _ & _ & E & _). cbn [fst snd top_extra] in E. lia. }
  rewrite Hsz. refine (HS da y db' (last (y :: db') y) rest _ eq_refl _).
  - rewrite HD, <- app_assoc. reflexivity.
  - destruct Hy as (Ey & _). rewrite <- Hlast, <- Ey. exact Hlt.
Qed.

(* ---------- a frame ---------- *)

Definition good_chans (c : conf) (chs : list chan) : Prop :=
  Forall (good_chan (c_inter c) (c_align c)) chs.

Lemma good_nth c chs i ch : good_chans c chs -> nth_error chs i = Some ch -> good_chan (c_inter c) (c_align c) ch.
Proof. intros H E. unfold good_chans in H. rewrite Forall_forall in H. apply H. eapply nth_error_In. exact E. Qed.

Lemma timed_fr ch dn d fr frs : timed (ch_dts ch) (ch_frames ch) = dn ++ timed d (fr :: frs) -> In fr (ch_frames ch).
Proof.
  intros H. change fr with (fst (fr, d)). apply (timed_in (ch_dts ch)). rewrite H. apply in_or_app. right. left. reflexivity.
Qed.

(* The channel k gets its next frame. *)
Lemma CI_frame c ch i s p hh dn F B fr frs calls : good_chan (c_inter c) (c_align c) ch ->
  CI c ch s p hh dn F B -> ms_frames s = fr :: frs ->
  top_frame (ch_top ch) fr (ms_time s) (match frs with [] => true | _ => false end) = Some calls ->
  exists m' ops p' F1 B' f W, mid_calls c i (mid_of c (ch_top ch)) (ms_fil s) calls = Some (m', ops) /\
    all_on i ops /\ local c (ch_strm ch) p ops = Some p' /\
    CI c ch (Mst frs (ms_time s + i_dur fr) m') p' (push i hh ops) (dn ++ [(fr, ms_time s)]) (F ++ F1) B' /\
    B ++ [(f, concat W)] = F1 ++ B' /\
    calls = frame_calls f W (match frs with [] => true | _ => false end) /\ W <> [] /\ Forall full W /\
    f_dts f = ms_time s /\ f_header f = top_header (ch_top ch) /\
    (nal4 (ch_top ch) -> zlen (concat W) = top_extra (ch_top ch) fr + i_size fr) /\
    (mid_of c (ch_top ch) = MNone -> ops = group i f W [] (match frs with [] => true | _ => false end)).
Proof.
  intros HG HC Ef ET. destruct HC as [C1 C2 C3 C4 Cn Ca C5]. rewrite Ef in *.
  pose proof (timed_fr _ _ _ _ _ C1) as HIn.
  pose proof HG as (HG1 & HG2 & _). rewrite Forall_forall in HG1. pose proof (HG1 _ HIn) as Hfr.
  set (last := match frs with [] => true | _ => false end) in *.
  destruct (top_shape _ _ _ _ _ _ _ _ ET Hfr HG2) as (f & W & E1 & E2 & E3 & E4 & E5 & E6 & E7 & E8).
  assert (Hpc : piece_of (ch_top ch) (fr, ms_time s) (f, concat W)).
  { unfold piece_of. cbn [fst snd]. split; [exact E4|]. split; [exact E5|]. split; [exact E6|].
    split. { clear - E2 E3. destruct E3 as [|x W Hx HF]; [congruence|]. cbn. destruct x; [congruence|discriminate]. }
    split; [exact Hfr|]. split; [exact E8|]. exists calls, last. split; [exact ET|].
    rewrite E1. cbn [written]. rewrite written_app, written_map. cbn [written]. rewrite app_nil_r. reflexivity. }
  assert (HP2 : Forall2 (piece_of (ch_top ch)) (dn ++ [(fr, ms_time s)]) ((F ++ B) ++ [(f, concat W)])).
  { apply Forall2_app; [exact C2|]. constructor; [exact Hpc|constructor]. }
  assert (HD2 : timed (ch_dts ch) (ch_frames ch) = (dn ++ [(fr, ms_time s)]) ++ timed (ms_time s + i_dur fr) frs).
  { rewrite <- app_assoc. exact C1. }
  pose proof (pieces_ok c ch _ _ _ HG HD2 HP2) as HO. rewrite <- app_assoc in HO.
  assert (HJ : mid_of c (ch_top ch) = MJoin -> JB c (ch_strm ch) (F ++ [(f, concat W)])).
  { intros HM. rewrite HM in C3. cbn [held] in C3. subst B. rewrite app_nil_r in HP2.
    exact (chan_JB c ch _ _ _ HG HD2 HP2 HM). }
  destruct (mid_frame c i (ch_strm ch) (top_header (ch_top ch)) (mid_of c (ch_top ch)) (ms_fil s) p hh F B f W last
              C3 C5 C4 E2 E3 HO (chan_start c ch HG) (mid_kind c ch HG)
              (last_frame c ch last _ fr frs dn HG C1 eq_refl) HJ)
    as (m' & ops & p' & F1 & B' & M1 & M2 & M3 & M4 & M5 & M6 & M7 & M8).
  exists m', ops, p', F1, B', f, W. rewrite E1. split; [exact M1|]. split; [exact M2|]. split; [exact M4|].
  split.
  { constructor; cbn [ms_time ms_frames ms_fil].
    - exact HD2.
    - rewrite <- app_assoc, <- M3, app_assoc. exact HP2.
    - exact M5.
    - exact M6.
    - intros C. destruct dn; discriminate.
    - intros HM. rewrite (M8 HM), push_group. cbn [h_frames]. rewrite (Ca HM).
      rewrite HM in C3, M5. cbn [held] in C3, M5. subst B B'. rewrite app_nil_r in M3. cbn [app] in M3. subst F1.
      rewrite pbegins_app. cbn [pbegins]. rewrite (hi_data _ _ _ C4). reflexivity.
    - subst last. destruct frs as [|fr2 frs]; [|exact M7].
      destruct (dn ++ [(fr, ms_time s)]) eqn:Ed; [destruct dn; discriminate|exact M7]. }
  split; [exact M3|]. split; [reflexivity|]. split; [exact E2|]. split; [exact E3|]. split; [exact E4|].
  split; [exact E6|]. split; [exact E7|exact M8].
Qed.

(* ---------- streams that wait for too long ---------- *)

Definition late_one (c : conf) (ch : chan) (k j : nat) (dts : Z) (s : mst) : mst * list op :=
  match mid_of c (ch_top ch), buf_dts (fl_buf (ms_fil s)) with
  | MBuf, Some d =>
      if negb (j =? k)%nat && (d + delay / 2 <? dts) then
        let '(m, ops) :=
          with_buf (ms_fil s) (buf_force j (c_align c) false (fl_buf (ms_fil s))) in
        (Mst (ms_frames s) (ms_time s) m, ops)
      else (s, [])
  | _, _ => (s, [])
  end.

Lemma late_cons c ch chs k j dts s l :
  flush_late c (ch :: chs) k j dts (s :: l) =
  let '(s, ops1) := late_one c ch k j dts s in
  let '(l, ops2) := flush_late c chs k (S j) dts l in (s :: l, ops1 ++ ops2).
Proof. reflexivity. Qed.

(* Nothing waits for longer. *)
Definition fresh (c : conf) (ch : chan) (dts : Z) (s : mst) : Prop :=
  mid_of c (ch_top ch) = MBuf ->
  match buf_dts (fl_buf (ms_fil s)) with Some d => dts <= d + 31500 | None => True end.

Lemma late_one_ok c chs ch k j dts s l ops ps : strms c chs -> good_chans c chs -> GI c chs l ops ps ->
  nth_error chs j = Some ch -> nth_error l j = Some s ->
  forall s' ops1, late_one c ch k j dts s = (s', ops1) ->
  exists ps', GI c chs (set_nth l j s') (ops ++ ops1) ps' /\ ms_frames s' = ms_frames s /\ ms_time s' = ms_time s /\
    (j = k -> s' = s) /\ (j <> k -> fresh c ch dts s') /\
    (all_on j ops1 /\ (ops1 <> [] -> mid_of c (ch_top ch) = MBuf)).
Proof.
  intros HS HG HI0 Hch Hs s' ops1 E.
  assert (Hno : (s', ops1) = (s, []) -> (j <> k -> fresh c ch dts s) ->
    exists ps', GI c chs (set_nth l j s') (ops ++ ops1) ps' /\ ms_frames s' = ms_frames s /\ ms_time s' = ms_time s /\
    (j = k -> s' = s) /\ (j <> k -> fresh c ch dts s') /\
    (all_on j ops1 /\ (ops1 <> [] -> mid_of c (ch_top ch) = MBuf))).
  { intros E0 Hfr. injection E0 as -> ->. exists ps. rewrite app_nil_r, (set_nth_same _ _ _ Hs).
    split; [exact HI0|]. do 4 (split; [auto|]). split; [constructor|congruence]. }
  unfold late_one in E. destruct (mid_of c (ch_top ch)) eqn:Em.
  - apply Hno; [congruence|]. intros _ C. congruence.
  - destruct (buf_dts (fl_buf (ms_fil s))) as [d|] eqn:Eb.
    2:{ apply Hno; [congruence|]. intros _ _. rewrite Eb. exact I. }
    destruct (negb (j =? k)%nat && (d + delay / 2 <? dts)) eqn:Ec.
    2:{ apply Hno; [congruence|]. intros Hne _. rewrite Eb. unfold delay in Ec. change (63000 / 2) with 31500 in Ec. lia. }
    destruct (gi_each _ _ _ _ _ HI0 j ch Hch) as (s0 & p & dn & F & B & A1 & A2 & A3).
    assert (s0 = s) by congruence. subst s0.
    pose proof (good_nth _ _ _ _ HG Hch) as HGc. destruct A3 as [C1 C2 C3 C4 Cn Ca C5]. rewrite Em in *. cbn [held] in C3.
    destruct (mid_kind c ch HGc ltac:(congruence)) as [V1 V2].
    assert (HB : B <> []).
    { intros ->. unfold buf_dts in Eb. rewrite (bi_phase _ _ _ C3) in Eb. discriminate. }
    assert (HP : ready p).
    { destruct (ms_frames s); [|exact C5]. destruct dn; [exact C5|]. destruct C5; congruence. }
    pose proof (pieces_ok c ch _ _ _ HGc C1 C2) as HO. apply Forall_app in HO. destruct HO as [_ HO].
    destruct (mid_late c j (ch_strm ch) _ (ms_fil s) p (pushed j ops) F B C3 HP C4 HO (chan_start c ch HGc) V1 V2)
      as (b' & o & p' & L1 & L2 & L3 & L4 & L5 & L6).
    rewrite L1 in E. unfold with_buf in E. cbn [fst snd] in E. injection E as <- <-.
    exists (set_nth ps j p'). split.
    { refine (GI_update c chs l ops ps j ch _ p o p' dn (F ++ B) [] HS HI0 Hch A2 L2 L3 _).
      constructor; cbn [ms_time ms_frames ms_fil].
      - exact C1.
      - rewrite app_nil_r. exact C2.
      - rewrite Em. exact L5.
      - exact L6.
      - intros ->. pose proof (F2_length _ _ _ _ _ C2) as EL. rewrite app_length in EL. destruct B; [congruence|cbn in EL; lia].
      - congruence.
      - rewrite Em. cbn [before]. destruct (ms_frames s); [|exact L4]. destruct dn; [exact L4|].
        destruct C5; congruence. }
    split; [reflexivity|]. split; [reflexivity|]. split; [intros ->; rewrite Nat.eqb_refl in Ec; discriminate|].
    split; [|split; [exact L2|auto]]. intros _ _. cbn [ms_fil fl_buf]. unfold buf_dts. rewrite (bi_phase _ _ _ L5). exact I.
  - apply Hno; [congruence|]. intros _ C. congruence.
Qed.

Lemma set_mid A (pre : list A) x l y : set_nth (pre ++ x :: l) (length pre) y = pre ++ y :: l.
Proof. induction pre as [|a pre IH]; cbn; [reflexivity|]. rewrite IH. reflexivity. Qed.

Lemma nth_mid A (pre : list A) x l : nth_error (pre ++ x :: l) (length pre) = Some x.
Proof. induction pre as [|a pre IH]; cbn; auto. Qed.

Lemma late_ok c chs k dts : strms c chs -> good_chans c chs -> forall l chs' j pre prec ops ps,
  chs = prec ++ chs' -> length pre = j -> length prec = j -> GI c chs (pre ++ l) ops ps ->
  forall l1 ops1, flush_late c chs' k j dts l = (l1, ops1) ->
  exists ps', GI c chs (pre ++ l1) (ops ++ ops1) ps' /\ length l1 = length l /\
    (forall n s ch, nth_error l n = Some s -> nth_error chs' n = Some ch ->
       exists s1, nth_error l1 n = Some s1 /\ ms_frames s1 = ms_frames s /\ ms_time s1 = ms_time s /\
         ((j + n)%nat = k -> s1 = s) /\ ((j + n)%nat <> k -> fresh c ch dts s1)) /\
    Forall (fun o => exists ch, nth_error chs (op_strm o) = Some ch /\ mid_of c (ch_top ch) = MBuf) ops1.
Proof.
  intros HS HG. induction l as [|s l IH]; intros chs' j pre prec ops ps EC EL1 EL2 HI0 l1 ops1 E.
  - destruct chs'; cbn in E; injection E as <- <-; exists ps; rewrite (app_nil_r ops); (split; [exact HI0|]; split; [reflexivity|]);
      (split; [intros [|n]; discriminate|constructor]).
  - destruct chs' as [|ch chs'].
    { exfalso. pose proof (gi_len _ _ _ _ _ HI0) as HL. rewrite EC, !app_length in HL. cbn in HL. lia. }
    rewrite late_cons in E. destruct (late_one c ch k j dts s) as [s' o1] eqn:E1.
    destruct (flush_late c chs' k (S j) dts l) as [l2 o2] eqn:E2. injection E as <- <-.
    assert (Hch : nth_error chs j = Some ch) by (rewrite EC, <- EL2; apply nth_mid).
    assert (Hs : nth_error (pre ++ s :: l) j = Some s) by (rewrite <- EL1; apply nth_mid).
    destruct (late_one_ok c chs ch k j dts s _ ops ps HS HG HI0 Hch Hs _ _ E1) as (ps1 & A1 & A2 & A3 & A4 & A5 & A6 & A7).
    rewrite <- EL1, set_mid in A1.
    assert (A1' : GI c chs ((pre ++ [s']) ++ l) (ops ++ o1) ps1) by (rewrite <- app_assoc; exact A1).
    assert (HP1 : length (pre ++ [s']) = S j) by (rewrite app_length; cbn; lia).
    assert (HP2 : length (prec ++ [ch]) = S j) by (rewrite app_length; cbn; lia).
    assert (HP3 : chs = (prec ++ [ch]) ++ chs') by (rewrite <- app_assoc; exact EC).
    destruct (IH chs' (S j) (pre ++ [s']) (prec ++ [ch]) (ops ++ o1) ps1 HP3 HP1 HP2 A1' _ _ E2)
      as (ps2 & B1 & B2 & B3 & B4).
    exists ps2. rewrite <- !app_assoc in B1. split; [exact B1|]. split; [cbn; lia|]. split.
    + intros [|n] s0 ch0 N1 N2; cbn in N1, N2.
      * injection N1 as <-. injection N2 as <-. exists s'. rewrite Nat.add_0_r. cbn. auto.
      * destruct (B3 n s0 ch0 N1 N2) as (s1 & D1 & D2 & D3 & D4 & D5). exists s1. cbn.
        replace (j + S n)%nat with (S j + n)%nat by lia. auto.
    + apply Forall_app. split; [|exact B4]. destruct o1 as [|x o1]; [constructor|].
      specialize (A7 ltac:(discriminate)). eapply Forall_impl; [|exact A6]. intros o Ho. cbv beta in Ho. rewrite Ho. eauto.
Qed.

(* ---------- the next frame ---------- *)

(* What is known at the moment the next frame of a stream is started. *)
Record step_at (c : conf) (chs : list chan) (k : nat) (l l1 l' : list mst) (ops ops1 ops2 : list op) : Prop := {
  st_in : exists s fr frs ch, nth_error l k = Some s /\ nth_error l1 k = Some s /\ ms_frames s = fr :: frs /\
    nth_error chs k = Some ch /\
    (forall n s', nth_error l n = Some s' -> ms_frames s' <> [] -> ms_time s <= ms_time s') /\
    (forall n sn chn, n <> k -> nth_error l1 n = Some sn -> nth_error chs n = Some chn -> fresh c chn (ms_time s) sn) /\
    exists f W m', f_dts f = ms_time s /\
      (mid_of c (ch_top ch) = MNone -> ops2 = group k f W [] (match frs with [] => true | _ => false end)) /\
      l' = set_nth l1 k (Mst frs (ms_time s + i_dur fr) m');
  st_len : length l1 = length l;
  st_same : forall n s, nth_error l n = Some s ->
    exists s1, nth_error l1 n = Some s1 /\ ms_frames s1 = ms_frames s /\ ms_time s1 = ms_time s;
  st_late : Forall (fun o => exists ch, nth_error chs (op_strm o) = Some ch /\ mid_of c (ch_top ch) = MBuf) ops1;
  st_on : all_on k ops2
}.

Lemma mux_step c chs k t l ops ps : strms c chs -> good_chans c chs -> GI c chs l ops ps ->
  choose 0 None l = Some (k, t) ->
  forall l' ops', mux_frame c chs k l = Some (l', ops') ->
  exists l1 ops1 ops2 ps1 ps', ops' = ops1 ++ ops2 /\ GI c chs l1 (ops ++ ops1) ps1 /\
    GI c chs l' (ops ++ ops') ps' /\ S (frames_left l') = frames_left l /\ step_at c chs k l l1 l' ops ops1 ops2.
Proof.
  intros HS HG HI0 HC l' ops' E. apply choose_is in HC. destruct HC as (s & Hs & Et & Hf & Hmin).
  unfold mux_frame in E. rewrite Hs in E.
  destruct (nth_error chs k) as [ch|] eqn:Hch; [|discriminate].
  destruct (ms_frames s) as [|fr frs] eqn:Ef; [congruence|].
  destruct (flush_late c chs k 0 (ms_time s) l) as [l1 ops1] eqn:E1.
  destruct (top_frame (ch_top ch) fr (ms_time s) (match frs with [] => true | _ => false end)) as [calls|] eqn:ET; [|discriminate].
  destruct (mid_calls c k (mid_of c (ch_top ch)) (ms_fil s) calls) as [[m ops2]|] eqn:EM; [|discriminate].
  injection E as <- <-.
  destruct (late_ok c chs k (ms_time s) HS HG l chs 0 [] [] ops ps eq_refl eq_refl eq_refl HI0 _ _ E1) as (ps1 & A1 & A2 & A3 & A4).
  cbn [app] in A1. pose proof (gi_len _ _ _ _ _ HI0) as HLen.
  destruct (A3 k s ch Hs Hch) as (s1 & B1 & B2 & B3 & B4 & _). specialize (B4 eq_refl). subst s1.
  destruct (gi_each _ _ _ _ _ A1 k ch Hch) as (s0 & p & dn & F & B & D1 & D2 & D3).
  assert (s0 = s) by congruence. subst s0.
  destruct (CI_frame c ch k s p _ dn F B fr frs calls (good_nth _ _ _ _ HG Hch) D3 Ef ET)
    as (m' & o' & p' & F1 & B' & f & W & M1 & M2 & M3 & M4 & M5 & M6 & M7 & M8 & M9 & M10 & M11 & M12).
  rewrite EM in M1. injection M1 as <- <-.
  exists l1, ops1, ops2, ps1, (set_nth ps1 k p'). split; [reflexivity|]. split; [exact A1|].
  split. { rewrite app_assoc. exact (GI_update c chs l1 (ops ++ ops1) ps1 k ch _ p ops2 p' _ _ _ HS A1 Hch D2 M2 M3 M4). }
  assert (Hsame : forall n s0, nth_error l n = Some s0 ->
    exists s1, nth_error l1 n = Some s1 /\ ms_frames s1 = ms_frames s0 /\ ms_time s1 = ms_time s0).
  { intros n s0 Hn. destruct (nth_error chs n) as [chn|] eqn:En.
    - destruct (A3 n s0 chn Hn En) as (s1 & Q1 & Q2 & Q3 & _). eauto.
    - apply nth_error_None in En. apply nth_lt in Hn. lia. }
  split.
  { pose proof (left_set l1 k s (Mst frs (ms_time s + i_dur fr) m) B1) as HLs. cbn [ms_frames] in HLs.
    rewrite Ef in HLs. cbn [length] in HLs.
    assert (frames_left l1 = frames_left l).
    { apply left_same; [lia|]. intros n x y Hx Hy. destruct (Hsame n x Hx) as (z & Hz & Z1 & _). congruence. }
    lia. }
  constructor; auto.
  exists s, fr, frs, ch. split; [exact Hs|]. split; [exact B1|]. split; [exact Ef|]. split; [exact Hch|].
  split; [intros n s' H1 H2; exact (Hmin n s' H1 H2)|].
  split. { intros n sn chn Hn H1 H2.
    destruct (nth_error l n) as [x|] eqn:Ex; [|apply nth_error_None in Ex; apply nth_lt in H1; lia].
    destruct (A3 n x chn Ex H2) as (s1 & Q1 & _ & _ & _ & Q5). assert (s1 = sn) by congruence. subst s1.
    apply Q5. cbn. exact Hn. }
  exists f, W, m. split; [exact M9|]. split; [exact M12|reflexivity].
Qed.

(* It does not fail. *)
Lemma mux_goes c chs k t l ops ps : strms c chs -> good_chans c chs -> Forall readable chs -> GI c chs l ops ps ->
  choose 0 None l = Some (k, t) -> exists l' ops', mux_frame c chs k l = Some (l', ops').
Proof.
  intros HS HG HR HI0 HC. apply choose_is in HC. destruct HC as (s & Hs & Et & Hf & Hmin).
  unfold mux_frame. rewrite Hs.
  destruct (nth_error chs k) as [ch|] eqn:Hch.
  2:{ apply nth_error_None in Hch. apply nth_lt in Hs. pose proof (gi_len _ _ _ _ _ HI0). lia. }
  destruct (ms_frames s) as [|fr frs] eqn:Ef; [congruence|].
  destruct (flush_late c chs k 0 (ms_time s) l) as [l1 ops1] eqn:E1.
  destruct (gi_each _ _ _ _ _ HI0 k ch Hch) as (s0 & p & dn & F & B & D1 & D2 & D3).
  assert (s0 = s) by congruence. subst s0.
  pose proof (good_nth _ _ _ _ HG Hch) as HGc. pose proof HGc as (G1 & G2 & _).
  pose proof (ci_dn _ _ _ _ _ _ _ _ D3) as HD. rewrite Ef in HD. pose proof (timed_fr _ _ _ _ _ HD) as HIn.
  rewrite Forall_forall in G1.
  assert (HU : match ch_top ch with TVideo v => exists us, nal_frame (vc_nal v) (data_of fr) us | _ => True end).
  { rewrite Forall_forall in HR. specialize (HR ch (nth_error_In _ _ Hch)). unfold readable in HR.
    destruct (ch_top ch); auto. rewrite Forall_forall in HR. exact (HR _ HIn). }
  destruct (top_encodes _ fr (ms_time s) (match frs with [] => true | _ => false end) _ _ _ (G1 _ HIn) G2 HIn HU) as (calls & ET & _).
  rewrite ET.
  destruct (CI_frame c ch k s p _ dn F B fr frs calls HGc D3 Ef ET) as (m' & o' & p' & F1 & B' & f & W & M1 & _).
  rewrite M1. eauto.
Qed.
