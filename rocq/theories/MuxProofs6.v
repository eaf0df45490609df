(* Proofs about the MPEG-TS muxer, part 6: a frame goes through the filters of its
   stream. *)

From Coq Require Import ZArith List Bool Lia ZifyBool.
From Verif Require Import Lists TsModel TsSpec MuxModel MuxSpec MuxProofs MuxProofs2 MuxProofs3 MuxProofs4 MuxProofs5.
Import ListNotations.
Open Scope Z_scope.

Definition frame_calls (f : frame) (W : list (list Z)) (last : bool) : list call :=
  CStart f :: map CWrite W ++ [CFlush last].

(* ---------- the calls ---------- *)

Lemma mid_calls_app c i k a : forall m b,
  mid_calls c i k m (a ++ b) =
  match mid_calls c i k m a with
  | Some (m, o1) => match mid_calls c i k m b with Some (m, o2) => Some (m, o1 ++ o2) | None => None end
  | None => None
  end.
Proof.
  induction a as [|x a IH]; intros m b; cbn [app mid_calls].
  - destruct (mid_calls c i k m b) as [[m' o]|]; reflexivity.
  - destruct (mid_call c i k m x) as [[m1 o1]|]; [|reflexivity]. rewrite IH.
    destruct (mid_calls c i k m1 a) as [[m2 o2]|]; [|reflexivity].
    destruct (mid_calls c i k m2 b) as [[m3 o3]|]; [rewrite app_assoc; reflexivity|reflexivity].
Qed.

Lemma mid_writes_direct c i k m W : k <> MBuf ->
  mid_calls c i k m (map CWrite W) = Some (m, map (OWrite i) W).
Proof.
  intros Hk. induction W as [|x W IH]; [reflexivity|]. cbn [map mid_calls].
  destruct k; [|congruence|]; cbn [mid_call]; rewrite IH; reflexivity.
Qed.

Lemma mid_writes_buf c i W : forall m,
  mid_calls c i MBuf m (map CWrite W) =
  match bwrites i (c_align c) W (fl_buf m) with
  | Some (b, ops) => Some (Fil b (fl_join m), ops)
  | None => None
  end.
Proof.
  induction W as [|x W IH]; intros m.
  - cbn. destruct m; reflexivity.
  - cbn [map mid_calls mid_call bwrites]. destruct (buf_write i (c_align c) x (fl_buf m)) as [[b o]|]; [|reflexivity].
    unfold with_buf. cbn [fst snd]. rewrite IH. cbn [fl_buf fl_join].
    destruct (bwrites i (c_align c) W b) as [[b2 o2]|]; reflexivity.
Qed.

Lemma calls_none c i m f W last :
  mid_calls c i MNone m (frame_calls f W last) = Some (m, group i f W [] last).
Proof.
  unfold frame_calls. change (CStart f :: map CWrite W ++ [CFlush last]) with ([CStart f] ++ map CWrite W ++ [CFlush last]).
  rewrite mid_calls_app. cbn [mid_calls mid_call]. rewrite mid_calls_app, mid_writes_direct by discriminate.
  cbn [mid_calls mid_call]. reflexivity.
Qed.

Lemma calls_buf c i m f W last b1 b2 b3 o1 o2 :
  buf_start f (fl_buf m) = Some b1 -> bwrites i (c_align c) W b1 = Some (b2, o1) ->
  buf_flush i (c_align c) last b2 = (b3, o2) ->
  mid_calls c i MBuf m (frame_calls f W last) = Some (Fil b3 (fl_join m), o1 ++ o2).
Proof.
  intros E1 E2 E3. unfold frame_calls.
  change (CStart f :: map CWrite W ++ [CFlush last]) with ([CStart f] ++ map CWrite W ++ [CFlush last]).
  rewrite mid_calls_app. cbn [mid_calls mid_call]. rewrite E1. unfold with_buf. cbn [fst snd app].
  rewrite mid_calls_app, mid_writes_buf. cbn [fl_buf fl_join]. rewrite E2.
  cbn [mid_calls mid_call fl_buf]. rewrite E3. unfold with_buf. cbn [fst snd fl_join].
  rewrite app_nil_r. reflexivity.
Qed.

(* What the joiner does before a frame. *)
Definition join_pre (i : nat) (f : frame) (m : fil) : fil * list op :=
  match fl_join m with
  | Some d =>
      if d + join_time <=? f_dts f
      then (Fil (fl_buf m) (Some (f_dts f)), [OFlush i false; OStart i f])
      else (m, [OSub i f])
  | None => (Fil (fl_buf m) (Some (f_dts f)), [OStart i f])
  end.

Lemma calls_join c i m f W last :
  mid_calls c i MJoin m (frame_calls f W last) =
  let '(m1, o1) := join_pre i f m in
  Some (if last then Fil (fl_buf m1) None else m1,
        o1 ++ map (OWrite i) W ++ (if last then [OFlush i true] else [])).
Proof.
  unfold frame_calls. change (CStart f :: map CWrite W ++ [CFlush last]) with ([CStart f] ++ map CWrite W ++ [CFlush last]).
  rewrite mid_calls_app. unfold join_pre. cbn [mid_calls mid_call].
  destruct (fl_join m) as [d|]; [destruct (d + join_time <=? f_dts f)|];
    rewrite mid_calls_app, mid_writes_direct by discriminate; cbn [mid_calls mid_call];
    destruct last; cbn [fl_buf app]; rewrite ?app_nil_r; reflexivity.
Qed.

(* ---------- the state of a stream ---------- *)

(* The joined frames of the PES packet that is being built. *)
Definition jphase (j : option Z) (p : phase) (F : list (frame * list Z)) : Prop :=
  match j with
  | None => ready p
  | Some d => exists Fa f0 e0 Fb, F = Fa ++ (f0, e0) :: Fb /\ f_dts f0 = d /\
      p = Inside false (zlen (pdata ((f0, e0) :: Fb)))
  end.

(* B has not been sent. *)
Definition held (c : conf) (k : mid) (m : fil) (B : list (frame * list Z)) : Prop :=
  match k with MBuf => BI c (fl_buf m) B | _ => B = [] end.

Definition before (k : mid) (m : fil) (p : phase) (F : list (frame * list Z)) : Prop :=
  match k with MJoin => jphase (fl_join m) p F | _ => ready p end.

(* The frames of the joiner fit in a PES packet. *)
Definition JB (c : conf) (t : strm) (L : list (frame * list Z)) : Prop :=
  forall a x b, L = a ++ x :: b -> f_dts (fst (last (x :: b) x)) < f_dts (fst x) + join_time ->
  fits c t (zlen (pdata (x :: b))).

Lemma last_snoc A (l : list A) x d : last (l ++ [x]) d = x.
Proof. induction l as [|y l IH]; [reflexivity|]. cbn [app last]. destruct (l ++ [x]) eqn:E; [destruct l; discriminate|exact IH]. Qed.

Lemma pdata_snoc F f e : pdata (F ++ [(f, e)]) = pdata F ++ e.
Proof. rewrite pdata_app. unfold pdata at 2. cbn [map concat snd]. rewrite app_nil_r. reflexivity. Qed.

Lemma local_flush c t p i last : is_in p = true -> (last = true \/ c_align c = true \/ is_other t = false) ->
  (forall n, p <> Inside true n) -> next_phase c t p (OFlush i last) = Some (if last then Done else Between).
Proof.
  intros HP HL HN. destruct p as [|b n| |]; try discriminate. destruct b; [destruct (HN n eq_refl)|]. cbn [next_phase].
  assert (E2 : last || c_align c || negb (is_other t) = true).
  { destruct HL as [->|[->| ->]]; [reflexivity|apply orb_true_iff; left; apply orb_true_r|apply orb_true_r]. }
  rewrite E2. reflexivity.
Qed.

(* HI for a frame that is started, or joined. *)
Lemma HI_frame c i hh F f W (st : bool) : HI c hh F -> W <> [] -> Forall full W ->
  HI c (push i (hist_step i hh (if st then OStart i f else OSub i f)) (map (OWrite i) W)) (F ++ [(f, concat W)]).
Proof.
  intros HH HW HF. rewrite push_writes.
  assert (Hc : concat W <> []).
  { clear - HW HF. destruct HF as [|x W Hx HF]; [congruence|]. cbn. destruct x; [congruence|discriminate]. }
  pose proof (HI_add c hh F f (concat W) [] [] st HH ltac:(constructor; [exact Hc|constructor])) as HA.
  cbv zeta in HA. unfold pdata in HA. cbn [map concat snd] in HA. rewrite app_nil_r in HA.
  specialize (HA ltac:(constructor) ltac:(intros _; reflexivity)).
  destruct st; cbn [hist_step]; rewrite Nat.eqb_refl; cbn [h_data h_marks h_frames].
  - exact HA.
  - rewrite app_nil_r in HA. exact HA.
Qed.

Lemma push_flush i h last : push i h [OFlush i last] = h.
Proof. reflexivity. Qed.

(* A frame. *)
Lemma mid_frame c i t h k m p hh F B f W last :
  held c k m B -> before k m p F -> HI c hh F ->
  W <> [] -> Forall full W -> Forall (piece_ok c t h) (F ++ B ++ [(f, concat W)]) ->
  can_start c t h -> (k <> MNone -> is_video t = false /\ is_other t = false) ->
  (last = true \/ c_align c = true \/ is_other t = false) ->
  (k = MJoin -> JB c t (F ++ [(f, concat W)])) ->
  exists m' ops p' F1 B', mid_calls c i k m (frame_calls f W last) = Some (m', ops) /\ all_on i ops /\
    B ++ [(f, concat W)] = F1 ++ B' /\ local c t p ops = Some p' /\ held c k m' B' /\
    HI c (push i hh ops) (F ++ F1) /\
    (if last then p' = Done /\ B' = [] else before k m' p' (F ++ F1)) /\
    (k = MNone -> ops = group i f W [] last).
Proof.
  intros HB HP HH HW HF HO HC HK HL HJ.
  apply Forall_app in HO. destruct HO as [HO1 HO2]. pose proof HO2 as HO3.
  apply Forall_app in HO2. destruct HO2 as [_ HO2]. inversion HO2 as [|? ? Hp _]; subst.
  destruct k.
  - (* video, metadata *)
    cbn [held before] in *. subst B. exists m, (group i f W [] last).
    assert (HG : grp c i [(f, concat W)] last (group i f W [] last)).
    { right. exists f, W. auto. }
    exists (if last then Done else Between), [(f, concat W)], [].
    split; [apply calls_none|]. split; [apply on_group|]. split; [reflexivity|].
    split; [exact (grp_local c i t h last _ _ p HG HO3 HP HC HL)|]. split; [reflexivity|].
    split; [apply (grp_HI c i t h last [(f, concat W)] _ F hh HG HO3); auto|].
    split; [|reflexivity]. destruct last; [auto|right; reflexivity].
  - (* the buffer *)
    cbn [held before] in *. destruct (HK ltac:(discriminate)) as [V1 V2].
    destruct (buf_frame c i last (fl_buf m) B f W HB HW HF) as (b1 & b2 & b3 & o1 & o2 & F1 & B' & E1 & E2 & E3 & E4 & E5 & E6 & E7).
    assert (HO4 : Forall (piece_ok c t h) F1) by (rewrite E4 in HO3; apply Forall_app in HO3; tauto).
    destruct (sents_local c i t h last F1 _ E5 HO4 p HP HC HL (or_intror (or_introl V2))) as (p' & L1 & L2).
    exists (Fil b3 (fl_join m)), (o1 ++ o2), p', F1, B'.
    split; [exact (calls_buf c i m f W last b1 b2 b3 o1 o2 E1 E2 E3)|].
    split; [exact (sents_on _ _ _ _ _ E5)|]. split; [exact E4|]. split; [exact L1|].
    split; [exact E6|].
    split; [exact (sents_HI c i t h last F1 _ E5 HO4 (or_introl (conj V1 V2)) hh F HH)|].
    split; [|discriminate].
    destruct last; [split; [exact L2|exact (E7 eq_refl)]|exact L2].
  - (* the joiner *)
    cbn [held before] in *. subst B. destruct (HK ltac:(discriminate)) as [V1 V2].
    specialize (HJ eq_refl). rewrite calls_join. cbn [app].
    assert (HfW : fits c t (zlen (concat W))) by exact (po_fits _ _ _ _ Hp).
    assert (Hst : forall q, ready q -> local c t q (OStart i f :: map (OWrite i) W) = Some (Inside false (zlen (concat W)))).
    { intros q Hq. cbn [local]. assert (E : next_phase c t q (OStart i f) = Some (Inside true 0)).
      { assert (Hh : f_header f = h) by exact (po_head _ _ _ _ Hp).
        destruct Hq as [->| ->]; cbn [next_phase]; rewrite Hh, (start_b _ _ _ HC); reflexivity. }
      rewrite E. rewrite (local_writes c t i W HW HF true 0 HfW). reflexivity. }
    (* up to the flush *)
    assert (G : exists m1 o1 n Fa f0 e0 Fb, join_pre i f m = (m1, o1) /\ all_on i o1 /\
      local c t p (o1 ++ map (OWrite i) W) = Some (Inside false n) /\
      F ++ [(f, concat W)] = Fa ++ (f0, e0) :: Fb /\ fl_join m1 = Some (f_dts f0) /\ n = zlen (pdata ((f0, e0) :: Fb)) /\
      HI c (push i hh (o1 ++ map (OWrite i) W)) (F ++ [(f, concat W)])).
    { unfold join_pre. destruct (fl_join m) as [d|] eqn:Ej; cbn [jphase] in HP.
      - destruct HP as (Fa & f0 & e0 & Fb & E1 & E2 & E3). subst p.
        destruct (d + join_time <=? f_dts f) eqn:Ed.
        + eexists _, _, (zlen (concat W)), F, f, (concat W), []. split; [reflexivity|].
          split; [repeat constructor|].
          split. { change ([OFlush i false; OStart i f] ++ map (OWrite i) W) with (OFlush i false :: OStart i f :: map (OWrite i) W).
            change (local c t (Inside false (zlen (pdata ((f0, e0) :: Fb)))) (OFlush i false :: OStart i f :: map (OWrite i) W))
              with (match next_phase c t (Inside false (zlen (pdata ((f0, e0) :: Fb)))) (OFlush i false) with
                    | Some p => local c t p (OStart i f :: map (OWrite i) W) | None => None end).
            rewrite local_flush; [|reflexivity|auto|discriminate]. apply Hst. right. reflexivity. }
          split; [reflexivity|]. split; [reflexivity|].
          split; [unfold pdata; cbn [map concat snd]; rewrite app_nil_r; reflexivity|].
          exact (HI_frame c i hh F f W true HH HW HF).
        + exists m, [OSub i f], (zlen (pdata ((f0, e0) :: Fb)) + zlen (concat W)), Fa, f0, e0, (Fb ++ [(f, concat W)]).
          split; [reflexivity|]. split; [repeat constructor|].
          assert (EZ : pdata ((f0, e0) :: Fb ++ [(f, concat W)]) = pdata ((f0, e0) :: Fb) ++ concat W)
            by exact (pdata_snoc ((f0, e0) :: Fb) f (concat W)).
          split. { cbn [app local next_phase]. apply (local_writes c t i W HW HF).
            rewrite <- zlen_app, <- EZ. apply (HJ Fa (f0, e0) (Fb ++ [(f, concat W)])).
            - rewrite E1, <- app_assoc. reflexivity.
            - change ((f0, e0) :: Fb ++ [(f, concat W)]) with (((f0, e0) :: Fb) ++ [(f, concat W)]).
              rewrite last_snoc. cbn [fst]. lia. }
          split; [rewrite E1, <- app_assoc; reflexivity|]. split; [rewrite E2; exact Ej|].
          split; [rewrite EZ, zlen_app; reflexivity|].
          exact (HI_frame c i hh F f W false HH HW HF).
      - eexists _, _, (zlen (concat W)), F, f, (concat W), []. split; [reflexivity|].
        split; [repeat constructor|]. split; [exact (Hst p HP)|].
        split; [reflexivity|]. split; [reflexivity|].
        split; [unfold pdata; cbn [map concat snd]; rewrite app_nil_r; reflexivity|].
        exact (HI_frame c i hh F f W true HH HW HF). }
    destruct G as (m1 & o1 & n & Fa & f0 & e0 & Fb & E1 & E2 & E3 & E4 & E5 & E6 & E7). rewrite E1.
    destruct last.
    + eexists _, _, Done, [(f, concat W)], []. split; [reflexivity|].
      split; [apply on_app; [exact E2|]; apply on_app; [apply on_writes|repeat constructor]|].
      split; [reflexivity|].
      split. { rewrite app_assoc, local_app, E3. cbn [local]. rewrite local_flush; [reflexivity|reflexivity|left; reflexivity|discriminate]. }
      split; [reflexivity|].
      split; [rewrite app_assoc, push_app; exact E7|]. split; [auto|discriminate].
    + eexists _, _, (Inside false n), [(f, concat W)], []. split; [reflexivity|].
      rewrite app_nil_r. split; [apply on_app; [exact E2|apply on_writes]|].
      split; [reflexivity|]. split; [exact E3|]. split; [reflexivity|]. split; [exact E7|].
      split; [|discriminate]. rewrite E5. exists Fa, f0, e0, Fb. subst n. auto.
Qed.

(* A stream that waits for too long. *)
Lemma mid_late c i t h m p hh F B :
  BI c (fl_buf m) B -> ready p -> HI c hh F -> Forall (piece_ok c t h) B -> can_start c t h ->
  is_video t = false -> is_other t = false ->
  exists b' ops p', buf_force i (c_align c) false (fl_buf m) = (b', ops) /\ all_on i ops /\
    local c t p ops = Some p' /\ ready p' /\ BI c b' [] /\ HI c (push i hh ops) (F ++ B).
Proof.
  intros HB HP HH HO HC V1 V2. destruct (buf_late c i (fl_buf m) B HB) as (b' & ops & E1 & E2 & E3).
  destruct (sents_local c i t h false B ops E2 HO p HP HC (or_intror (or_intror V2)) (or_intror (or_introl V2)))
    as (p' & L1 & L2).
  exists b', ops, p'. split; [exact E1|]. split; [exact (sents_on _ _ _ _ _ E2)|]. split; [exact L1|].
  split; [exact L2|]. split; [exact E3|].
  exact (sents_HI c i t h false B ops E2 HO (or_introl (conj V1 V2)) hh F HH).
Qed.

(* ---------- the simulation ---------- *)

Definition SRm (k : mid) (m s : fil) : Prop :=
  match k with MNone => True | MBuf => SRb (fl_buf m) (fl_buf s) | MJoin => fl_join m = fl_join s end.

Lemma mids_none i m f n last :
  sim_mids i MNone m [ZStart f; ZWrite n; ZFlush last] = (m, [SStart i f; SWrite i n; SFlush i last]).
Proof. reflexivity. Qed.

Lemma sim_frame_one c i k m s B f f' W last : held c k m B -> SRm k m s -> same f f' ->
  W <> [] -> Forall full W ->
  forall m' ops s' sops, mid_calls c i k m (frame_calls f W last) = Some (m', ops) ->
  sim_mids i k s [ZStart f'; ZWrite (zlen (concat W)); ZFlush last] = (s', sops) ->
  eqv c ops sops /\ SRm k m' s'.
Proof.
  intros HB HS Hf HW HF m' ops s' sops ER ES. destruct k.
  - rewrite calls_none in ER. injection ER as <- <-. rewrite mids_none in ES. injection ES as <- <-.
    split; [|exact I]. pose proof (eqv_group c i f f' W [] last (proj2 Hf) HW) as H.
    unfold pdata in H. cbn [map concat] in H. rewrite zlen_nil, Z.add_0_r in H. exact H.
  - cbn [held SRm] in *.
    destruct (buf_frame c i last (fl_buf m) B f W HB HW HF) as (b1 & b2 & b3 & o1 & o2 & F1 & B' & E1 & E2 & E3 & _).
    rewrite (calls_buf c i m f W last b1 b2 b3 o1 o2 E1 E2 E3) in ER. injection ER as <- <-.
    cbn [sim_mids sim_mid] in ES. unfold swith_buf in ES. cbn [fst snd fl_buf fl_join] in ES.
    pose proof (start_sim c _ _ B f f' b1 HB HS Hf E1) as S1.
    set (s1 := sbuf_start f' (fl_buf s)) in *.
    destruct (sbuf_write i (zlen (concat W)) s1) as [s2 so1] eqn:E4. cbn [fst snd] in ES.
    destruct (sbuf_flush i last s2) as [s3 so2] eqn:E5. cbn [fst snd] in ES.
    injection ES as <- <-. cbn [fl_buf]. cbn [app]. rewrite app_nil_r.
    destruct (BI_start c _ B f HB) as (b1' & E1' & HM). rewrite E1 in E1'. injection E1' as <-.
    destruct (bwrites_sim c i W HF HW b1 s1 B f [] (or_introl HM) S1 _ _ _ _ E2 E4) as [Q1 Q2].
    destruct (bwrites_out c i W HF b1 B f [] HM) as (b2' & o1' & E2' & HO). rewrite E2 in E2'. injection E2' as <- <-.
    assert (Hc : concat W <> []).
    { clear - HW HF. destruct HF as [|x W Hx HF]; [congruence|]. cbn. destruct x; [congruence|discriminate]. }
    cbn [app] in HO.
    assert (Q3 : eqv c o2 so2 /\ SRb b3 s3).
    { inversion HO as [b0 HM2 Eo Eb|b0 ops0 HP HM2 Eo Eb|b0 pre W2 HP EC F2 N2 HD Eo Eb]; subst.
      - exact (flush_sim c i last b2 s2 B f _ (or_introl HM2) (or_introl Hc) Q2 _ _ _ _ E3 E5).
      - exact (flush_sim c i last b2 s2 [] f _ (or_introl HM2) (or_introl Hc) Q2 _ _ _ _ E3 E5).
      - exact (flush_sim c i last b2 s2 [] f [] (or_intror HD) (or_intror HD) Q2 _ _ _ _ E3 E5). }
    split; [|exact (proj2 Q3)]. apply eqv_app; [exact Q1|exact (proj1 Q3)].
  - cbn [held SRm] in *. rewrite calls_join in ER. cbn [sim_mids sim_mid] in ES.
    unfold join_pre in ER. rewrite <- HS in ES. rewrite <- (proj1 Hf) in ES.
    assert (HE : forall o so, eqv c o so ->
      eqv c (o ++ map (OWrite i) W ++ (if last then [OFlush i true] else []))
            (so ++ SWrite i (zlen (concat W)) :: (if last then [SFlush i true] else []))).
    { intros o so H. apply eqv_app; [exact H|].
      change (SWrite i (zlen (concat W)) :: (if last then [SFlush i true] else []))
        with ([SWrite i (zlen (concat W))] ++ (if last then [SFlush i true] else [])).
      apply eqv_app; [apply eqv_writes; exact HW|]. destruct last; [apply eqv_flush|apply eqv_nil]. }
    destruct (fl_join m) as [d|] eqn:Ej.
    + destruct (d + join_time <=? f_dts f) eqn:Ed.
      * injection ER as <- <-. destruct last; injection ES as <- <-; (split; [|reflexivity]);
          apply (HE [OFlush i false; OStart i f] [SFlush i false; SStart i f']);
          exact (eqv_app c [OFlush i false] [OStart i f] _ _ (eqv_flush c i false) (eqv_start c i f f' (proj2 Hf))).
      * injection ER as <- <-. destruct last; injection ES as <- <-;
          (split; [exact (HE [OSub i f] [] (eqv_sub c i f))|cbn [fl_join]; congruence]).
    + injection ER as <- <-. destruct last; injection ES as <- <-;
        (split; [exact (HE [OStart i f] [SStart i f'] (eqv_start c i f f' (proj2 Hf)))|reflexivity]).
Qed.

(* Two writes are as good as one. *)
Lemma sim_two c i k s f a b last : 0 <= a -> 0 <= b -> (k = MBuf -> 0 <= bf_used (fl_buf s)) ->
  exists o2 o1 s', sim_mids i k s [ZStart f; ZWrite a; ZWrite b; ZFlush last] = (s', o2) /\
    sim_mids i k s [ZStart f; ZWrite (a + b); ZFlush last] = (s', o1) /\
    (Forall spos o1 -> Forall spos o2) /\
    forall z, okz z -> Forall spos o1 -> fold_left (sstep c) o2 z = fold_left (sstep c) o1 z.
Proof.
  intros Ha Hb Hu.
  assert (HD : forall o so, Forall spos (o ++ SWrite i (a + b) :: so) ->
    Forall spos (o ++ SWrite i a :: SWrite i b :: so) /\
    forall z, okz z -> fold_left (sstep c) (o ++ SWrite i a :: SWrite i b :: so) z =
                       fold_left (sstep c) (o ++ SWrite i (a + b) :: so) z).
  { intros o so HP. apply Forall_app in HP. destruct HP as [HP1 HP2]. inversion HP2; subst. split.
    - apply Forall_app. split; [exact HP1|]. constructor; [exact Ha|]. constructor; [exact Hb|assumption].
    - intros z Hz. rewrite !fold_left_app. cbn [fold_left]. f_equal.
      apply sstep_merge; auto. apply okz_ssteps; assumption. }
  assert (HQ : forall o so, (Forall spos (o ++ SWrite i (a + b) :: so) -> Forall spos (o ++ SWrite i a :: SWrite i b :: so)) /\
    forall z, okz z -> Forall spos (o ++ SWrite i (a + b) :: so) ->
      fold_left (sstep c) (o ++ SWrite i a :: SWrite i b :: so) z = fold_left (sstep c) (o ++ SWrite i (a + b) :: so) z).
  { intros o so. split; [intros HP; exact (proj1 (HD o so HP))|intros z Hz HP; exact (proj2 (HD o so HP) z Hz)]. }
  destruct k.
  - eexists _, _, _. split; [reflexivity|]. split; [reflexivity|].
    exact (HQ [SStart i f] [SFlush i last]).
  - cbn [sim_mids sim_mid]. unfold swith_buf. cbn [fst snd fl_buf fl_join].
    set (s1 := sbuf_start f (fl_buf s)).
    destruct (sbuf_write i a s1) as [s2 o2] eqn:E2. destruct (sbuf_write i b s2) as [s3 o3] eqn:E3.
    destruct (sbuf_merge c i a b s1 ltac:(left; reflexivity) Ha Hb (Hu eq_refl) _ _ _ _ E2 E3) as (o4 & M1 & M2 & M3).
    cbn [fst snd]. rewrite E3. cbn [fst snd]. rewrite M1. cbn [fst snd].
    destruct (sbuf_flush i last s3) as [s4 o5] eqn:E5. cbn [fst snd].
    eexists _, _, _. split; [reflexivity|]. split; [reflexivity|]. cbn [app]. rewrite !app_nil_r.
    split.
    + intros HP. apply Forall_app in HP. destruct HP as [_ HP].
      rewrite app_assoc. apply Forall_app. split; [|exact HP].
      assert (HW : forall n x y o, 0 <= n -> 0 <= bf_used x -> bf_phase x = BStarted \/ bf_phase x = BDirect ->
                   sbuf_write i n x = (y, o) -> Forall spos o /\ (bf_phase y = BStarted \/ bf_phase y = BDirect) ).
      { clear. intros n x y o Hn Hu HP E. unfold sbuf_write in E. destruct HP as [HP|HP]; rewrite HP in E.
        - assert (HF : Forall spos (snd (if buf_size <? bf_used x + n then sbuf_force i false x else (x, []))) /\
                       bf_phase (fst (if buf_size <? bf_used x + n then sbuf_force i false x else (x, []))) = BStarted).
          { destruct (buf_size <? bf_used x + n); [|split; [constructor|exact HP]]. unfold sbuf_force.
            destruct (bf_fsz x <=? 0) eqn:Ek; [split; [constructor|exact HP]|]. rewrite HP. cbn [fst snd].
            split; [|reflexivity]. repeat constructor. cbn. lia. }
          destruct (if buf_size <? bf_used x + n then sbuf_force i false x else (x, [])) as [x1 o1].
          cbn [fst snd] in HF. destruct HF as [HF1 HF2].
          destruct (bf_used x1 + n <=? buf_size) eqn:Eb; injection E as <- <-.
          + split; [exact HF1|]. left. exact HF2.
          + split; [|right; reflexivity]. apply Forall_app. split; [exact HF1|]. repeat constructor. cbn.
            unfold buf_size in *. lia.
        - injection E as <- <-. split; [repeat constructor; exact Hn|auto]. }
      destruct (HW a s1 s2 o2 Ha (Hu eq_refl) ltac:(left; reflexivity) E2) as [W1 W2].
      apply Forall_app. split; [exact W1|].
      destruct W2 as [W2|W2].
      * assert (Hu2 : 0 <= bf_used s2 \/ True) by auto.
        (* the second write *)
        unfold sbuf_write in E3. rewrite W2 in E3.
        assert (HF : Forall spos (snd (if buf_size <? bf_used s2 + b then sbuf_force i false s2 else (s2, [])))).
        { destruct (buf_size <? bf_used s2 + b); [|constructor]. unfold sbuf_force.
          destruct (bf_fsz s2 <=? 0) eqn:Ek; [constructor|]. rewrite W2. cbn [snd]. repeat constructor. cbn. lia. }
        destruct (if buf_size <? bf_used s2 + b then sbuf_force i false s2 else (s2, [])) as [x1 ox]. cbn [snd] in HF.
        destruct (bf_used x1 + b <=? buf_size) eqn:Eb; injection E3 as <- <-; [exact HF|].
        apply Forall_app. split; [exact HF|]. repeat constructor. cbn. unfold buf_size in *. lia.
      * unfold sbuf_write in E3. rewrite W2 in E3. injection E3 as <- <-. repeat constructor. exact Hb.
    + intros z Hz _. rewrite app_assoc, !(fold_left_app (sstep c) _ o5). f_equal. exact (M3 z Hz).
  - cbn [sim_mids sim_mid].
    destruct (fl_join s) as [d|] eqn:Ej; [destruct (d + join_time <=? f_dts f)|]; destruct last;
      (eexists _, _, _; split; [reflexivity|]; split; [reflexivity|]); cbn [app].
    + exact (HQ [SFlush i false; SStart i f] [SFlush i true]).
    + exact (HQ [SFlush i false; SStart i f] []).
    + exact (HQ [] [SFlush i true]).
    + exact (HQ [] []).
    + exact (HQ [SStart i f] [SFlush i true]).
    + exact (HQ [SStart i f] []).
Qed.
