(* Proofs about the MPEG-TS muxer, part 5: the buffer of the simulation. *)

From Coq Require Import ZArith List Bool Lia ZifyBool.
From Verif Require Import Lists TsModel TsSpec MuxModel MuxSpec MuxProofs MuxProofs2 MuxProofs3 MuxProofs4.
Import ListNotations.
Open Scope Z_scope.

Definition same (f g : frame) : Prop := f_dts f = f_dts g /\ f_header f = f_header g.

Record SRb (b s : buf) : Prop := {
  sr_phase : bf_phase b = bf_phase s;
  sr_cur : bf_phase b <> BInit -> same (bf_cur b) (bf_cur s);
  sr_last : bf_phase b = BStarted -> same (bf_last b) (bf_last s);
  sr_used : zlen (bf_data b) = bf_used s;
  sr_fl : Z.of_nat (bf_fl b) = bf_fsz s
}.

Lemma packed_eqv c i B last ops f' : packed c i B last ops -> head_is B f' f' \/ True ->
  (forall p B', B = p :: B' -> f_header (fst p) = f_header f') ->
  eqv c ops [SStart i f'; SWrite i (zlen (pdata B)); SFlush i last].
Proof.
  intros (f0 & e0 & B' & B1 & B2 & E1 & E2 & _ & _ & _ & _ & ->) _ HH.
  pose proof (eqv_group c i f0 f' [pdata B1] B2 last (HH _ _ E1) ltac:(discriminate)) as H.
  cbn [concat] in H. rewrite app_nil_r, <- zlen_app, <- pdata_app, <- E2 in H. exact H.
Qed.

Lemma force_sim c i last b s B x : Forall pfull B -> bf_data b = pdata B ++ x ->
  bf_fl b = plen B -> (B <> [] -> head_is B (bf_cur b) (bf_cur b)) -> zlen (pdata B) <= buf_size ->
  (c_align c = false -> RI b B) -> SRb b s -> bf_phase b = BStarted \/ bf_phase b = BFlushed \/ B = [] ->
  forall b' ops s' sops, buf_force i (c_align c) last b = (b', ops) -> sbuf_force i last s = (s', sops) ->
  eqv c ops sops /\ SRb b' s'.
Proof.
  intros HF HD HL HC HZ HR HS HP b' ops s' sops EF ES.
  destruct B as [|p B'] eqn:EB.
  - unfold buf_force in EF. rewrite HL in EF. cbn in EF. injection EF as <- <-.
    unfold sbuf_force in ES. pose proof (sr_fl _ _ HS) as E. rewrite HL in E. cbn in E. rewrite <- E in ES. cbn in ES.
    injection ES as <- <-. split; [apply eqv_nil|exact HS].
  - rewrite <- EB in *. assert (HB : B <> []) by (rewrite EB; discriminate).
    destruct (force_ok c i last b B x HB HF HD HL (HC HB) HZ HR) as (b1 & o1 & F1 & F2 & F3 & F4 & F5 & F6 & F7).
    rewrite F1 in EF. injection EF as <- <-.
    pose proof (plen_pos B HB HF) as Hp. pose proof (sr_fl _ _ HS) as E. rewrite HL in E.
    unfold sbuf_force in ES. replace (bf_fsz s <=? 0) with false in ES by lia.
    assert (Hph : bf_phase b = BStarted \/ bf_phase b = BFlushed).
    { destruct HP as [HP|[HP|HP]]; auto. congruence. }
    assert (Hcur : same (bf_cur b) (bf_cur s)) by (apply (sr_cur _ _ HS); destruct Hph as [-> | ->]; discriminate).
    pose proof (HC HB) as Hh. unfold head_is in Hh. rewrite EB in Hh.
    assert (EZ : zlen (pdata B) = bf_fsz s) by (rewrite <- E; reflexivity).
    pose proof (packed_eqv c i B last o1 (bf_cur s) F2 (or_intror I)) as HE.
    rewrite EZ in HE.
    assert (HE' : eqv c o1 [SStart i (bf_cur s); SWrite i (bf_fsz s); SFlush i last]).
    { apply HE. intros p' B'' E'. rewrite EB in E'. injection E' as <- <-. rewrite <- Hh. exact (proj2 Hcur). }
    assert (EU : zlen x = bf_used s - bf_fsz s).
    { pose proof (sr_used _ _ HS) as U. rewrite HD, zlen_app in U. lia. }
    rewrite <- (sr_phase _ _ HS) in ES.
    destruct Hph as [Hph|Hph]; rewrite Hph in ES, F6; injection ES as <- <-; injection F6 as F6 F8;
      (split; [exact HE'|]); constructor; cbn [set_used bf_phase bf_cur bf_last bf_used bf_fsz].
    + exact F6.
    + intros _. rewrite F8. exact (sr_last _ _ HS Hph).
    + intros _. rewrite F5. exact (sr_last _ _ HS Hph).
    + rewrite F3. exact EU.
    + rewrite F4. reflexivity.
    + exact F6.
    + rewrite F6. congruence.
    + rewrite F6. congruence.
    + rewrite F3. exact EU.
    + rewrite F4. reflexivity.
Qed.

Lemma write_sim c i b s y B f x : BM c b B f x \/ BD c b f -> SRb b s -> y <> [] ->
  forall b' ops s' sops, buf_write i (c_align c) y b = Some (b', ops) -> sbuf_write i (zlen y) s = (s', sops) ->
  eqv c ops sops /\ SRb b' s'.
Proof.
  intros HB HS Hy b' ops s' sops ER ES. unfold buf_write in ER. unfold sbuf_write in ES.
  rewrite <- (sr_phase _ _ HS) in ES. destruct HB as [HB|HB].
  2:{ rewrite (bd_phase _ _ _ HB) in *. injection ER as <- <-. injection ES as <- <-.
      split; [apply eqv_write|exact HS]. }
  rewrite (bm_phase _ _ _ _ _ HB) in *. rewrite <- (sr_used _ _ HS) in ES.
  (* the flush *)
  assert (G : forall b1 o1 s1 so1,
    (if buf_size <? zlen (bf_data b) + zlen y then buf_force i (c_align c) false b else (b, [])) = (b1, o1) ->
    (if buf_size <? zlen (bf_data b) + zlen y then sbuf_force i false s else (s, [])) = (s1, so1) ->
    eqv c o1 so1 /\ SRb b1 s1 /\ bf_phase b1 = BStarted).
  { intros b1 o1 s1 so1 E1 E2. destruct (buf_size <? zlen (bf_data b) + zlen y).
    - destruct HB as [P1 P2 P3 P4 P5 P6 P7 P8].
      rewrite zlen_app in P7. pose proof (zlen_ge x).
      assert (HC : B <> [] -> head_is B (bf_cur b) (bf_cur b)) by (intros HB0; destruct B; [congruence|exact P5]).
      destruct (force_sim c i false b s B x P6 P3 P4 HC ltac:(lia) P8 HS (or_introl P1) _ _ _ _ E1 E2) as [A1 A2].
      split; [exact A1|]. split; [exact A2|].
      destruct B as [|p B'] eqn:EB.
      + unfold buf_force in E1. rewrite P4 in E1. cbn in E1. injection E1 as <- <-. exact P1.
      + rewrite <- EB in *. assert (HB0 : B <> []) by (rewrite EB; discriminate).
        destruct (force_ok c i false b B x HB0 P6 P3 P4 (HC HB0) ltac:(lia) P8) as (b2 & o2 & F1 & F2 & F3 & F4 & F5 & F6 & F7).
        rewrite F1 in E1. injection E1 as <- <-. rewrite P1 in F6. injection F6 as F6 _. exact F6.
    - injection E1 as <- <-. injection E2 as <- <-. split; [apply eqv_nil|]. split; [exact HS|exact (bm_phase _ _ _ _ _ HB)]. }
  destruct (if buf_size <? zlen (bf_data b) + zlen y then buf_force i (c_align c) false b else (b, [])) as [b1 o1] eqn:E1.
  destruct (if buf_size <? zlen (bf_data b) + zlen y then sbuf_force i false s else (s, [])) as [s1 so1] eqn:E2.
  destruct (G _ _ _ _ eq_refl eq_refl) as (A1 & A2 & A3). clear G.
  rewrite <- (sr_used _ _ A2) in ES.
  destruct (zlen (bf_data b1) + zlen y <=? buf_size).
  - injection ER as <- <-. injection ES as <- <-. split; [exact A1|].
    constructor; cbn [set_data set_used bf_phase bf_cur bf_last bf_data bf_fl bf_used bf_fsz].
    + rewrite <- A3. exact (sr_phase _ _ A2).
    + intros _. apply (sr_cur _ _ A2). rewrite A3. discriminate.
    + intros _. exact (sr_last _ _ A2 A3).
    + apply zlen_app.
    + exact (sr_fl _ _ A2).
  - injection ER as <- <-. injection ES as <- <-. split.
    + apply eqv_app; [exact A1|].
      change (OStart i (bf_cur b1) :: match bf_data b1 with [] => [] | (_ :: _) as d => [OWrite i d] end ++ [OWrite i y])
        with ([OStart i (bf_cur b1)] ++ (match bf_data b1 with [] => [] | (_ :: _) as d => [OWrite i d] end ++ [OWrite i y])).
      change [SStart i (bf_cur s1); SWrite i (zlen (bf_data b1) + zlen y)]
        with ([SStart i (bf_cur s1)] ++ [SWrite i (zlen (bf_data b1) + zlen y)]).
      apply eqv_app.
      * apply eqv_start. apply (sr_cur _ _ A2). rewrite A3. discriminate.
      * destruct (bf_data b1) as [|d0 d]; [exact (eqv_write c i y)|].
        pose proof (eqv_writes c i [d0 :: d; y] ltac:(discriminate)) as H. cbn [map concat] in H.
        rewrite app_nil_r, zlen_app in H. exact H.
    + constructor; cbn [set_data set_used bf_phase bf_cur bf_last bf_data bf_fl bf_used bf_fsz].
      * reflexivity.
      * intros _. apply (sr_cur _ _ A2). rewrite A3. discriminate.
      * discriminate.
      * reflexivity.
      * exact (sr_fl _ _ A2).
Qed.

(* Two writes are as good as one. *)
Lemma fold_merge c l i a b : Forall spos l -> 0 <= a -> 0 <= b -> forall z, okz z ->
  fold_left (sstep c) ((l ++ [SWrite i a]) ++ [SWrite i b]) z = fold_left (sstep c) (l ++ [SWrite i (a + b)]) z.
Proof.
  intros HL Ha Hb z Hz. rewrite !fold_left_app. cbn [fold_left]. apply sstep_merge; auto. apply okz_ssteps; assumption.
Qed.

Lemma sbuf_merge c i a b s : bf_phase s = BStarted \/ bf_phase s = BDirect -> 0 <= a -> 0 <= b -> 0 <= bf_used s ->
  forall s1 o1 s2 o2, sbuf_write i a s = (s1, o1) -> sbuf_write i b s1 = (s2, o2) ->
  exists o3, sbuf_write i (a + b) s = (s2, o3) /\ Forall spos o3 /\
    forall z, okz z -> fold_left (sstep c) (o1 ++ o2) z = fold_left (sstep c) o3 z.
Proof.
  intros HP Ha Hb Hu s1 o1 s2 o2 E1 E2. unfold sbuf_write in E1.
  destruct HP as [HP|HP]; rewrite HP in E1.
  2:{ injection E1 as <- <-. unfold sbuf_write in *. rewrite HP in *. injection E2 as <- <-.
      eexists. split; [reflexivity|]. split; [constructor; [cbn; lia|constructor]|].
      intros z Hz. exact (fold_merge c [] i a b ltac:(constructor) Ha Hb z Hz). }
  assert (HFo : forall u, sbuf_force i false (set_used s BStarted (bf_cur s) (bf_last s) u (bf_fsz s)) =
     if bf_fsz s <=? 0 then (set_used s BStarted (bf_cur s) (bf_last s) u (bf_fsz s), [])
     else (set_used s BStarted (bf_last s) (bf_last s) (u - bf_fsz s) 0,
           [SStart i (bf_cur s); SWrite i (bf_fsz s); SFlush i false])).
  { intros u. unfold sbuf_force. cbn [set_used bf_fsz bf_phase bf_cur bf_last bf_used].
    destruct (bf_fsz s <=? 0); reflexivity. }
  assert (Es : s = set_used s BStarted (bf_cur s) (bf_last s) (bf_used s) (bf_fsz s)).
  { destruct s; cbn in *. subst. reflexivity. }
  set (u := bf_used s) in *. set (k := bf_fsz s) in *. set (f := bf_cur s) in *. set (g := bf_last s) in *.
  assert (EF : sbuf_force i false s =
     if k <=? 0 then (s, []) else (set_used s BStarted g g (u - k) 0, [SStart i f; SWrite i k; SFlush i false])).
  { rewrite Es at 1. rewrite HFo. destruct (k <=? 0); [rewrite <- Es|]; reflexivity. }
  unfold sbuf_write at 1. rewrite HP. fold u.
  assert (HSF : k <=? 0 = false -> Forall spos [SStart i f; SWrite i k; SFlush i false]).
  { intros E. repeat constructor. cbn. lia. }
  destruct (buf_size <? u + a) eqn:C1.
  - (* the first one does not fit *)
    replace (buf_size <? u + (a + b)) with true by lia. rewrite EF in *.
    destruct (k <=? 0) eqn:Ck.
    + fold u in E1. replace (u + a <=? buf_size) with false in E1 by lia.
      injection E1 as <- <-. cbn [sbuf_write set_used bf_phase] in E2. unfold sbuf_write in E2. cbn [bf_phase set_used] in E2.
      injection E2 as <- <-. fold u. replace (u + (a + b) <=? buf_size) with false by lia.
      eexists. split; [reflexivity|]. split; [cbn [app]; repeat constructor; cbn; lia|].
      intros z Hz. cbn [app]. replace (u + (a + b)) with (u + a + b) by lia.
      exact (fold_merge c [SStart i (bf_cur s)] i (u + a) b ltac:(repeat constructor) ltac:(unfold buf_size in *; lia) Hb z Hz).
    + cbn [set_used bf_used] in *. destruct (u - k + a <=? buf_size) eqn:C2.
      * injection E1 as <- <-. unfold sbuf_write in E2. cbn [bf_phase set_used bf_used bf_cur bf_last bf_fsz] in E2.
        unfold sbuf_force in E2. cbn [bf_fsz set_used] in E2. cbn [Z.leb Z.compare] in E2.
        replace (u - k + a + b) with (u - k + (a + b)) in E2 by lia.
        destruct (buf_size <? u - k + (a + b)) eqn:C3; cbn [set_used bf_used bf_phase bf_cur bf_last bf_fsz] in E2.
        -- replace (u - k + a + b) with (u - k + (a + b)) in E2 by lia.
           replace (u - k + (a + b) <=? buf_size) with false in * by lia. injection E2 as <- <-.
           eexists. split; [reflexivity|].
           split; [apply Forall_app; split; [exact (HSF eq_refl)|repeat constructor; cbn; unfold buf_size in *; lia]|].
           intros z Hz. reflexivity.
        -- replace (u - k + a + b) with (u - k + (a + b)) in E2 by lia.
           replace (u - k + (a + b) <=? buf_size) with true in * by lia. injection E2 as <- <-.
           eexists. split; [reflexivity|]. split; [exact (HSF eq_refl)|].
           intros z Hz. reflexivity.
      * injection E1 as <- <-. unfold sbuf_write in E2. cbn [bf_phase set_used] in E2.
        injection E2 as <- <-. replace (u - k + (a + b) <=? buf_size) with false by lia.
        eexists. split; [reflexivity|].
        split; [apply Forall_app; split; [exact (HSF eq_refl)|repeat constructor; cbn; unfold buf_size in *; lia]|].
        intros z Hz. replace (u - k + (a + b)) with (u - k + a + b) by lia.
        exact (fold_merge c ([SStart i f; SWrite i k; SFlush i false] ++ [SStart i g]) i (u - k + a) b
          ltac:(apply Forall_app; split; [exact (HSF eq_refl)|repeat constructor]) ltac:(unfold buf_size in *; lia) Hb z Hz).
  - (* it fits *)
    fold u in E1. replace (u + a <=? buf_size) with true in E1 by lia. injection E1 as <- <-.
    rewrite HP in E2. fold f g k in E2.
    unfold sbuf_write in E2. cbn [bf_phase set_used bf_used bf_cur bf_last bf_fsz] in E2.
    replace (u + a + b) with (u + (a + b)) in E2 by lia.
    destruct (buf_size <? u + (a + b)) eqn:C3.
    + rewrite (HFo (u + a)) in E2. rewrite EF. destruct (k <=? 0) eqn:Ck.
      * cbn [set_used bf_used bf_phase bf_cur bf_last bf_fsz] in E2.
        replace (u + a + b) with (u + (a + b)) in E2 by lia. fold u.
        replace (u + (a + b) <=? buf_size) with false in * by lia. injection E2 as <- <-.
        eexists. split; [reflexivity|]. split; [cbn [app]; repeat constructor; cbn; lia|]. reflexivity.
      * cbn [set_used bf_used bf_phase bf_cur bf_last bf_fsz] in *.
        replace (u + a - k + b) with (u - k + (a + b)) in E2 by lia.
        destruct (u - k + (a + b) <=? buf_size) eqn:C4; injection E2 as <- <-.
        -- eexists. split; [reflexivity|]. split; [exact (HSF eq_refl)|reflexivity].
        -- eexists. split; [reflexivity|].
           split; [apply Forall_app; split; [exact (HSF eq_refl)|repeat constructor; cbn; unfold buf_size in *; lia]|reflexivity].
    + cbn [set_used bf_used bf_phase bf_cur bf_last bf_fsz] in *.
      replace (u + a + b) with (u + (a + b)) in E2 by lia. fold u.
      replace (u + (a + b) <=? buf_size) with true in * by lia. injection E2 as <- <-.
      eexists. split; [rewrite HP; reflexivity|]. split; [constructor|reflexivity].
Qed.

Lemma SR_used b s : SRb b s -> 0 <= bf_used s.
Proof. intros H. rewrite <- (sr_used _ _ H). apply zlen_ge. Qed.

Lemma BMD_phase c b s B f x : BM c b B f x \/ BD c b f -> SRb b s -> bf_phase s = BStarted \/ bf_phase s = BDirect.
Proof.
  intros [H|H] HS; rewrite <- (sr_phase _ _ HS); [left; exact (bm_phase _ _ _ _ _ H)|right; exact (bd_phase _ _ _ H)].
Qed.

Lemma bwrites_sim c i W : Forall full W -> W <> [] -> forall b s B f x,
  BM c b B f x \/ BD c b f -> SRb b s ->
  forall b' ops s' sops, bwrites i (c_align c) W b = Some (b', ops) ->
  sbuf_write i (zlen (concat W)) s = (s', sops) -> eqv c ops sops /\ SRb b' s'.
Proof.
  intros HF. induction HF as [|y W Hy HF IH]; [congruence|]. intros _ b s B f x HB HS b' ops s' sops ER ES.
  cbn [bwrites] in ER.
  destruct (buf_write i (c_align c) y b) as [[b1 o1]|] eqn:E1; [|discriminate].
  destruct W as [|y2 W].
  - cbn [bwrites] in ER. injection ER as <- <-. rewrite app_nil_r. cbn [concat] in ES. rewrite app_nil_r in ES.
    exact (write_sim c i b s y B f x HB HS Hy _ _ _ _ E1 ES).
  - destruct (bwrites i (c_align c) (y2 :: W) b1) as [[b2 o2]|] eqn:E2; [|discriminate]. injection ER as <- <-.
    destruct (sbuf_write i (zlen y) s) as [s1 so1] eqn:S1.
    destruct (write_sim c i b s y B f x HB HS Hy _ _ _ _ E1 S1) as [A1 A2].
    assert (HB1 : (exists B1 x1, BM c b1 B1 f x1) \/ BD c b1 f).
    { destruct HB as [HB|HB].
      - destruct (write_step c i b B f x y HB Hy) as (b1' & o1' & E1' & HC). rewrite E1 in E1'. injection E1' as <- <-.
        destruct HC as [[_ HC]|[[_ HC]|(pre & W1 & _ & _ & _ & _ & _ & HC)]]; eauto.
      - right. unfold buf_write in E1. rewrite (bd_phase _ _ _ HB) in E1. injection E1 as <- <-. exact HB. }
    destruct (sbuf_write i (zlen (concat (y2 :: W))) s1) as [s2 so2] eqn:S2.
    assert (A : eqv c o2 so2 /\ SRb b2 s2).
    { destruct HB1 as [(B1 & x1 & HB1)|HB1].
      - exact (IH ltac:(discriminate) b1 s1 B1 f x1 (or_introl HB1) A2 _ _ _ _ E2 S2).
      - exact (IH ltac:(discriminate) b1 s1 [] f [] (or_intror HB1) A2 _ _ _ _ E2 S2). }
    destruct A as [A3 A4].
    destruct (sbuf_merge c i (zlen y) (zlen (concat (y2 :: W))) s (BMD_phase _ _ _ _ _ _ HB HS) (zlen_ge _) (zlen_ge _)
      (SR_used _ _ HS) _ _ _ _ S1 S2) as (o3 & M1 & M2 & M3).
    change (concat (y :: y2 :: W)) with (y ++ concat (y2 :: W)) in ES. rewrite zlen_app, M1 in ES.
    injection ES as <- <-. split; [|exact A4].
    apply (eqv_trans c _ (so1 ++ so2)); [apply eqv_app; assumption|exact M2|exact M3].
Qed.

Lemma start_sim c b s B f f' b1 : BI c b B -> SRb b s -> same f f' -> buf_start f b = Some b1 ->
  SRb b1 (sbuf_start f' s).
Proof.
  intros HB HS HF E. unfold buf_start in E. unfold sbuf_start. rewrite <- (sr_phase _ _ HS).
  pose proof (bi_phase _ _ _ HB) as HP. destruct B; rewrite HP in *; injection E as <-;
    constructor; cbn [set_used bf_phase bf_cur bf_last bf_data bf_fl bf_used bf_fsz]; auto;
    try exact (sr_used _ _ HS); try exact (sr_fl _ _ HS).
  intros _. apply (sr_cur _ _ HS). rewrite HP. discriminate.
Qed.

Lemma flush_sim c i last b s B f x : BM c b B f x \/ BD c b f -> x <> [] \/ BD c b f -> SRb b s ->
  forall b' ops s' sops, buf_flush i (c_align c) last b = (b', ops) -> sbuf_flush i last s = (s', sops) ->
  eqv c ops sops /\ SRb b' s'.
Proof.
  intros HB Hx HS b' ops s' sops ER ES.
  assert (HD : BD c b f -> eqv c ops sops /\ SRb b' s').
  { intros HB1. unfold buf_flush in ER. unfold sbuf_flush in ES. rewrite <- (sr_phase _ _ HS) in ES.
    rewrite (bd_phase _ _ _ HB1) in *. injection ER as <- <-. injection ES as <- <-.
    split; [apply eqv_flush|].
    constructor; cbn [set_data set_used bf_phase bf_cur bf_last bf_data bf_fl bf_used bf_fsz]; try congruence.
    - exact (sr_used _ _ HS).
    - exact (sr_fl _ _ HS). }
  destruct HB as [HB|HB]; [|exact (HD HB)]. destruct Hx as [Hx|Hx]; [|exact (HD Hx)].
  pose proof (BM_flush c i false b B f x HB Hx) as HN.
  unfold buf_flush in ER, HN. unfold sbuf_flush in ES. rewrite <- (sr_phase _ _ HS) in ES.
  rewrite (bm_phase _ _ _ _ _ HB) in *.
  match type of ER with context [buf_force i (c_align c) true ?B] => set (b1 := B) in * end.
  match type of ES with context [sbuf_force i true ?B] => set (s1 := B) in * end.
  destruct HN as (b2 & o2 & E2 & E3 & HI1). injection E2 as <- <-.
  assert (HS1 : SRb b1 s1).
  { subst b1 s1. constructor; cbn [set_used bf_phase bf_cur bf_last bf_data bf_fl bf_used bf_fsz].
    - reflexivity.
    - intros _. apply (sr_cur _ _ HS). rewrite (bm_phase _ _ _ _ _ HB). discriminate.
    - discriminate.
    - exact (sr_used _ _ HS).
    - rewrite <- (sr_used _ _ HS). reflexivity. }
  destruct last.
  - destruct HI1 as [Q1 Q2 Q3 Q4 Q5 Q6 Q7].
    refine (force_sim c i true b1 s1 (B ++ [(f, x)]) [] Q5 _ Q3 Q4 Q6 Q7 HS1 _ _ _ _ _ ER ES).
    + rewrite app_nil_r. exact Q2.
    + right. left. rewrite Q1. destruct B; reflexivity.
  - injection ER as <- <-. injection ES as <- <-. split; [apply eqv_nil|exact HS1].
Qed.

Lemma late_sim c i b s B : BI c b B -> SRb b s ->
  forall b' ops s' sops, buf_force i (c_align c) false b = (b', ops) -> sbuf_force i false s = (s', sops) ->
  eqv c ops sops /\ SRb b' s'.
Proof.
  intros [Q1 Q2 Q3 Q4 Q5 Q6 Q7] HS b' ops s' sops ER ES.
  refine (force_sim c i false b s B [] Q5 _ Q3 Q4 Q6 Q7 HS _ _ _ _ _ ER ES).
  - rewrite app_nil_r. exact Q2.
  - rewrite Q1. destruct B; auto.
Qed.
