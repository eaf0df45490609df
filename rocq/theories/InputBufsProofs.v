(* Proofs about the input buffers: one object. *)
From Coq Require Import ZArith List Bool Lia Permutation Sorting.Sorted ZifyBool ZifyNat.
From Verif Require Import Lists BufQueueModel BufQueueSpec BufQueueProofs InputBufsModel InputBufsSpec.
Import ListNotations.
Open Scope Z_scope.

Definition sound (q : bq) : Prop :=
  node_size < bq_alloc_size q /\ all_apart (bq_alloc_size q) (held q).

Lemma at_unique q i j p : sound q -> at_buffer q i p -> at_buffer q j p -> i = j.
Proof.
  intros [_ Ha] (n & Hn & In1) (m & Hm & In2). unfold held in Ha.
  apply all_apart_app in Ha. destruct Ha as (Ha & _ & _).
  eapply inside_unique; eassumption.
Qed.

Lemma nth_error_skipn {A} (l : list A) k i : nth_error (skipn k l) i = nth_error l (k + i).
Proof. revert l; induction k as [|k IH]; intros [|x l]; cbn; auto. destruct i; reflexivity. Qed.

Definition moves (k : nat) (q q' : bq) : Prop :=
  bq_alloc_size q' = bq_alloc_size q /\ exists new, bq_used q' = skipn k (bq_used q) ++ new.

Lemma moves_at k q q' i p :
  moves k q q' -> at_buffer q i p -> (k <= i)%nat -> at_buffer q' (i - k) p.
Proof.
  intros (Hs & new & Hu) (n & Hn & Hi) Hk. exists n. rewrite Hu, Hs. split; [|exact Hi].
  rewrite nth_error_app1.
  - rewrite nth_error_skipn. replace (k + (i - k))%nat with i by lia. exact Hn.
  - rewrite skipn_length. assert (i < length (bq_used q))%nat; [|lia].
    apply nth_error_Some. rewrite Hn. discriminate.
Qed.

Definition kept (k : nat) (q : bq) (p : Z) : Prop := forall i, at_buffer q i p -> (k <= i)%nat.

Lemma moves_live k q q' p : moves k q q' -> kept k q p -> live q p -> live q' p.
Proof. intros M K (i & Hi). exists (i - k)%nat. apply (moves_at _ _ _ _ _ M Hi), K, Hi. Qed.

Lemma moves_order k q q' p p' :
  moves k q q' -> kept k q p -> kept k q p' -> not_after q p p' -> not_after q' p p'.
Proof.
  intros M K K' (i & j & Hij & Hi & Hj). exists (i - k)%nat, (j - k)%nat. split; [lia|].
  split; [apply (moves_at _ _ _ _ _ M Hi), K, Hi|apply (moves_at _ _ _ _ _ M Hj), K', Hj].
Qed.

Lemma kept0 q p : kept 0 q p.
Proof. intros i _. lia. Qed.

Lemma not_after_refl q p : live q p -> not_after q p p.
Proof. intros (i & Hi). exists i, i. auto. Qed.

Lemma not_after_live q p p' : not_after q p p' -> live q p /\ live q p'.
Proof. intros (i & j & _ & Hi & Hj). split; [exists i|exists j]; assumption. Qed.

Lemma not_after_kept q p p' k :
  sound q -> not_after q p p' -> at_buffer q k p -> kept k q p'.
Proof.
  intros S (i & j & Hij & Hi & Hj) Hk u Hu.
  rewrite (at_unique _ _ _ _ S Hk Hi), (at_unique _ _ _ _ S Hu Hj). exact Hij.
Qed.

(* The order of the locks and of the first segment in use. *)
Definition desc (a b : lock) : Prop := l_index b < l_index a.
Definition ordered (b : bufs) : Prop :=
  b_no_partial b = false ->
  StronglySorted desc (b_locks b) /\
  (forall l, In l (b_locks b) -> live (b_q b) (l_ptr l)) /\
  (forall l1 l2, In l1 (b_locks b) -> In l2 (b_locks b) -> l_index l1 < l_index l2 ->
     not_after (b_q b) (l_ptr l1) (l_ptr l2)) /\
  (0 < b_min_index b ->
     live (b_q b) (b_min_ptr b) /\
     forall l, In l (b_locks b) ->
       (l_index l < b_min_index b -> not_after (b_q b) (l_ptr l) (b_min_ptr b)) /\
       (b_min_index b <= l_index l -> not_after (b_q b) (b_min_ptr b) (l_ptr l))).

Lemma first_lock_min l f :
  StronglySorted desc l -> hd_error (rev l) = Some f ->
  In f l /\ forall x, In x l -> x = f \/ l_index f < l_index x.
Proof.
  intros S. revert f. induction S as [|a l S IH Hf]; intros f H; [discriminate|].
  cbn [rev] in H. destruct (rev l) as [|g r] eqn:E.
  - cbn in H. injection H as <-. assert (l = []) as ->.
    { rewrite <- (rev_involutive l), E. reflexivity. }
    split; [left; reflexivity|]. intros x [<-|[]]. left; reflexivity.
  - cbn in H. injection H as <-. destruct (IH g eq_refl) as (I & M).
    split; [right; exact I|]. intros x [<-|Hx]; [|apply M, Hx].
    right. rewrite Forall_forall in Hf. apply (Hf _ I).
Qed.

Lemma free_upto_spec q p i q' r rel :
  sound q -> at_buffer q i p -> bq_free_upto q p = BqOk q' r rel ->
  bq_alloc_size q' = bq_alloc_size q /\ bq_used q' = skipn i (bq_used q) /\
  Permutation (held q) (held q' ++ rel).
Proof.
  intros [S Ha] (n & Hn & Hi) H.
  destruct (step_held q (OpFree p) q' r rel H) as [Hs [Hp|(a & [=] & _)]].
  split; [exact Hs|]. split; [|exact Hp].
  unfold held in Ha. apply all_apart_app in Ha. destruct Ha as (Ha & _ & _).
  unfold bq_free_upto in H. destruct (bq_used q) as [|u us] eqn:Hu; [destruct i; discriminate|].
  destruct (bq_free_loop q p (u :: us)) as [q1 rel1] eqn:Hl. injection H as <- <- <-.
  destruct (free_loop_drop _ _ _ _ _ Hl) as (k' & Hk1 & Hk2 & _ & Hk4 & Hk5 & _).
  rewrite Hk1. f_equal.
  assert (Hk2' : (k' < length (u :: us))%nat) by (apply Hk2; discriminate).
  destruct (nth_error (u :: us) k') as [n'|] eqn:Hn'; [|apply nth_error_None in Hn'; lia].
  assert (Hkl : (i < length (u :: us))%nat).
  { apply nth_error_Some. rewrite Hn. discriminate. }
  destruct (Nat.lt_trichotomy i k') as [Hlt|[Heq|Hgt]].
  - specialize (Hk4 _ _ Hlt Hn). apply contains_inside in Hi. congruence.
  - congruence.
  - assert (Hc : node_contains q n' p = true) by (apply Hk5; [reflexivity|lia]).
    apply contains_inside in Hc. eapply inside_unique; eassumption.
Qed.

Lemma free_loop_mem l : forall q p q' rel,
  bq_free_loop q p l = (q', rel) -> bq_mem_left q <> None -> bq_mem_left q' <> None.
Proof.
  induction l as [|c l IH]; intros q p q' rel; cbn [bq_free_loop].
  - intros [= <- <-]. auto.
  - destruct (node_contains q c p); [intros [= <- <-]; auto|].
    destruct l as [|d l]; [intros [= <- <-]; auto|].
    destruct (bq_release q c) as [q1 r1] eqn:R.
    destruct (bq_free_loop q1 p (d :: l)) as [q2 r2] eqn:L. intros [= <- <-] M.
    refine (IH _ _ _ _ L _). unfold bq_release in R.
    destruct (bq_free_left q <=? 0); injection R as <- <-; cbn [bq_mem_left]; [|exact M].
    destruct (bq_mem_left q); [discriminate|congruence].
Qed.

Lemma free_upto_mem q p q' r rel :
  bq_free_upto q p = BqOk q' r rel -> bq_mem_left q <> None -> bq_mem_left q' <> None.
Proof.
  unfold bq_free_upto. destruct (bq_used q) as [|u us]; [intros [= <- <- <-]; auto|].
  destruct (bq_free_loop q p (u :: us)) as [q1 rel1] eqn:Hl. intros [= <- <- <-].
  eapply free_loop_mem, Hl.
Qed.

Lemma set_q_same b : set_q b (b_q b) = b.
Proof. destruct b; reflexivity. Qed.

(* Freeing what is no longer needed keeps everything from the first lock and
   from the first segment in use on. *)
Lemma free_bufs_spec b b' rel :
  sound (b_q b) -> ordered b -> free_bufs b = (b', rel) ->
  exists q' k, b' = set_q b q' /\ moves k (b_q b) q' /\
    bq_used q' = skipn k (bq_used (b_q b)) /\
    Permutation (held (b_q b)) (held q' ++ rel) /\
    (bq_mem_left (b_q b) <> None -> bq_mem_left q' <> None) /\
    (b_no_partial b = true -> k = 0%nat /\ rel = []) /\
    (b_no_partial b = false ->
       (forall l, In l (b_locks b) -> kept k (b_q b) (l_ptr l)) /\
       (0 < b_min_index b -> kept k (b_q b) (b_min_ptr b))).
Proof.
  intros S O. unfold free_bufs.
  assert (Same : exists q' k, b = set_q b q' /\ moves k (b_q b) q' /\
    bq_used q' = skipn k (bq_used (b_q b)) /\
    Permutation (held (b_q b)) (held q' ++ []) /\
    (bq_mem_left (b_q b) <> None -> bq_mem_left q' <> None) /\
    (b_no_partial b = true -> k = 0%nat /\ @nil Z = []) /\
    (b_no_partial b = false ->
       (forall l, In l (b_locks b) -> kept k (b_q b) (l_ptr l)) /\
       (0 < b_min_index b -> kept k (b_q b) (b_min_ptr b)))).
  { exists (b_q b), 0%nat. split; [symmetry; apply set_q_same|].
    split; [split; [reflexivity|exists []; symmetry; apply app_nil_r]|].
    split; [reflexivity|]. split; [rewrite app_nil_r; reflexivity|]. split; [auto|].
    split; [auto|]. intros _. split; intros; apply kept0. }
  destruct (b_no_partial b) eqn:NP; [intros [= <- <-]; exact Same|].
  destruct (b_min_index b <=? 0) eqn:M; [intros [= <- <-]; exact Same|].
  apply Z.leb_gt in M. destruct (O NP) as (Hsort & Hlive & Hord & Hmin).
  destruct (Hmin M) as (Lmin & Omin). clear Same.
  set (ptr := match first_lock b with
              | Some l => if l_index l <? b_min_index b then l_ptr l else b_min_ptr b
              | None => b_min_ptr b end).
  assert (P : live (b_q b) ptr /\
              (forall l, In l (b_locks b) -> not_after (b_q b) ptr (l_ptr l)) /\
              not_after (b_q b) ptr (b_min_ptr b)).
  { unfold ptr, first_lock. destruct (hd_error (rev (b_locks b))) as [f|] eqn:F.
    - destruct (first_lock_min _ _ Hsort F) as (If & Mf).
      destruct (Z.ltb_spec (l_index f) (b_min_index b)) as [Lt|Ge].
      + split; [apply Hlive, If|]. split; [|apply Omin; assumption].
        intros l Hl. destruct (Mf l Hl) as [->|Lf]; [apply not_after_refl, Hlive, If|].
        apply Hord; assumption.
      + split; [exact Lmin|]. split; [|apply not_after_refl, Lmin].
        intros l Hl. apply Omin; [exact Hl|]. destruct (Mf l Hl) as [->|Lf]; lia.
    - split; [exact Lmin|]. split; [|apply not_after_refl, Lmin].
      intros l Hl. exfalso. assert (b_locks b = []) as E.
      { rewrite <- (rev_involutive (b_locks b)). destruct (rev (b_locks b)); [reflexivity|discriminate]. }
      rewrite E in Hl. destruct Hl. }
  destruct P as ((i & Hi) & P1 & P2).
  destruct (bq_free_upto (b_q b) ptr) as [q' r rel'|] eqn:FU.
  2:{ exfalso. unfold bq_free_upto in FU. destruct (bq_used (b_q b)); [discriminate|].
      destruct (bq_free_loop _ _ _); discriminate. }
  intros [= <- <-]. destruct (free_upto_spec _ _ _ _ _ _ S Hi FU) as (Hs & Hu & Hp).
  exists q', i. split; [reflexivity|].
  split; [split; [exact Hs|exists []; rewrite app_nil_r; exact Hu]|].
  split; [exact Hu|]. split; [exact Hp|]. split; [exact (free_upto_mem _ _ _ _ _ FU)|].
  split; [discriminate|]. intros _. split.
  - intros l Hl. exact (not_after_kept _ _ _ _ S (P1 l Hl) Hi).
  - intros _. exact (not_after_kept _ _ _ _ S P2 Hi).
Qed.

(* An object used by [nt] tracks and the holds [H]. *)
Definition count (id : nat) (H : list hold) : nat :=
  length (filter (fun h => Nat.eqb (h_lock h) id) H).

Record core (b : bufs) (H : list hold) : Prop := mkCore {
  bi_sound : sound (b_q b);
  bi_ids : NoDup (map l_id (b_locks b));
  bi_count : forall l, In l (b_locks b) ->
    l_refs l = Z.of_nat (count (l_id l) H) /\ (0 < count (l_id l) H)%nat;
  bi_holds : forall h, In h H -> live (b_q b) (h_ptr h) /\
    exists l, In l (b_locks b) /\ l_id l = h_lock h /\
      (b_no_partial b = false -> l_index l = h_index h /\ l_ptr l = h_ptr h);
  bi_ordered : ordered b }.

Definition binv (b : bufs) (nt : nat) (H : list hold) : Prop :=
  core b H /\ b_refs b = Z.of_nat (nt + length (b_locks b)) /\
  (0 < nt + length (b_locks b))%nat.

(* the same object over a later queue *)
Lemma ordered_moves b q' k :
  moves k (b_q b) q' ->
  (b_no_partial b = false ->
       (forall l, In l (b_locks b) -> kept k (b_q b) (l_ptr l)) /\
       (0 < b_min_index b -> kept k (b_q b) (b_min_ptr b))) ->
  ordered b -> ordered (set_q b q').
Proof.
  intros M K O NP. destruct (O NP) as (H1 & H2 & H3 & H4). destruct (K NP) as (K1 & K2).
  cbn [set_q b_locks b_q b_min_index b_min_ptr].
  split; [exact H1|]. split; [|split].
  - intros l Hl. apply (moves_live k (b_q b)); auto.
  - intros l1 l2 I1 I2 Lt. apply (moves_order k (b_q b)); auto.
  - intros Mi. destruct (H4 Mi) as (L & R). split; [apply (moves_live k (b_q b)); auto|].
    intros l Hl. destruct (R l Hl) as (R1 & R2).
    split; intros Hx; apply (moves_order k (b_q b)); auto.
Qed.

Lemma held_moves_sound q q' rel :
  sound q -> bq_alloc_size q' = bq_alloc_size q -> Permutation (held q) (held q' ++ rel) -> sound q'.
Proof.
  intros [S A] Hs P. split; [rewrite Hs; exact S|]. rewrite Hs.
  apply (all_apart_perm _ _ _ P) in A. apply all_apart_app in A. tauto.
Qed.

Lemma core_moves b H q' k :
  core b H -> sound q' -> moves k (b_q b) q' ->
  (forall h, In h H -> kept k (b_q b) (h_ptr h)) ->
  (b_no_partial b = false ->
       (forall l, In l (b_locks b) -> kept k (b_q b) (l_ptr l)) /\
       (0 < b_min_index b -> kept k (b_q b) (b_min_ptr b))) ->
  core (set_q b q') H.
Proof.
  intros B S M KH K2. constructor; cbn [set_q b_q b_refs b_locks b_no_partial].
  - exact S.
  - apply (bi_ids _ _ B).
  - apply (bi_count _ _ B).
  - intros h Hh. destruct (bi_holds _ _ B h Hh) as (L & R).
    split; [apply (moves_live k (b_q b)); auto|exact R].
  - apply (ordered_moves _ _ k M K2), (bi_ordered _ _ B).
Qed.

Lemma core_free_bufs b H b' rel :
  core b H -> free_bufs b = (b', rel) ->
  exists q' k, b' = set_q b q' /\ core b' H /\ moves k (b_q b) q' /\
    bq_used q' = skipn k (bq_used (b_q b)) /\
    Permutation (held (b_q b)) (held q' ++ rel) /\
    (bq_mem_left (b_q b) <> None -> bq_mem_left q' <> None) /\
    (forall h, In h H -> kept k (b_q b) (h_ptr h)).
Proof.
  intros B F. destruct (free_bufs_spec _ _ _ (bi_sound _ _ B) (bi_ordered _ _ B) F)
    as (q' & k & -> & M & U & P & Mem & K1 & K2).
  assert (KH : forall h, In h H -> kept k (b_q b) (h_ptr h)).
  { intros h Hh. destruct (b_no_partial b) eqn:NP.
    - destruct (K1 eq_refl) as (-> & _). apply kept0.
    - destruct (bi_holds _ _ B h Hh) as (_ & l & Il & _ & E). rewrite NP in E.
      destruct (E eq_refl) as (_ & E2). rewrite <- E2. apply (proj1 (K2 eq_refl)), Il. }
  exists q', k. split; [reflexivity|]. split; [|auto 7].
  apply (core_moves _ _ _ k B); auto.
  exact (held_moves_sound _ _ _ (bi_sound _ _ B) (proj1 M) P).
Qed.

Lemma core_refs b H n : core b H -> core (set_refs b n) H.
Proof. intros []. constructor; assumption. Qed.

Lemma core_linked b H : core b H -> core (set_linked b) H.
Proof.
  intros [C1 C2 C3 C4 C5]. constructor; try assumption; cbn [set_linked b_no_partial b_q b_locks].
  - intros h Hh. destruct (C4 h Hh) as (L & l & I & E & _).
    split; [exact L|]. exists l. split; [exact I|]. split; [exact E|discriminate].
  - intros [=].
Qed.

Lemma core_detach b H : core b H -> core (detach b) H.
Proof.
  intros C. unfold detach. cbn [bq_detach].
  apply (core_moves _ _ _ 0 C).
  - exact (bi_sound _ _ C).
  - split; [reflexivity|]. exists []. cbn. rewrite app_nil_r. reflexivity.
  - intros; apply kept0.
  - intros _; split; intros; apply kept0.
Qed.

Lemma core_get b H r q' p rel :
  core b H -> (forall a, r = Some a -> Forall (apart (bq_alloc_size (b_q b)) a) (held (b_q b))) ->
  bq_get (b_q b) r = BqOk q' p rel ->
  core (set_q b q') H /\ moves 0 (b_q b) q' /\ rel = [] /\
  (Permutation (held (b_q b)) (held q') \/
   (exists a, r = Some a /\ Permutation (held q') (a :: held (b_q b)))).
Proof.
  intros C A G. destruct (step_held (b_q b) (OpGet r) q' p rel G) as (Hs & HP).
  assert (R : rel = [] /\ exists new, bq_used q' = bq_used (b_q b) ++ new).
  { unfold bq_get in G. destruct (bq_free (b_q b)) as [|n rest].
    - destruct (bq_mem_left (b_q b)) as [m|]; [|discriminate].
      destruct (m <? bq_alloc_size (b_q b)).
      + injection G as <- <- <-. split; [reflexivity|exists []; symmetry; apply app_nil_r].
      + destruct r; injection G as <- <- <-; (split; [reflexivity|]).
        * eexists. cbn. reflexivity.
        * exists []; symmetry; apply app_nil_r.
    - injection G as <- <- <-. split; [reflexivity|]. eexists. cbn. reflexivity. }
  destruct R as (-> & new & U).
  assert (M : moves 0 (b_q b) q') by (split; [exact Hs|exists new; exact U]).
  assert (S : sound q').
  { destruct (bi_sound _ _ C) as (S1 & S2). split; [rewrite Hs; exact S1|]. rewrite Hs.
    destruct HP as [HP|(a & E & _ & HP)].
    - rewrite app_nil_r in HP. exact (all_apart_perm _ _ _ HP S2).
    - apply (all_apart_perm _ (a :: held (b_q b))); [symmetry; exact HP|].
      split; [apply A; congruence|exact S2]. }
  split; [|split; [exact M|split; [reflexivity|]]].
  - apply (core_moves _ _ _ 0 C S M); [intros; apply kept0|intros _; split; intros; apply kept0].
  - destruct HP as [HP|(a & E & _ & HP)]; [left; rewrite app_nil_r in HP; exact HP|].
    right. exists a. split; [congruence|exact HP].
Qed.

Lemma core_set_min b H index p :
  core b H -> in_order b index p -> core (set_min b index p) H.
Proof.
  intros [C1 C2 C3 C4 C5] (L & O). constructor; try assumption.
  intros NP. change (b_no_partial b = false) in NP. destruct (C5 NP) as (H1 & H2 & H3 & H4).
  cbn [set_min b_locks b_q b_min_index b_min_ptr].
  split; [exact H1|]. split; [exact H2|]. split; [exact H3|]. intros _. split; [exact L|].
  intros l Hl. destruct (O NP l Hl) as (O1 & O2 & O3). split; [exact O1|].
  intros Ge. destruct (Z.eq_dec index (l_index l)) as [E|N]; [|apply O2; lia].
  rewrite (O3 E) at 1. apply not_after_refl, H2, Hl.
Qed.

(* ---- locks ---- *)

Lemma count_cons id h H :
  count id (h :: H) = ((if Nat.eqb (h_lock h) id then 1 else 0) + count id H)%nat.
Proof. unfold count. cbn [filter]. destruct (Nat.eqb (h_lock h) id); reflexivity. Qed.

Lemma count_app id A B : count id (A ++ B) = (count id A + count id B)%nat.
Proof. unfold count. rewrite filter_app, app_length. reflexivity. Qed.

Lemma count_zero id H : (forall h, In h H -> h_lock h <> id) -> count id H = 0%nat.
Proof.
  induction H as [|h H IH]; intros A; [reflexivity|]. rewrite count_cons, IH.
  - destruct (Nat.eqb_spec (h_lock h) id) as [E|N]; [destruct (A h); [left; reflexivity|exact E]|reflexivity].
  - intros x Hx. apply A. right; exact Hx.
Qed.

Lemma count_pos id H : (0 < count id H)%nat -> exists h, In h H /\ h_lock h = id.
Proof.
  induction H as [|h H IH]; [cbn; lia|]. rewrite count_cons. intros L.
  destruct (Nat.eqb_spec (h_lock h) id) as [E|N]; [exists h; split; [left; reflexivity|exact E]|].
  destruct IH as (x & I & E); [lia|]. exists x. split; [right; exact I|exact E].
Qed.

Definition bump (l : lock) : lock := mkLock (l_id l) (l_index l) (l_refs l + 1) (l_ptr l).

Lemma scan_spec np new locks :
  match scan np new locks with
  | SBad => True
  | SFound l id => exists a c r, locks = a ++ c :: r /\ l = a ++ bump c :: r /\ id = l_id c /\
      (np = false -> l_index c = l_index new /\ l_ptr c = l_ptr new)
  | SNew l => exists a r, locks = a ++ r /\ l = a ++ new :: r /\ (np = true -> locks = []) /\
      (forall x, In x a -> l_index new < l_index x) /\
      (StronglySorted desc locks -> forall x, In x r -> l_index x < l_index new)
  end.
Proof.
  induction locks as [|c locks IH]; cbn [scan].
  - exists [], []. repeat split; auto; cbn; intros; contradiction.
  - destruct np eqn:NP.
    + exists [], c, locks. repeat split; auto; discriminate.
    + destruct (Z.ltb_spec (l_index new) (l_index c)) as [L|G].
      * destruct (scan false new locks) as [l|l id|]; [| |exact Logic.I].
        -- destruct IH as (a & r & -> & -> & _ & H1 & H2). exists (c :: a), r.
           split; [reflexivity|]. split; [reflexivity|]. split; [discriminate|]. split.
           ++ intros x [<-|Hx]; [exact L|apply H1, Hx].
           ++ intros S. apply H2. inversion S; assumption.
        -- destruct IH as (a & d & r & -> & -> & -> & H). exists (c :: a), d, r. auto.
      * destruct (Z.ltb_spec (l_index c) (l_index new)) as [L|G2].
        -- exists [], (c :: locks). split; [reflexivity|]. split; [reflexivity|].
           split; [discriminate|]. split; [intros x []|]. intros S x [<-|Hx]; [exact L|].
           inversion S as [|? ? _ F]; subst. rewrite Forall_forall in F. specialize (F x Hx).
           unfold desc in F. lia.
        -- destruct (Z.eqb_spec (l_ptr c) (l_ptr new)) as [E|N]; [|exact Logic.I].
           exists [], c, locks. repeat split; auto. lia.
Qed.

Lemma sorted_insert a r new :
  StronglySorted desc (a ++ r) -> (forall x, In x a -> l_index new < l_index x) ->
  (forall x, In x r -> l_index x < l_index new) -> StronglySorted desc (a ++ new :: r).
Proof.
  induction a as [|c a IH]; cbn; intros S A R.
  - constructor; [exact S|]. apply Forall_forall. exact R.
  - inversion S as [|? ? S' F]; subst. constructor.
    + apply IH; auto.
    + rewrite Forall_app in F. destruct F as (F1 & F2). apply Forall_app. split; [exact F1|].
      constructor; [apply A; left; reflexivity|exact F2].
Qed.

Lemma in_insert {A} (a r : list A) x y : In y (a ++ x :: r) <-> y = x \/ In y (a ++ r).
Proof. rewrite !in_app_iff. cbn. split; intuition. Qed.

(* Locks that differ in their counts only. *)
Lemma sorted_map (f : lock -> lock) l :
  (forall x, l_index (f x) = l_index x) -> StronglySorted desc l -> StronglySorted desc (map f l).
Proof.
  intros E S. induction S as [|a l S IH F]; cbn; [constructor|]. constructor; [exact IH|].
  apply Forall_forall. intros x Hx. apply in_map_iff in Hx. destruct Hx as (y & <- & Hy).
  rewrite Forall_forall in F. unfold desc. rewrite !E. apply (F y Hy).
Qed.

Lemma ordered_map b (f : lock -> lock) refs n :
  (forall x, l_index (f x) = l_index x /\ l_ptr (f x) = l_ptr x) ->
  ordered b -> ordered (set_locks b (map f (b_locks b)) refs n).
Proof.
  intros E O NP. destruct (O NP) as (H1 & H2 & H3 & H4).
  cbn [set_locks b_locks b_q b_min_index b_min_ptr].
  split; [apply sorted_map; [intros x; apply E|exact H1]|]. split; [|split].
  - intros l Hl. apply in_map_iff in Hl. destruct Hl as (y & <- & Hy).
    rewrite (proj2 (E y)). apply H2, Hy.
  - intros l1 l2 I1 I2 Lt. apply in_map_iff in I1, I2. destruct I1 as (y1 & <- & J1).
    destruct I2 as (y2 & <- & J2). rewrite (proj2 (E y1)), (proj2 (E y2)).
    rewrite (proj1 (E y1)), (proj1 (E y2)) in Lt. auto.
  - intros M. destruct (H4 M) as (L & R). split; [exact L|].
    intros l Hl. apply in_map_iff in Hl. destruct Hl as (y & <- & Hy).
    rewrite (proj1 (E y)), (proj2 (E y)). apply R, Hy.
Qed.

Definition bump_at (id : nat) (l : lock) : lock := if Nat.eqb (l_id l) id then bump l else l.

Lemma map_id_other a id : ~ In id (map l_id a) -> map (bump_at id) a = a.
Proof.
  induction a as [|c a IH]; cbn; intros N; [reflexivity|]. rewrite IH by tauto. f_equal.
  unfold bump_at. destruct (Nat.eqb_spec (l_id c) id); [tauto|reflexivity].
Qed.

(* A lock found again. *)
Lemma core_relock b H i a c r index p refs n :
  core b H -> b_locks b = a ++ c :: r -> live (b_q b) p ->
  (b_no_partial b = false -> l_index c = index /\ l_ptr c = p) ->
  core (set_locks b (a ++ bump c :: r) refs n) (mkHold (l_id c) i index p :: H).
Proof.
  intros [C1 C2 C3 C4 C5] E L Q.
  assert (ND := C2). rewrite E, map_app in ND. cbn [map] in ND.
  assert (N : ~ In (l_id c) (map l_id a) /\ ~ In (l_id c) (map l_id r)).
  { apply NoDup_remove_2 in ND. rewrite in_app_iff in ND. tauto. }
  assert (Mp : a ++ bump c :: r = map (bump_at (l_id c)) (b_locks b)).
  { rewrite E, map_app. cbn [map]. rewrite !map_id_other by tauto. f_equal. f_equal.
    unfold bump_at. rewrite Nat.eqb_refl. reflexivity. }
  assert (Ef : forall x, l_id (bump_at (l_id c) x) = l_id x /\
     l_index (bump_at (l_id c) x) = l_index x /\ l_ptr (bump_at (l_id c) x) = l_ptr x).
  { intros x. unfold bump_at. destruct (Nat.eqb _ _); auto. }
  rewrite Mp. constructor; cbn [set_locks b_q b_locks b_no_partial].
  - exact C1.
  - rewrite map_map. rewrite (map_ext _ l_id); [exact C2|]. intros x; apply Ef.
  - intros l Hl. apply in_map_iff in Hl. destruct Hl as (y & <- & Hy).
    rewrite (proj1 (Ef y)). rewrite count_cons. cbn [h_lock]. destruct (C3 y Hy) as (R1 & R2).
    unfold bump_at. rewrite Nat.eqb_sym. destruct (Nat.eqb (l_id c) (l_id y)); cbn; lia.
  - intros h [<-|Hh]; cbn [h_ptr h_lock h_index].
    + split; [exact L|]. exists (bump_at (l_id c) c). split.
      * apply in_map. rewrite E. apply in_or_app. right; left; reflexivity.
      * destruct (Ef c) as (-> & -> & ->). split; [reflexivity|exact Q].
    + destruct (C4 h Hh) as (Lh & l & Il & El & Ql). split; [exact Lh|].
      exists (bump_at (l_id c) l). split; [apply in_map, Il|].
      destruct (Ef l) as (-> & -> & ->). auto.
  - apply ordered_map; [|exact C5]. intros x; apply Ef.
Qed.

Lemma nodup_insert {A} (a r : list A) x : ~ In x (a ++ r) -> NoDup (a ++ r) -> NoDup (a ++ x :: r).
Proof. intros N D. apply (NoDup_Add (Add_app x a r)). auto. Qed.

(* A new lock. *)
Lemma core_newlock b H i a r id index p refs n :
  core b H -> b_locks b = a ++ r -> ~ In id (map l_id (b_locks b)) ->
  in_order b index p ->
  (b_no_partial b = false -> 0 < b_min_index b ->
           (index < b_min_index b -> not_after (b_q b) p (b_min_ptr b)) /\
           (b_min_index b <= index -> not_after (b_q b) (b_min_ptr b) p)) ->
  (forall x, In x a -> index < l_index x) ->
  (b_no_partial b = false -> forall x, In x r -> l_index x < index) ->
  core (set_locks b (a ++ mkLock id index 1 p :: r) refs n) (mkHold id i index p :: H).
Proof.
  intros [C1 C2 C3 C4 C5] E N (L & O) Mi Ga Gr.
  assert (Z0 : count id H = 0%nat).
  { apply count_zero. intros h Hh. destruct (C4 h Hh) as (_ & l & Il & <- & _).
    intros X. apply N. rewrite <- X. apply in_map, Il. }
  constructor; cbn [set_locks b_q b_locks b_no_partial].
  - exact C1.
  - rewrite map_app. cbn [map l_id]. apply nodup_insert; rewrite <- map_app, <- E; assumption.
  - intros l Hl. apply in_insert in Hl. rewrite count_cons. cbn [h_lock].
    destruct Hl as [->|Hl].
    + cbn [l_id l_refs]. rewrite Nat.eqb_refl, Z0. cbn. lia.
    + rewrite <- E in Hl. destruct (Nat.eqb_spec id (l_id l)) as [X|X].
      * destruct N. rewrite X. apply in_map, Hl.
      * apply C3, Hl.
  - intros h [<-|Hh]; cbn [h_ptr h_lock h_index].
    + split; [exact L|]. eexists. split; [apply in_insert; left; reflexivity|]. auto.
    + destruct (C4 h Hh) as (Lh & l & Il & Ql). split; [exact Lh|].
      exists l. split; [apply in_insert; right; rewrite <- E; exact Il|exact Ql].
  - intros NP. cbn [set_locks b_no_partial] in NP.
    destruct (C5 NP) as (H1 & H2 & H3 & H4). specialize (O NP). specialize (Mi NP).
    specialize (Gr NP). cbn [set_locks b_locks b_q b_min_index b_min_ptr].
    split; [apply sorted_insert; auto; rewrite <- E; exact H1|]. split; [|split].
    + intros l Hl. apply in_insert in Hl. destruct Hl as [->|Hl]; [exact L|].
      apply H2. rewrite E; exact Hl.
    + intros l1 l2 I1 I2 Lt. apply in_insert in I1, I2. rewrite <- E in I1, I2.
      destruct I1 as [->|I1], I2 as [->|I2]; cbn [l_index l_ptr] in *.
      * lia.
      * apply (O l2 I2). exact Lt.
      * apply (O l1 I1). exact Lt.
      * apply H3; assumption.
    + intros M. destruct (H4 M) as (Lm & R). split; [exact Lm|].
      intros l Hl. apply in_insert in Hl. rewrite <- E in Hl.
      destruct Hl as [->|Hl]; [apply Mi, M|apply R, Hl].
Qed.

Definition dec_at (id : nat) (x : lock) : lock :=
  if Nat.eqb (l_id x) id then mkLock (l_id x) (l_index x) (l_refs x - 1) (l_ptr x) else x.

(* A lock given up while others hold it. *)
Lemma core_unlock b A h B refs n :
  core b (A ++ h :: B) -> (0 < count (h_lock h) (A ++ B))%nat ->
  core (set_locks b (map (dec_at (h_lock h)) (b_locks b)) refs n) (A ++ B).
Proof.
  intros [C1 C2 C3 C4 C5] P.
  assert (Ef : forall x, l_id (dec_at (h_lock h) x) = l_id x /\
     l_index (dec_at (h_lock h) x) = l_index x /\ l_ptr (dec_at (h_lock h) x) = l_ptr x).
  { intros x. unfold dec_at. destruct (Nat.eqb _ _); auto. }
  constructor; cbn [set_locks b_q b_locks b_no_partial].
  - exact C1.
  - rewrite map_map. rewrite (map_ext _ l_id); [exact C2|]. intros x; apply Ef.
  - intros l Hl. apply in_map_iff in Hl. destruct Hl as (y & <- & Hy).
    rewrite (proj1 (Ef y)). destruct (C3 y Hy) as (R1 & R2).
    rewrite count_app, count_cons in R1, R2. rewrite count_app in *.
    unfold dec_at. rewrite Nat.eqb_sym. destruct (Nat.eqb_spec (h_lock h) (l_id y)) as [X|X].
    + cbn [l_refs]. rewrite <- X in *. lia.
    + lia.
  - intros x Hx. assert (Hx' : In x (A ++ h :: B)) by (apply in_insert; auto).
    destruct (C4 x Hx') as (Lh & l & Il & El & Ql). split; [exact Lh|].
    exists (dec_at (h_lock h) l). split; [apply in_map, Il|].
    destruct (Ef l) as (-> & -> & ->). auto.
  - apply ordered_map; [|exact C5]. intros x; apply Ef.
Qed.

Lemma sorted_filter f l : StronglySorted desc l -> StronglySorted desc (filter f l).
Proof.
  induction 1 as [|a l S IH F]; cbn; [constructor|]. destruct (f a); [|exact IH].
  constructor; [exact IH|]. apply Forall_forall. intros x Hx. apply filter_In in Hx.
  rewrite Forall_forall in F. apply F, Hx.
Qed.

Lemma nodup_map_filter {A B} (g : A -> B) f l : NoDup (map g l) -> NoDup (map g (filter f l)).
Proof.
  induction l as [|a l IH]; cbn; intros N; [constructor|]. inversion N; subst.
  destruct (f a); [|auto]. cbn. constructor; [|auto]. intros X. apply in_map_iff in X.
  destruct X as (y & E & Hy). apply filter_In in Hy. apply H1. rewrite <- E. apply in_map, Hy.
Qed.

(* A lock given up by its last holder. *)
Lemma core_last_unlock b A h B refs n :
  core b (A ++ h :: B) -> count (h_lock h) (A ++ B) = 0%nat ->
  core (set_locks b (filter (fun x => negb (Nat.eqb (l_id x) (h_lock h))) (b_locks b)) refs n) (A ++ B).
Proof.
  intros [C1 C2 C3 C4 C5] P. constructor; cbn [set_locks b_q b_locks b_no_partial].
  - exact C1.
  - apply nodup_map_filter, C2.
  - intros l Hl. apply filter_In in Hl. destruct Hl as (Hl & Nl).
    destruct (C3 l Hl) as (R1 & R2). rewrite count_app, count_cons in R1, R2.
    rewrite count_app. rewrite Nat.eqb_sym in Nl. destruct (Nat.eqb (h_lock h) (l_id l)); [discriminate|].
    cbn in R1, R2. auto.
  - intros x Hx. assert (Hx' : In x (A ++ h :: B)) by (apply in_insert; auto).
    destruct (C4 x Hx') as (Lh & l & Il & El & Ql). split; [exact Lh|].
    exists l. split; [|auto]. apply filter_In. split; [exact Il|].
    destruct (Nat.eqb_spec (l_id l) (h_lock h)) as [X|X]; [|reflexivity]. exfalso.
    assert (Y : h_lock x = h_lock h) by congruence. clear - P Hx Y.
    induction (A ++ B) as [|z l IH]; [destruct Hx|]. rewrite count_cons in P.
    destruct Hx as [->|Hx].
    + rewrite Y, Nat.eqb_refl in P. discriminate.
    + apply IH; [|exact Hx]. destruct (Nat.eqb _ _); lia.
  - intros NP. cbn [set_locks b_no_partial] in NP. destruct (C5 NP) as (H1 & H2 & H3 & H4).
    cbn [set_locks b_locks b_q b_min_index b_min_ptr].
    split; [apply sorted_filter, H1|]. split; [|split].
    + intros l Hl. apply filter_In in Hl. apply H2, Hl.
    + intros l1 l2 I1 I2. apply filter_In in I1, I2. apply H3; [apply I1|apply I2].
    + intros M. destruct (H4 M) as (Lm & R). split; [exact Lm|].
      intros l Hl. apply filter_In in Hl. apply R, Hl.
Qed.

Lemma filter_id_none l id :
  ~ In id (map l_id l) -> filter (fun x => negb (Nat.eqb (l_id x) id)) l = l.
Proof.
  induction l as [|c l IH]; cbn; intros N; [reflexivity|]. rewrite IH by tauto.
  destruct (Nat.eqb_spec (l_id c) id) as [X|X]; [tauto|reflexivity].
Qed.

Lemma filter_id_length l id x :
  NoDup (map l_id l) -> In x l -> l_id x = id ->
  S (length (filter (fun x => negb (Nat.eqb (l_id x) id)) l)) = length l.
Proof.
  induction l as [|c l IH]; intros N I E; [destruct I|]. cbn [map] in N. inversion N as [|? ? N1 N2]; subst.
  cbn [filter]. destruct I as [->|I].
  - rewrite Nat.eqb_refl. cbn [negb length]. rewrite filter_id_none by exact N1. reflexivity.
  - destruct (Nat.eqb_spec (l_id c) (l_id x)) as [X|X].
    + exfalso. apply N1. rewrite X. apply in_map, I.
    + cbn [negb length]. f_equal. apply IH; auto.
Qed.
