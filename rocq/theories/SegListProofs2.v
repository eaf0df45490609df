From Coq Require Import List ZArith Bool Lia ZifyBool ZifyNat.
From Verif Require Import SegListModel SegListSpec SegListProofs.
Import ListNotations.
Local Open Scope Z_scope.

(* --- the segments are numbered --- *)
Lemma linked_app_l a b : linked (a ++ b) -> linked a.
Proof.
  induction a as [|x a IH]; [intros; exact Logic.I|]. intros H. destruct a as [|y a]; [exact Logic.I|].
  change (link x y /\ linked ((y :: a) ++ b)) in H. destruct H as [H1 H2]. split; auto.
Qed.

Lemma linked_lt a x b y c : Forall wf_node (a ++ x :: b ++ y :: c) -> linked (a ++ x :: b ++ y :: c) ->
  n_last x < n_key y /\ n_period x <= n_period y.
Proof.
  intros W H. apply linked_app_r in H. apply Forall_app in W as [_ W]. clear a. revert x W H.
  induction b as [|z b IH]; intros x W H.
  - cbn in H. unfold link in H. lia.
  - change (link x z /\ linked (z :: b ++ y :: c)) in H. destruct H as [(H1 & H2 & _) H]. inversion W as [|? ? _ Wz]; subst.
    specialize (IH z Wz H). inversion Wz as [|? ? (NE & _ & O & L) _]; subst.
    assert (1 <= cnt (n_elts z)) by (destruct (n_elts z) as [|e r]; [contradiction|]; inversion O as [|? ? [? ?] Or]; subst; pose proof (cnt_nonneg _ Or); cbn [cnt]; lia).
    lia.
Qed.

Lemma node_key_le n : wf_node n -> n_key n <= n_last n.
Proof.
  intros (NE & _ & O & L). destruct (n_elts n) as [|e r]; [contradiction|]. inversion O as [|? ? [? ?] Or]; subst.
  pose proof (cnt_nonneg _ Or); cbn [cnt] in L; lia.
Qed.

Lemma nth_split2 {A} (l : list A) i j x y : nth_error l i = Some x -> nth_error l j = Some y -> (i < j)%nat ->
  exists a b c, l = a ++ x :: b ++ y :: c.
Proof.
  intros Hi Hj L. apply nth_error_split in Hi as (a & r & -> & La). rewrite nth_error_app2 in Hj by lia.
  destruct (j - length a)%nat as [|k] eqn:Ek; [lia|]. cbn in Hj. apply nth_error_split in Hj as (b & c & -> & _).
  exists a, b, c. reflexivity.
Qed.

Lemma nodes_lt nodes i j x y : Forall wf_node nodes -> linked nodes -> nth_error nodes i = Some x -> nth_error nodes j = Some y ->
  (i < j)%nat -> n_last x < n_key y /\ n_period x <= n_period y.
Proof.
  intros W L Hi Hj H. destruct (nth_split2 _ _ _ _ _ Hi Hj H) as (a & b & c & ->). eapply linked_lt; eauto.
Qed.

Lemma some_inj {A} (x y : A) : Some x = Some y -> x = y.
Proof. intros H; injection H; auto. Qed.

(* --- iterators: the durations from a position on --- *)
Definition durs (elts : list elt) : list Z := flat_map (fun e => repeat (e_dur e) (Z.to_nat (e_cnt e))) elts.
Definition rest (l : slist) (it : iter) : option (list Z) :=
  match nth_error (l_nodes l) (i_node it) with
  | None => None
  | Some n =>
      match nth_error (n_elts n) (i_elt it) with
      | None => None
      | Some e =>
          if (0 <=? i_off it) && (i_off it <=? e_cnt e) then
            Some (repeat (e_dur e) (Z.to_nat (e_cnt e - i_off it)) ++ durs (skipn (S (i_elt it)) (n_elts n)) ++
                  flat_map (fun n => durs (n_elts n)) (skipn (S (i_node it)) (l_nodes l)))
          else None
      end
  end.

Lemma map_run n i t d : map s_dur (run n i t d) = repeat d n.
Proof. revert i t; induction n as [|n IH]; intros; cbn; [reflexivity|]. rewrite IH. reflexivity. Qed.
Lemma map_expand a i t : map s_dur (expand a i t) = durs a.
Proof.
  revert i t; induction a as [|e a IH]; intros; cbn; [reflexivity|]. rewrite map_app, map_run, IH. reflexivity.
Qed.
Lemma map_segs_of l : map s_dur (segs_of l) = flat_map (fun n => durs (n_elts n)) l.
Proof.
  unfold segs_of. induction l as [|n l IH]; [reflexivity|]. cbn. rewrite map_app, IH. unfold node_segs. rewrite map_expand. reflexivity.
Qed.

Lemma skipn_nth {A} (l : list A) i x : nth_error l i = Some x -> skipn i l = x :: skipn (S i) l.
Proof.
  revert i; induction l as [|y l IH]; intros [|i] H; try discriminate; cbn in H.
  - injection H as ->. reflexivity.
  - cbn [skipn]. apply IH in H. exact H.
Qed.

Lemma nth_some {A} (l : list A) i : (i < length l)%nat -> exists x, nth_error l i = Some x.
Proof. intros H. destruct (nth_error l i) eqn:E; [eauto|]. apply nth_error_None in E. lia. Qed.

(* the node part of move_next *)
Lemma move_next_ok l it r d : wf l -> rest l it = Some (d :: r) ->
  exists it' e, move_next l it = Some it' /\ rest l it' = Some (d :: r) /\ elt_at l it' = Some e /\ e_dur e = d /\
     0 <= i_off it' < e_cnt e.
Proof.
  intros (W & _) H. unfold rest in H. destruct (nth_error (l_nodes l) (i_node it)) as [n|] eqn:En; [|discriminate].
  destruct (nth_error (n_elts n) (i_elt it)) as [e|] eqn:Ee; [|discriminate].
  destruct ((0 <=? i_off it) && (i_off it <=? e_cnt e)) eqn:C; [|discriminate]. apply some_inj in H.
  unfold move_next. rewrite En, Ee. destruct (i_off it <? e_cnt e) eqn:C1.
  - exists it, e. split; [reflexivity|]. unfold rest, elt_at. rewrite En, Ee, C, H.
    replace (Z.to_nat (e_cnt e - i_off it)) with (S (Z.to_nat (e_cnt e - i_off it - 1))) in H by lia. cbn in H.
    injection H as H _. repeat split; auto; lia.
  - replace (Z.to_nat (e_cnt e - i_off it)) with 0%nat in H by lia. cbn [repeat app] in H.
    assert (Wn : wf_node n) by (eapply Forall_forall; [exact W|eapply nth_error_In; eauto]).
    destruct (Nat.ltb (S (i_elt it)) (length (n_elts n))) eqn:C2.
    + apply Nat.ltb_lt in C2. destruct (nth_some _ _ C2) as [e2 E2]. exists (mk_iter (i_node it) (S (i_elt it)) 0), e2.
      split; [reflexivity|]. unfold rest, elt_at. cbn [i_node i_elt i_off]. rewrite En, E2.
      assert (O2 : okelt e2) by (destruct Wn as (_ & _ & O & _); eapply Forall_forall; [exact O|eapply nth_error_In; eauto]).
      destruct O2 as [O2 O3]. rewrite (skipn_nth _ _ _ E2) in H. cbn [durs flat_map] in H. fold (durs (skipn (S (S (i_elt it))) (n_elts n))) in H.
      rewrite <- app_assoc in H. replace ((0 <=? 0) && (0 <=? e_cnt e2)) with true by lia.
      replace (e_cnt e2 - 0) with (e_cnt e2) by lia. rewrite H.
      replace (Z.to_nat (e_cnt e2)) with (S (Z.to_nat (e_cnt e2 - 1))) in H by lia. cbn [repeat app] in H. injection H as H _.
      repeat split; auto; lia.
    + apply Nat.ltb_ge in C2. rewrite skipn_all2 in H by lia. cbn [durs flat_map app] in H.
      destruct (Nat.ltb (S (i_node it)) (length (l_nodes l))) eqn:C3.
      * apply Nat.ltb_lt in C3. destruct (nth_some _ _ C3) as [n2 N2].
        assert (Wn2 : wf_node n2) by (eapply Forall_forall; [exact W|eapply nth_error_In; eauto]).
        destruct Wn2 as (NE & _ & O & _). rewrite (skipn_nth _ _ _ N2) in H. cbn [flat_map] in H.
        destruct (n_elts n2) as [|e2 es] eqn:Es; [contradiction|]. inversion O as [|? ? [O2 O3] _]; subst.
        exists (mk_iter (S (i_node it)) 0 0), e2. split; [reflexivity|]. unfold rest, elt_at. cbn [i_node i_elt i_off]. rewrite N2, Es.
        cbn [nth_error skipn]. cbn [durs flat_map] in H. fold (durs es) in H. rewrite <- app_assoc in H.
        replace ((0 <=? 0) && (0 <=? e_cnt e2)) with true by lia.
        replace (e_cnt e2 - 0) with (e_cnt e2) by lia. cbn [skipn] in H. rewrite H.
        replace (Z.to_nat (e_cnt e2)) with (S (Z.to_nat (e_cnt e2 - 1))) in H by lia. cbn [repeat app] in H. injection H as H _.
        repeat split; auto; lia.
      * apply Nat.ltb_ge in C3. rewrite skipn_all2 in H by lia. discriminate.
Qed.

Lemma rest_at l it r e : rest l it = Some r -> elt_at l it = Some e -> 0 <= i_off it < e_cnt e ->
  exists tail, r = repeat (e_dur e) (Z.to_nat (e_cnt e - i_off it)) ++ tail /\
    forall k, 0 <= k <= e_cnt e - i_off it ->
    rest l (mk_iter (i_node it) (i_elt it) (i_off it + k)) = Some (repeat (e_dur e) (Z.to_nat (e_cnt e - i_off it - k)) ++ tail).
Proof.
  unfold rest, elt_at. cbn [i_node i_elt i_off]. destruct (nth_error (l_nodes l) (i_node it)) as [n|]; [|discriminate].
  intros H E B. rewrite E in *. destruct ((0 <=? i_off it) && (i_off it <=? e_cnt e)); [|discriminate]. injection H as <-.
  eexists. split; [reflexivity|]. intros k Hk.
  replace ((0 <=? i_off it + k) && (i_off it + k <=? e_cnt e)) with true by lia.
  replace (e_cnt e - (i_off it + k)) with (e_cnt e - i_off it - k) by lia. reflexivity.
Qed.

Lemma get_one_ok l it r d : wf l -> rest l it = Some (d :: r) ->
  exists it', get_one l it = Some (d, it') /\ rest l it' = Some r.
Proof.
  intros W H. destruct (move_next_ok l it r d W H) as (it' & e & M & R & E & D & B). unfold get_one. rewrite M, E.
  destruct (rest_at _ _ _ _ R E B) as (tail & T & K). specialize (K 1 ltac:(lia)).
  exists (mk_iter (i_node it') (i_elt it') (i_off it' + 1)). split; [rewrite D; reflexivity|]. rewrite K.
  replace (Z.to_nat (e_cnt e - i_off it')) with (S (Z.to_nat (e_cnt e - i_off it' - 1))) in T by lia. cbn in T. injection T as _ ->. reflexivity.
Qed.

Lemma peek_ok l it r d : wf l -> rest l it = Some (d :: r) ->
  exists it', peek l it = Some (d, it') /\ rest l it' = Some (d :: r).
Proof.
  intros W H. destruct (move_next_ok l it r d W H) as (it' & e & M & R & E & D & B). unfold peek. rewrite M, E, D. eauto.
Qed.

Lemma get_element_ok l it r d : wf l -> rest l it = Some (d :: r) ->
  exists it' c tail, get_element l it = Some (d, c, it') /\ rest l it' = Some tail /\ 1 <= c /\ d :: r = repeat d (Z.to_nat c) ++ tail.
Proof.
  intros W H. destruct (move_next_ok l it r d W H) as (it' & e & M & R & E & D & B). unfold get_element. rewrite M, E.
  destruct (rest_at _ _ _ _ R E B) as (tail & T & K). specialize (K (e_cnt e - i_off it') ltac:(lia)).
  exists (mk_iter (i_node it') (i_elt it') (e_cnt e)), (e_cnt e - i_off it'), tail.
  split; [rewrite D; reflexivity|]. replace (i_off it' + (e_cnt e - i_off it')) with (e_cnt e) in K by lia.
  replace (Z.to_nat (e_cnt e - i_off it' - (e_cnt e - i_off it'))) with 0%nat in K by lia. cbn in K.
  split; [exact K|]. split; [lia|]. rewrite D in T. exact T.
Qed.

Lemma move_next_end l it : wf l -> rest l it = Some [] -> move_next l it = None.
Proof.
  intros (W & _) H. unfold rest in H. destruct (nth_error (l_nodes l) (i_node it)) as [n|] eqn:En; [|discriminate].
  destruct (nth_error (n_elts n) (i_elt it)) as [e|] eqn:Ee; [|discriminate].
  destruct ((0 <=? i_off it) && (i_off it <=? e_cnt e)) eqn:C; [|discriminate]. apply some_inj in H.
  apply app_eq_nil in H as [H1 H2]. apply app_eq_nil in H2 as [H2 H3].
  assert (Z.to_nat (e_cnt e - i_off it) = 0%nat) by (destruct (Z.to_nat (e_cnt e - i_off it)); [reflexivity|discriminate]).
  unfold move_next. rewrite En, Ee. replace (i_off it <? e_cnt e) with false by lia.
  assert (Wn : wf_node n) by (eapply Forall_forall; [exact W|eapply nth_error_In; eauto]).
  destruct (Nat.ltb (S (i_elt it)) (length (n_elts n))) eqn:C2.
  - apply Nat.ltb_lt in C2. destruct (nth_some _ _ C2) as [e2 E2]. rewrite (skipn_nth _ _ _ E2) in H2. cbn in H2.
    assert (O2 : okelt e2) by (destruct Wn as (_ & _ & O & _); eapply Forall_forall; [exact O|eapply nth_error_In; eauto]).
    destruct O2 as [O2 O3]. replace (Z.to_nat (e_cnt e2)) with (S (Z.to_nat (e_cnt e2 - 1))) in H2 by lia. discriminate.
  - destruct (Nat.ltb (S (i_node it)) (length (l_nodes l))) eqn:C3; [|reflexivity].
    apply Nat.ltb_lt in C3. destruct (nth_some _ _ C3) as [n2 N2].
    assert (Wn2 : wf_node n2) by (eapply Forall_forall; [exact W|eapply nth_error_In; eauto]).
    destruct Wn2 as (NE & _ & O & _). rewrite (skipn_nth _ _ _ N2) in H3. cbn [flat_map] in H3.
    destruct (n_elts n2) as [|e2 es] eqn:Es; [contradiction|]. inversion O as [|? ? [O2 O3] _]; subst.
    cbn in H3. replace (Z.to_nat (e_cnt e2)) with (S (Z.to_nat (e_cnt e2 - 1))) in H3 by lia. discriminate.
Qed.

Lemma iterate_ok l : wf l -> forall r it, rest l it = Some r -> iterate l it (length r) = Some r.
Proof.
  intros W. induction r as [|d r IH]; intros it H; [reflexivity|].
  destruct (get_one_ok _ _ _ _ W H) as (it' & G & R). cbn [length iterate]. rewrite G, (IH _ R). reflexivity.
Qed.

Lemma iterate_elements_ok l : wf l -> forall n r it, (length r <= n)%nat -> rest l it = Some r ->
  exists k rs, iterate_elements l it k = Some rs /\ flat_map (fun p => repeat (fst p) (Z.to_nat (snd p))) rs = r /\
     Forall (fun p => 1 <= snd p) rs.
Proof.
  intros W. induction n as [|n IH]; intros r it L H.
  - destruct r; [|cbn in L; lia]. exists 0%nat, []. cbn. auto.
  - destruct r as [|d r]; [exists 0%nat, []; cbn; auto|]. destruct (get_element_ok _ _ _ _ W H) as (it' & c & tail & G & R & C & T).
    destruct (IH tail it') as (k & rs & I1 & I2 & I3); [|exact R|].
    { apply (f_equal (@length Z)) in T. rewrite app_length, repeat_length in T. cbn [length] in *. lia. }
    exists (S k), ((d, c) :: rs). cbn [iterate_elements]. rewrite G, I1. split; [reflexivity|]. split; [|constructor; auto].
    cbn [flat_map fst snd]. rewrite I2. symmetry; exact T.
Qed.

(* --- looking up by index --- *)
Lemma run_split n i t d k : (k < n)%nat ->
  run n i t d = run k i t d ++ mk_seg (i + Z.of_nat k) (t + Z.of_nat k * d) d :: run (n - S k) (i + Z.of_nat k + 1) (t + Z.of_nat k * d + d) d.
Proof.
  intros H. replace n with (k + S (n - S k))%nat at 1 by lia. rewrite run_app. reflexivity.
Qed.

Lemma find_left_ok elts : Forall okelt elts -> forall ei left idx t, 0 <= left < cnt elts ->
  exists k e off pre post tm, find_left elts ei left t = Some ((ei + k)%nat, off, tm) /\ nth_error elts k = Some e /\ 0 <= off < e_cnt e /\
    expand elts idx t = pre ++ mk_seg (idx + left) tm (e_dur e) :: post /\
    e_dur e :: map s_dur post = repeat (e_dur e) (Z.to_nat (e_cnt e - off)) ++ durs (skipn (S k) elts).
Proof.
  induction 1 as [|e elts [O O'] Oe IH]; intros ei left idx t B; cbn [cnt] in B; [lia|]. cbn [find_left].
  destruct (left <? e_cnt e) eqn:C.
  - exists 0%nat, e, left, (run (Z.to_nat left) idx t (e_dur e)),
      (run (Z.to_nat (e_cnt e) - S (Z.to_nat left)) (idx + left + 1) (t + left * e_dur e + e_dur e) (e_dur e) ++ expand elts (idx + e_cnt e) (t + e_cnt e * e_dur e)),
      (t + left * e_dur e). split; [do 3 f_equal; lia|]. split; [reflexivity|]. split; [lia|]. split.
    + cbn [expand]. rewrite (run_split (Z.to_nat (e_cnt e)) _ _ _ (Z.to_nat left)) by lia. rewrite Z2Nat.id by lia. rewrite <- app_assoc. reflexivity.
    + cbn [skipn]. rewrite map_app, map_run, map_expand.
      replace (Z.to_nat (e_cnt e - left)) with (S (Z.to_nat (e_cnt e) - S (Z.to_nat left))) by lia. reflexivity.
  - destruct (IH (S ei) (left - e_cnt e) (idx + e_cnt e) (t + e_cnt e * e_dur e) ltac:(lia)) as (k & e2 & off & pre & post & tm & F & N & B2 & X & D).
    exists (S k), e2, off, (run (Z.to_nat (e_cnt e)) idx t (e_dur e) ++ pre), post, tm.
    split; [rewrite F; do 3 f_equal; lia|]. split; [exact N|]. split; [exact B2|]. split; [|exact D].
    cbn [expand]. rewrite X, <- app_assoc. do 3 f_equal. f_equal. lia.
Qed.

Lemma seq_split lo k a i b : seq lo k = a ++ i :: b ->
  (lo <= i < lo + k)%nat /\ a = seq lo (i - lo) /\ b = seq (S i) (lo + k - S i).
Proof.
  revert lo k. induction a as [|x a IH]; intros lo k H.
  - destruct k as [|k]; [discriminate|]. cbn in H. injection H as <- <-. split; [lia|].
    rewrite Nat.sub_diag. split; [reflexivity|]. f_equal. lia.
  - destruct k as [|k]; [discriminate|]. cbn in H. injection H as <- H. apply IH in H as (B & A & C). split; [lia|].
    split.
    + replace (i - lo)%nat with (S (i - S lo)) by lia. cbn. rewrite A. reflexivity.
    + rewrite C. f_equal. lia.
Qed.

Lemma walk_index_ok nodes index : Forall wf_node nodes -> linked nodes -> forall t lo k,
  inorder t = seq lo k -> t <> Leaf -> (lo + k <= length nodes)%nat ->
  (forall j n, (j < lo)%nat -> nth_error nodes j = Some n -> n_last n < index) ->
  (forall j n, (lo + k <= j)%nat -> nth_error nodes j = Some n -> index < n_key n) ->
  match walk_index nodes t index with
  | Some (i, true) => exists n, nth_error nodes i = Some n /\ n_key n <= index <= n_last n
  | Some (i, false) => exists n, nth_error nodes i = Some n /\ index < n_key n /\ forall j m, (j < i)%nat -> nth_error nodes j = Some m -> n_last m < index
  | None => forall j m, nth_error nodes j = Some m -> n_last m < index
  end.
Proof.
  intros W L. induction t as [|l IHl i r IHr]; intros lo k I NL LEN A B; [contradiction|]. cbn [inorder] in I.
  symmetry in I. apply seq_split in I as (Bi & Il & Ir). cbn [walk_index].
  destruct (nth_error nodes i) as [n|] eqn:En; [|apply nth_error_None in En; lia].
  destruct (index <? n_key n) eqn:C1.
  - assert (G : forall j m, (i <= j)%nat -> nth_error nodes j = Some m -> index < n_key m).
    { intros j m Hj Hm. destruct (Nat.eq_dec j i) as [->|NE]; [replace m with n by congruence; lia|].
      pose proof (nodes_lt nodes i j n m W L En Hm ltac:(lia)). pose proof (node_key_le n). assert (wf_node n) by (eapply Forall_forall; [exact W|eapply nth_error_In; eauto]). lia. }
    destruct l as [|l1 i1 r1].
    + cbn in Il. exists n. split; [exact En|]. split; [lia|]. intros j m Hj Hm. eapply A; eauto. symmetry in Il. apply (f_equal (@length nat)) in Il. rewrite seq_length in Il. cbn in Il. lia.
    + apply (IHl lo (i - lo)%nat); auto; [discriminate|lia|]. intros j m Hj. apply G. lia.
  - destruct (n_last n <? index) eqn:C2.
    + assert (G : forall j m, (j <= i)%nat -> nth_error nodes j = Some m -> n_last m < index).
      { intros j m Hj Hm. destruct (Nat.eq_dec j i) as [->|NE]; [replace m with n by congruence; lia|].
        pose proof (nodes_lt nodes j i m n W L Hm En ltac:(lia)). pose proof (node_key_le n). assert (wf_node n) by (eapply Forall_forall; [exact W|eapply nth_error_In; eauto]). lia. }
      destruct r as [|l1 i1 r1].
      * cbn in Ir. apply (f_equal (@length nat)) in Ir. rewrite seq_length in Ir. cbn in Ir.
        destruct (Nat.ltb (S i) (length nodes)) eqn:C3.
        -- apply Nat.ltb_lt in C3. destruct (nth_some _ _ C3) as [m Hm]. exists m. split; [exact Hm|]. split; [eapply B; [|exact Hm]; lia|].
           intros j m' Hj. apply G. lia.
        -- apply Nat.ltb_ge in C3. intros j m Hm. eapply G; [|exact Hm]. assert (j < length nodes)%nat by (apply nth_error_Some; congruence). lia.
      * apply (IHr (S i) (lo + k - S i)%nat); auto; [discriminate|lia| |].
        -- intros j m Hj. apply G. lia.
        -- intros j m Hj. apply B. lia.
    + exists n. split; [exact En|]. lia.
Qed.

Lemma segs_of_nth nodes i n : nth_error nodes i = Some n ->
  segs_of nodes = segs_of (firstn i nodes) ++ node_segs n ++ segs_of (skipn (S i) nodes).
Proof.
  intros H. rewrite <- (firstn_skipn i nodes) at 1. rewrite segs_of_app, (skipn_nth _ _ _ H). reflexivity.
Qed.

Lemma tree_leaf l t : tree_of l t -> l_nodes l = [] -> t = Leaf.
Proof. unfold tree_of. intros H E. rewrite E in H. destruct t as [|a i b]; [reflexivity|]. cbn in H. destruct (inorder a); discriminate. Qed.

Lemma tree_nonleaf l t : tree_of l t -> l_nodes l <> [] -> t <> Leaf.
Proof. unfold tree_of. intros H NE ->. cbn in H. destruct (l_nodes l); [contradiction|discriminate]. Qed.

Lemma walk_top l t index : wf l -> tree_of l t ->
  match walk_index (l_nodes l) t index with
  | Some (i, true) => exists n, nth_error (l_nodes l) i = Some n /\ n_key n <= index <= n_last n
  | Some (i, false) => exists n, nth_error (l_nodes l) i = Some n /\ index < n_key n /\ forall j m, (j < i)%nat -> nth_error (l_nodes l) j = Some m -> n_last m < index
  | None => forall j m, nth_error (l_nodes l) j = Some m -> n_last m < index
  end.
Proof.
  intros (W & L & _) T. destruct (l_nodes l) as [|n0 r] eqn:E.
  - rewrite (tree_leaf _ _ T E). cbn. intros [|j] m; discriminate.
  - apply (walk_index_ok _ index W L t 0 (length (n0 :: r))); auto.
    + unfold tree_of in T. rewrite E in T. exact T.
    + apply (tree_nonleaf l); auto. rewrite E. discriminate.
    + lia.
    + intros j m Hj Hm. assert (j < length (n0 :: r))%nat by (apply nth_error_Some; congruence). lia.
Qed.

Lemma in_segs_nodes nodes s : In s (segs_of nodes) -> exists i n, nth_error nodes i = Some n /\ In s (node_segs n).
Proof.
  unfold segs_of. intros H. apply in_flat_map in H as (n & Hn & Hs). apply In_nth_error in Hn as [i Hi]. eauto.
Qed.

(* the segments are numbered *)
Lemma run_numbered n i t d : numbered (run n i t d).
Proof.
  revert i t; induction n as [|n IH]; intros i t; [exact Logic.I|]. cbn [run]. specialize (IH (i + 1) (t + d)).
  destruct n as [|n]; [exact Logic.I|]. cbn [run] in *. split; [cbn; lia|exact IH].
Qed.
Lemma numbered_app a b : numbered a -> numbered b -> (forall x y, In x a -> In y b -> s_index x < s_index y) -> numbered (a ++ b).
Proof.
  induction a as [|x a IH]; intros A B H; [exact B|]. destruct a as [|y a].
  - cbn. destruct b as [|z b]; [exact Logic.I|]. split; [apply H; cbn; auto|exact B].
  - change (s_index x < s_index y /\ numbered (y :: a)) in A. destruct A as [A1 A2].
    change (s_index x < s_index y /\ numbered ((y :: a) ++ b)). split; auto. apply IH; auto. intros u v Hu. apply H. right; exact Hu.
Qed.
Lemma expand_numbered a i t : Forall okelt a -> numbered (expand a i t).
Proof.
  intros O. revert i t. induction O as [|e a [O _] Oa IH]; intros i t; [exact Logic.I|]. cbn [expand]. apply numbered_app; auto.
  - apply run_numbered.
  - intros x y Hx Hy. apply run_bounds in Hx. apply expand_bounds in Hy; [lia|auto].
Qed.
Lemma segs_of_numbered nodes : Forall wf_node nodes -> linked nodes -> numbered (segs_of nodes).
Proof.
  induction nodes as [|n nodes IH]; intros W L; [exact Logic.I|]. inversion W as [|? ? Wn Wr]; subst.
  change (segs_of (n :: nodes)) with (node_segs n ++ segs_of nodes). apply numbered_app.
  - apply expand_numbered. apply Wn.
  - apply IH; auto. exact (linked_app_r [n] nodes L).
  - intros x y Hx Hy. apply in_segs_nodes in Hy as (i & m & Hm & Hy).
    pose proof (nodes_lt (n :: nodes) 0 (S i) n m W L eq_refl Hm ltac:(lia)).
    apply node_bounds in Hx; auto. apply node_bounds in Hy; [lia|]. eapply Forall_forall; [exact Wr|eapply nth_error_In; eauto].
Qed.

Lemma numbered_lt a x b y : numbered (a ++ x :: b) -> In y b -> s_index x < s_index y.
Proof.
  induction a as [|z a IH]; intros H Hy.
  - cbn [app] in H. revert x H. induction b as [|w b IH]; intros x H; [destruct Hy|]. destruct H as [H1 H2].
    destruct Hy as [->|Hy]; [exact H1|]. specialize (IH Hy w H2). lia.
  - apply IH; auto. cbn [app] in H. destruct (a ++ x :: b); [exact Logic.I|]. apply H.
Qed.

Lemma numbered_split_unique l a x b c y d : numbered l -> l = a ++ x :: b -> l = c ++ y :: d -> s_index x = s_index y ->
  a = c /\ x = y /\ b = d.
Proof.
  intros N. revert a c. induction l as [|z l IH]; intros a c E1 E2 S; [destruct a; discriminate|].
  destruct a as [|u a], c as [|v c].
  - cbn in *. injection E1 as <- <-. injection E2 as <- <-. auto.
  - cbn in *. injection E1 as <- ->. injection E2 as <- E2. exfalso.
    assert (s_index z < s_index y) by (apply (numbered_lt [] z b y); [exact N|rewrite E2; apply in_elt]). lia.
  - cbn in *. injection E1 as <- E1. injection E2 as <- ->. exfalso.
    assert (s_index z < s_index x) by (apply (numbered_lt [] z d x); [exact N|rewrite E1; apply in_elt]). lia.
  - cbn in *. injection E1 as <- E1. injection E2 as <- E2.
    assert (N' : numbered l) by (destruct l; [exact Logic.I|apply N]).
    destruct (IH N' a c E1 E2 S) as (-> & -> & ->). auto.
Qed.

Lemma iter_init_found l t pre s post strict : wf l -> tree_of l t -> segs l = pre ++ s :: post ->
  exists it, iter_init l t (s_index s) strict = Some (it, s_time s) /\ rest l it = Some (map s_dur (s :: post)).
Proof.
  intros W T E. pose proof W as (W1 & W2 & _). pose proof (walk_top l t (s_index s) W T) as K.
  assert (I : In s (segs_of (l_nodes l))) by (unfold segs in E; rewrite E; apply in_elt).
  apply in_segs_nodes in I as (i0 & n0 & H0 & S0).
  assert (Wn0 : wf_node n0) by (eapply Forall_forall; [exact W1|eapply nth_error_In; eauto]).
  pose proof (node_bounds _ _ Wn0 S0) as B0. unfold iter_init.
  destruct (walk_index (l_nodes l) t (s_index s)) as [[i within]|]; [|specialize (K _ _ H0); lia].
  destruct within; [|destruct K as (n & Hn & K1 & K2)].
  - destruct K as (n & Hn & K). rewrite Hn. assert (Wn : wf_node n) by (eapply Forall_forall; [exact W1|eapply nth_error_In; eauto]).
    pose proof Wn as (_ & _ & O & LL).
    destruct (find_left_ok (n_elts n) O 0 (s_index s - n_key n) (n_key n) (n_time n) ltac:(lia)) as (k & e & off & p & q & tm & F & N & B & X & D).
    rewrite F. cbn [Nat.add]. exists (mk_iter i k off).
    assert (SP : segs l = (segs_of (firstn i (l_nodes l)) ++ p) ++ mk_seg (n_key n + (s_index s - n_key n)) tm (e_dur e) :: q ++ segs_of (skipn (S i) (l_nodes l))).
    { unfold segs. rewrite (segs_of_nth _ _ _ Hn). unfold node_segs. rewrite X, <- !app_assoc. reflexivity. }
    destruct (numbered_split_unique _ _ _ _ _ _ _ (segs_of_numbered _ W1 W2) E SP) as (_ & Q1 & Q2); [cbn; lia|].
    split; [rewrite Q1; reflexivity|]. unfold rest. cbn [i_node i_elt i_off]. rewrite Hn, N.
    replace ((0 <=? off) && (off <=? e_cnt e)) with true by lia. f_equal. rewrite Q1, Q2. cbn [map s_dur].
    rewrite map_app, map_segs_of, app_assoc, <- D. reflexivity.
  - exfalso. destruct (Nat.lt_ge_cases i0 i) as [Hl|Hl].
    + specialize (K2 _ _ Hl H0). lia.
    + destruct (Nat.eq_dec i0 i) as [->|NE]; [replace n0 with n in * by congruence; lia|].
      pose proof (nodes_lt _ _ _ _ _ W1 W2 Hn H0 ltac:(lia)). assert (wf_node n) by (eapply Forall_forall; [exact W1|eapply nth_error_In; eauto]).
      pose proof (node_key_le n). lia.
Qed.

(* every index of a node is the index of a segment *)
Lemma node_index n i : wf_node n -> n_key n <= i <= n_last n -> exists s, In s (node_segs n) /\ s_index s = i.
Proof.
  intros (_ & _ & O & L) B. destruct (find_left_ok (n_elts n) O 0 (i - n_key n) (n_key n) (n_time n) ltac:(lia)) as (k & e & off & p & q & tm & _ & _ & _ & X & _).
  unfold node_segs. rewrite X. eexists. split; [apply in_elt|]. cbn. lia.
Qed.

Lemma iter_init_missing l t i : wf l -> tree_of l t -> ~ In i (map s_index (segs l)) ->
  iter_init l t i true = None /\
  match iter_init l t i false with
  | None => forall s, In s (segs l) -> s_index s < i
  | Some (it, tm) => exists pre s post, segs l = pre ++ s :: post /\ (forall x, In x pre -> s_index x < i) /\ i < s_index s /\
       tm = s_time s /\ rest l it = Some (map s_dur (s :: post)) /\ exists n, nth_error (l_nodes l) (i_node it) = Some n /\ s_index s = n_key n
  end.
Proof.
  intros W T NI. pose proof W as (W1 & W2 & _). pose proof (walk_top l t i W T) as K. unfold iter_init.
  destruct (walk_index (l_nodes l) t i) as [[j within]|].
  - destruct within.
    + exfalso. destruct K as (n & Hn & K). assert (Wn : wf_node n) by (eapply Forall_forall; [exact W1|eapply nth_error_In; eauto]).
      destruct (node_index n i Wn K) as (s & Hs & <-). apply NI. apply in_map. unfold segs. rewrite (segs_of_nth _ _ _ Hn), !in_app_iff. auto.
    + destruct K as (n & Hn & K1 & K2). rewrite Hn. split; [reflexivity|].
      assert (Wn : wf_node n) by (eapply Forall_forall; [exact W1|eapply nth_error_In; eauto]). pose proof Wn as (NE & _ & O & LL).
      pose proof (node_key_le _ Wn). destruct (find_left_ok (n_elts n) O 0 0 (n_key n) (n_time n) ltac:(lia)) as (k & e & off & p & q & tm & F & N & B & X & D).
      destruct (n_elts n) as [|e0 es] eqn:Ee; [contradiction|]. cbn [find_left] in F. inversion O as [|? ? [O1 O2] _]; subst.
      replace (0 <? e_cnt e0) with true in F by lia. injection F as F1 F2 F3.
      assert (k = 0%nat) by lia. subst k off tm. cbn in N. injection N as <-.
      assert (P0 : p = []).
      { destruct p as [|x p]; [reflexivity|]. exfalso. pose proof (expand_numbered (e0 :: es) (n_key n) (n_time n) O) as NU. rewrite X in NU.
        pose proof (numbered_lt [] x (p ++ mk_seg (n_key n + 0) (n_time n + 0 * e_dur e0) (e_dur e0) :: q) (mk_seg (n_key n + 0) (n_time n + 0 * e_dur e0) (e_dur e0)) NU ltac:(apply in_elt)) as Q.
        pose proof (expand_bounds (e0 :: es) (n_key n) (n_time n) x O) as Q2. rewrite X in Q2. specialize (Q2 ltac:(left; reflexivity)). cbn [s_index] in *. lia. }
      subst p. exists (segs_of (firstn j (l_nodes l))), (mk_seg (n_key n + 0) (n_time n + 0 * e_dur e0) (e_dur e0)), (q ++ segs_of (skipn (S j) (l_nodes l))).
      split; [unfold segs; rewrite (segs_of_nth _ _ _ Hn); unfold node_segs; rewrite Ee, X; reflexivity|].
      split.
      { intros x Hx. apply in_segs_nodes in Hx as (j0 & m & Hm & Hx).
        assert (j0 < j)%nat by (assert (j0 < length (firstn j (l_nodes l)))%nat by (apply nth_error_Some; congruence); rewrite firstn_length in *; lia).
        assert (Hm' : nth_error (l_nodes l) j0 = Some m) by (rewrite <- (firstn_skipn j (l_nodes l)); rewrite nth_error_app1; [exact Hm|apply nth_error_Some; congruence]).
        apply node_bounds in Hx; [|eapply Forall_forall; [exact W1|eapply nth_error_In; eauto]]. specialize (K2 _ _ ltac:(eassumption) Hm'). lia. }
      cbn [s_index s_time]. split; [lia|]. split; [lia|]. split; [|exists n; split; [exact Hn|lia]].
      unfold rest. cbn [i_node i_elt i_off]. rewrite Hn, Ee. cbn [nth_error].
      replace ((0 <=? 0) && (0 <=? e_cnt e0)) with true by lia. f_equal. cbn [map s_dur]. rewrite map_app, map_segs_of, app_assoc, <- D. reflexivity.
  - split; [reflexivity|]. intros s Hs. apply in_segs_nodes in Hs as (j & n & Hn & Hs). specialize (K _ _ Hn).
    apply node_bounds in Hs; [lia|eapply Forall_forall; [exact W1|eapply nth_error_In; eauto]].
Qed.

Lemma shows_segs l : wf l -> shows l (segs l).
Proof.
  intros W t T. split.
  - intros pre s post E. destruct (iter_init_found l t pre s post true W T E) as (it & A & B). exists it. split; [exact A|].
    pose proof (iterate_ok l W _ _ B) as C. rewrite map_length in C. exact C.
  - intros i NI. apply iter_init_missing; auto.
Qed.

(* the iterator of the last segment *)
Lemma iter_last_ok l pre s : wf l -> segs l = pre ++ [s] -> exists it, iter_last l = Some it /\ rest l it = Some [s_dur s].
Proof.
  intros W E. unfold iter_last. destruct (unsnoc (l_nodes l)) as [[p n]|] eqn:U.
  - apply unsnoc_some in U. pose proof (wf_last _ _ _ W U) as (Wn & _). pose proof Wn as (NE & _).
    destruct (unsnoc (n_elts n)) as [[ep e]|] eqn:U2; [|apply unsnoc_none in U2; contradiction]. apply unsnoc_some in U2.
    pose proof (node_last _ _ _ Wn U2) as (O1 & [O2 O3] & K1 & K2 & K3).
    eexists. split; [reflexivity|]. unfold rest. cbn [i_node i_elt i_off]. rewrite U, nth_error_app2, Nat.sub_diag by lia. cbn [nth_error].
    rewrite U2, nth_error_app2, Nat.sub_diag by lia. cbn [nth_error]. replace ((0 <=? e_cnt e - 1) && (e_cnt e - 1 <=? e_cnt e)) with true by lia.
    rewrite !skipn_all2 by (rewrite app_length; cbn; lia). cbn [durs flat_map app]. replace (Z.to_nat (e_cnt e - (e_cnt e - 1))) with 1%nat by lia.
    cbn. do 2 f_equal. unfold segs in E. rewrite U, segs_of_app, segs_of_one, K3 in E. destruct e as [c d]; cbn [e_cnt e_dur] in *.
    replace c with (c - 1 + 1) in E by lia. rewrite expand_grow, !app_assoc in E by lia. apply snoc_inj in E as [_ <-]. reflexivity.
  - apply unsnoc_none in U. unfold segs in E. rewrite U in E. destruct pre; discriminate.
Qed.

(* --- looking up by time --- *)
Lemma run_chrono n i t d : 0 <= d -> forall s, In s (run n i t d) -> t <= s_time s /\ s_end s <= t + Z.of_nat n * d /\ s_dur s = d.
Proof.
  intros D. revert i t. induction n as [|n IH]; intros i t s H; [destruct H|]. destruct H as [<-|H].
  - unfold s_end. cbn [s_time s_dur]. nia.
  - apply IH in H. nia.
Qed.
Lemma expand_times a i t : Forall okelt a -> forall s, In s (expand a i t) -> t <= s_time s /\ s_end s <= t + dsum a /\ 0 <= s_dur s.
Proof.
  intros O. revert i t. induction O as [|e a [O O'] Oa IH]; intros i t s H; [destruct H|]. cbn [expand dsum] in *.
  pose proof (dsum_nonneg _ Oa). apply in_app_or in H as [H|H].
  - apply run_chrono in H; [|auto]. rewrite Z2Nat.id in H by lia. lia.
  - apply IH in H. nia.
Qed.

Lemma chronological_lt a x b y : (forall s, In s (a ++ x :: b) -> 0 <= s_dur s) -> chronological (a ++ x :: b) -> In y b -> s_end x <= s_time y.
Proof.
  intros P H Hy. induction a as [|z a IH].
  - cbn [app] in *. revert x P H. induction b as [|w b IH]; intros x P H; [destruct Hy|]. destruct H as [H1 H2].
    destruct Hy as [->|Hy]; [exact H1|]. specialize (IH Hy w (fun s Hs => P s (or_intror Hs)) H2).
    assert (0 <= s_dur w) by (apply P; right; left; reflexivity). unfold s_end in *. lia.
  - apply IH; [intros s Hs; apply P; right; exact Hs|]. cbn [app] in H. destruct (a ++ x :: b); [exact Logic.I|]. apply H.
Qed.

Lemma segs_of_dur nodes s : Forall wf_node nodes -> In s (segs_of nodes) -> 0 <= s_dur s.
Proof.
  intros W H. apply in_segs_nodes in H as (i & n & Hn & H). assert (Wn : wf_node n) by (eapply Forall_forall; [exact W|eapply nth_error_In; eauto]).
  destruct Wn as (_ & _ & O & _). apply (expand_times _ _ _ O) in H. lia.
Qed.

Lemma node_first n : wf_node n -> exists s r, node_segs n = s :: r /\ s_index s = n_key n /\ s_time s = n_time n.
Proof.
  intros (NE & _ & O & _). unfold node_segs. destruct (n_elts n) as [|e es]; [contradiction|]. inversion O as [|? ? [O1 _] _]; subst.
  cbn [expand]. replace (Z.to_nat (e_cnt e)) with (S (Z.to_nat (e_cnt e - 1))) by lia. cbn [run app]. do 2 eexists. split; [reflexivity|]. auto.
Qed.

Lemma nodes_time nodes i j x y s : Forall wf_node nodes -> chronological (segs_of nodes) -> nth_error nodes i = Some x -> nth_error nodes j = Some y ->
  (i < j)%nat -> In s (node_segs x) -> s_end s <= n_time y.
Proof.
  intros W C Hi Hj H Hs. destruct (nth_split2 _ _ _ _ _ Hi Hj H) as (a & b & c & E). subst nodes.
  assert (Wy : wf_node y) by (eapply Forall_forall; [exact W|eapply nth_error_In; eauto]).
  destruct (node_first y Wy) as (f & r & F & _ & Ft). rewrite <- Ft. apply in_split in Hs as (p & q & Hs).
  assert (E : segs_of (a ++ x :: b ++ y :: c) = (segs_of a ++ p) ++ s :: (q ++ segs_of b ++ f :: r ++ segs_of c)).
  { unfold segs_of. rewrite !flat_map_app. cbn [flat_map]. rewrite flat_map_app. cbn [flat_map]. rewrite Hs, F, <- !app_assoc. reflexivity. }
  rewrite E in C. eapply chronological_lt; [|exact C|].
  - intros u Hu. rewrite <- E in Hu. eapply segs_of_dur; eauto.
  - rewrite !in_app_iff. right. right. left. reflexivity.
Qed.

Lemma nodes_time_le nodes i j x y : Forall wf_node nodes -> chronological (segs_of nodes) -> nth_error nodes i = Some x -> nth_error nodes j = Some y ->
  (i < j)%nat -> n_time x <= n_time y.
Proof.
  intros W C Hi Hj H. assert (Wx : wf_node x) by (eapply Forall_forall; [exact W|eapply nth_error_In; eauto]).
  destruct (node_first x Wx) as (f & r & F & _ & Ft). assert (In f (node_segs x)) by (rewrite F; left; reflexivity).
  pose proof (nodes_time _ _ _ _ _ f W C Hi Hj H ltac:(assumption)). destruct Wx as (_ & _ & O & _).
  pose proof (expand_times _ _ _ O f ltac:(eassumption)). unfold s_end in *. lia.
Qed.

Lemma walk_time_ok nodes time : Forall wf_node nodes -> chronological (segs_of nodes) -> forall t lo k,
  inorder t = seq lo k -> t <> Leaf -> (lo + k <= length nodes)%nat ->
  (forall j n, (j < lo)%nat -> nth_error nodes j = Some n -> n_time n <= time) ->
  (forall j n, (lo + k <= j)%nat -> nth_error nodes j = Some n -> time < n_time n) ->
  match walk_time nodes t time with
  | Some i => exists n, nth_error nodes i = Some n /\ n_time n <= time /\ forall j m, (i < j)%nat -> nth_error nodes j = Some m -> time < n_time m
  | None => forall j m, nth_error nodes j = Some m -> time < n_time m
  end.
Proof.
  intros W L. induction t as [|l IHl i r IHr]; intros lo k I NL LEN A B; [contradiction|]. cbn [inorder] in I.
  symmetry in I. apply seq_split in I as (Bi & Il & Ir). cbn [walk_time].
  destruct (nth_error nodes i) as [n|] eqn:En; [|apply nth_error_None in En; lia].
  destruct (time <? n_time n) eqn:C1.
  - assert (G : forall j m, (i <= j)%nat -> nth_error nodes j = Some m -> time < n_time m).
    { intros j m Hj Hm. destruct (Nat.eq_dec j i) as [->|NE]; [replace m with n by congruence; lia|].
      pose proof (nodes_time_le nodes i j n m W L En Hm ltac:(lia)). lia. }
    destruct l as [|l1 i1 r1].
    + cbn in Il. symmetry in Il. apply (f_equal (@length nat)) in Il. rewrite seq_length in Il. cbn in Il.
      destruct i as [|p]; [intros j m; apply G; lia|]. destruct (nth_some nodes p) as [m Hm]; [lia|]. exists m. split; [exact Hm|].
      split; [eapply A; [|exact Hm]; lia|]. intros j m' Hj. apply G. lia.
    + apply (IHl lo (i - lo)%nat); auto; [discriminate|lia|]. intros j m Hj. apply G. lia.
  - assert (G : forall j m, (j <= i)%nat -> nth_error nodes j = Some m -> n_time m <= time).
    { intros j m Hj Hm. destruct (Nat.eq_dec j i) as [->|NE]; [replace m with n by congruence; lia|].
      pose proof (nodes_time_le nodes j i m n W L Hm En ltac:(lia)). lia. }
    destruct r as [|l1 i1 r1].
    + cbn in Ir. apply (f_equal (@length nat)) in Ir. rewrite seq_length in Ir. cbn in Ir. exists n. split; [exact En|]. split; [lia|].
      intros j m Hj. apply B. lia.
    + apply (IHr (S i) (lo + k - S i)%nat); auto; [discriminate|lia| |].
      * intros j m Hj. apply G. lia.
      * intros j m Hj. apply B. lia.
Qed.

Lemma walk_time_top l t time : wf l -> tree_of l t -> chronological (segs l) ->
  match walk_time (l_nodes l) t time with
  | Some i => exists n, nth_error (l_nodes l) i = Some n /\ n_time n <= time /\ forall j m, (i < j)%nat -> nth_error (l_nodes l) j = Some m -> time < n_time m
  | None => forall j m, nth_error (l_nodes l) j = Some m -> time < n_time m
  end.
Proof.
  intros (W & L & _) T C. unfold segs in C. destruct (l_nodes l) as [|n0 r] eqn:E.
  - rewrite (tree_leaf _ _ T E). cbn. intros [|j] m; discriminate.
  - apply (walk_time_ok _ time W C t 0 (length (n0 :: r))); auto.
    + unfold tree_of in T. rewrite E in T. exact T.
    + apply (tree_nonleaf l); auto. rewrite E. discriminate.
    + lia.
    + intros j m Hj Hm. assert (j < length (n0 :: r))%nat by (apply nth_error_Some; congruence). lia.
Qed.

(* the segment of an element that holds a time *)
Lemma find_elt_ok elts : Forall okelt elts -> forall ei time idx t0, t0 <= time ->
  match find_elt elts ei false time idx t0 with
  | Some (ei', off, idx', tm) => exists k e pre post, (ei' = ei + k)%nat /\ nth_error elts k = Some e /\ 0 <= off < e_cnt e /\
      tm <= time < tm + e_dur e /\ expand elts idx t0 = pre ++ mk_seg idx' tm (e_dur e) :: post /\
      e_dur e :: map s_dur post = repeat (e_dur e) (Z.to_nat (e_cnt e - off)) ++ durs (skipn (S k) elts) /\
      find_elt elts ei true time idx t0 =
        Some (if tm + e_dur e <=? time + e_dur e / 2 then (ei', off + 1, idx' + 1, tm + e_dur e) else (ei', off, idx', tm))
  | None => (forall s, In s (expand elts idx t0) -> s_end s <= time) /\ find_elt elts ei true time idx t0 = None
  end.
Proof.
  induction 1 as [|e elts [O O'] Oe IH]; intros ei time idx t0 H; [cbn; split; [intros s []|reflexivity]|]. cbn [find_elt].
  destruct (t0 + e_cnt e * e_dur e <=? time) eqn:C.
  - specialize (IH (S ei) time (idx + e_cnt e) (t0 + e_cnt e * e_dur e) ltac:(lia)).
    destruct (find_elt elts (S ei) false time (idx + e_cnt e) (t0 + e_cnt e * e_dur e)) as [[[[ei' off] idx'] tm]|].
    + destruct IH as (k & e2 & pre & post & K1 & K2 & K3 & K4 & K5 & K6 & K7).
      exists (S k), e2, (run (Z.to_nat (e_cnt e)) idx t0 (e_dur e) ++ pre), post. split; [lia|]. do 3 (split; [auto|]). split; [|split; [exact K6|exact K7]].
      cbn [expand]. rewrite K5, <- app_assoc. reflexivity.
    + destruct IH as [IH IH2]. split; [|exact IH2]. intros s Hs. cbn [expand] in Hs. apply in_app_or in Hs as [Hs|Hs]; [|auto].
      apply run_chrono in Hs; [|auto]. rewrite Z2Nat.id in Hs by lia. lia.
  - replace (e_dur e =? 0) with false by nia. assert (DP : 0 < e_dur e) by nia.
    rewrite Z.quot_div_nonneg by lia. set (off := (time - t0) / e_dur e).
    assert (OB : 0 <= off < e_cnt e) by (subst off; split; [apply Z.div_pos; lia|apply Z.div_lt_upper_bound; lia]).
    pose proof (Z.div_mod (time - t0) (e_dur e) ltac:(lia)) as DM. pose proof (Z.mod_pos_bound (time - t0) (e_dur e) DP) as MB. fold off in DM.
    exists 0%nat, e, (run (Z.to_nat off) idx t0 (e_dur e)),
      (run (Z.to_nat (e_cnt e) - S (Z.to_nat off)) (idx + off + 1) (t0 + off * e_dur e + e_dur e) (e_dur e) ++ expand elts (idx + e_cnt e) (t0 + e_cnt e * e_dur e)).
    split; [lia|]. split; [reflexivity|]. split; [lia|]. split; [nia|]. split; [|split].
    + cbn [expand]. rewrite (run_split (Z.to_nat (e_cnt e)) _ _ _ (Z.to_nat off)) by lia. rewrite Z2Nat.id by lia. rewrite <- app_assoc. reflexivity.
    + cbn [skipn]. rewrite map_app, map_run, map_expand.
      replace (Z.to_nat (e_cnt e - off)) with (S (Z.to_nat (e_cnt e) - S (Z.to_nat off))) by lia. reflexivity.
    + pose proof (Z.div_pos (e_dur e) 2 ltac:(lia) ltac:(lia)). pose proof (Z.div_lt (e_dur e) 2 DP ltac:(lia)).
      rewrite Z.quot_div_nonneg by lia. destruct (t0 + off * e_dur e + e_dur e <=? time + e_dur e / 2) eqn:C2.
      * replace ((time + e_dur e / 2 - t0) / e_dur e) with (off + 1); [f_equal; repeat match goal with |- (_, _) = (_, _) => f_equal end; lia|].
        apply Z.div_unique with (r := time + e_dur e / 2 - t0 - e_dur e * (off + 1)); nia.
      * replace ((time + e_dur e / 2 - t0) / e_dur e) with off; [reflexivity|].
        apply Z.div_unique with (r := time + e_dur e / 2 - t0 - e_dur e * off); nia.
Qed.

Lemma lookup_time l t time : wf l -> tree_of l t -> chronological (segs l) ->
  match get_segment_index l t time false with
  | Some (it, idx, tm) => exists pre s post, segs l = pre ++ s :: post /\ s_index s = idx /\ s_time s = tm /\ s_time s <= time < s_end s /\
      rest l it = Some (map s_dur (s :: post)) /\
      exists it', get_segment_index l t time true =
        Some (if s_end s <=? time + s_dur s / 2 then (it', s_index s + 1, s_end s) else (it, s_index s, s_time s)) /\
        (s_end s <= time + s_dur s / 2 -> rest l it' = Some (map s_dur post))
  | None => (forall s, In s (segs l) -> ~ (s_time s <= time < s_end s)) /\ get_segment_index l t time true = None
  end.
Proof.
  intros W T C. pose proof W as (W1 & W2 & _). pose proof (walk_time_top l t time W T C) as K. unfold get_segment_index.
  destruct (walk_time (l_nodes l) t time) as [i|].
  - destruct K as (n & Hn & K1 & K2). rewrite Hn. assert (Wn : wf_node n) by (eapply Forall_forall; [exact W1|eapply nth_error_In; eauto]).
    pose proof Wn as (NE & _ & O & _). pose proof (find_elt_ok (n_elts n) O 0 time (n_key n) (n_time n) K1) as F.
    destruct (find_elt (n_elts n) 0 false time (n_key n) (n_time n)) as [[[[ei off] idx] tm]|].
    + destruct F as (k & e & pre & post & F1 & F2 & F3 & F4 & F5 & F6 & F7). cbn in F1. subst ei.
      exists (segs_of (firstn i (l_nodes l)) ++ pre), (mk_seg idx tm (e_dur e)), (post ++ segs_of (skipn (S i) (l_nodes l))).
      assert (RE : forall o, 0 <= o <= e_cnt e -> rest l (mk_iter i k o) = Some (repeat (e_dur e) (Z.to_nat (e_cnt e - o)) ++ durs (skipn (S k) (n_elts n)) ++ map s_dur (segs_of (skipn (S i) (l_nodes l))))).
      { intros o Ho. unfold rest. cbn [i_node i_elt i_off]. rewrite Hn, F2. replace ((0 <=? o) && (o <=? e_cnt e)) with true by lia. rewrite map_segs_of. reflexivity. }
      split; [unfold segs; rewrite (segs_of_nth _ _ _ Hn); unfold node_segs; rewrite F5, <- !app_assoc; reflexivity|].
      unfold s_end. cbn [s_index s_time s_dur]. split; [reflexivity|]. split; [reflexivity|]. split; [exact F4|]. split.
      { rewrite RE by lia. cbn [map s_dur]. rewrite map_app, app_assoc, <- F6. reflexivity. }
      exists (mk_iter i k (off + 1)). split; [rewrite F7; destruct (tm + e_dur e <=? time + e_dur e / 2); reflexivity|].
      intros _. rewrite RE by lia. rewrite map_app, app_assoc. do 2 f_equal.
      replace (Z.to_nat (e_cnt e - off)) with (S (Z.to_nat (e_cnt e - (off + 1)))) in F6 by lia. cbn in F6. injection F6 as F6. symmetry; exact F6.
    + destruct F as [F F']. rewrite F'. split; [|reflexivity]. intros s Hs Q. apply in_segs_nodes in Hs as (j & m & Hm & Hs).
      destruct (Nat.lt_trichotomy j i) as [Hj|[->|Hj]].
      * pose proof (nodes_time _ _ _ _ _ s W1 C Hm Hn Hj Hs). lia.
      * replace m with n in * by congruence. apply F in Hs. lia.
      * specialize (K2 _ _ Hj Hm). assert (Wm : wf_node m) by (eapply Forall_forall; [exact W1|eapply nth_error_In; eauto]).
        destruct Wm as (_ & _ & Om & _). pose proof (expand_times _ _ _ Om s Hs). lia.
  - split; [|reflexivity]. intros s Hs Q. apply in_segs_nodes in Hs as (j & m & Hm & Hs). specialize (K _ _ Hm).
    assert (Wm : wf_node m) by (eapply Forall_forall; [exact W1|eapply nth_error_In; eauto]).
    destruct Wm as (_ & _ & Om & _). pose proof (expand_times _ _ _ Om s Hs). lia.
Qed.
