(* Looking up: the tree finds the node, and the answer is that of the whole list. *)
From Coq Require Import ZArith List Bool Lia ZifyBool Arith.
From Verif Require Import Bytes GapModel GapSpec GapProofs.
Import ListNotations.
Open Scope Z_scope.

Lemma seq_split lo k a i b : seq lo k = a ++ i :: b ->
  (lo <= i < lo + k)%nat /\ a = seq lo (i - lo) /\ b = seq (S i) (lo + k - S i).
Proof.
  revert lo k. induction a as [|x a IH]; intros lo k H.
  - destruct k as [|k]; [discriminate|]. cbn in H. injection H as <- <-. split; [lia|].
    rewrite Nat.sub_diag. split; [reflexivity|]. f_equal. lia.
  - destruct k as [|k]; [discriminate|]. cbn in H. injection H as <- H. apply IH in H as (B & A & C). split; [lia|].
    split.
    + replace (i - lo)%nat with (S (i - S lo)) by lia. cbn. rewrite A. reflexivity.
    + rewrite C. f_equal. lia.
Qed.

Definition keyd (ns : list node) (i : nat) : Z := n_key (nth i ns (Node 0 [])).
Lemma walk_ok ns index t : forall lo k, inorder t = seq lo k -> t <> Leaf -> (lo + k <= length ns)%nat ->
  exists j, walk ns t index = Some j /\ (lo <= j < lo + k)%nat /\
    ((keyd ns j <= index /\ ((S j < lo + k)%nat -> index < keyd ns (S j))) \/ (index < keyd ns j /\ ((lo < j)%nat -> keyd ns (j - 1) <= index))).
Proof.
  induction t as [|l IHl i r IHr]; intros lo k I NL B; [congruence|]. cbn [inorder] in I. symmetry in I. apply seq_split in I as (Bi & Il & Ir). cbn [walk].
  assert (i < length ns)%nat as Li by lia. rewrite (nth_error_nth' ns (Node 0 []) Li). cbv zeta. fold (keyd ns i).
  destruct (index <? keyd ns i) eqn:Q.
  - destruct l as [|l1 li l2].
    + exists i. split; [reflexivity|]. split; [lia|]. right. split; [lia|]. cbn in Il. apply (f_equal (@length nat)) in Il. rewrite seq_length in Il. cbn in Il. lia.
    + destruct (IHl lo (i - lo)%nat Il ltac:(discriminate) ltac:(lia)) as (j & J1 & J2 & J3). exists j. split; [exact J1|]. split; [lia|]. destruct J3 as [[J3 J4]|[J3 J4]]; [left | right]; split; try assumption.
      intros _. destruct (Nat.eq_dec (S j) i) as [->|N]; [lia | apply J4; lia].
  - destruct r as [|r1 ri r2].
    + exists i. split; [reflexivity|]. split; [lia|]. left. split; [lia|]. cbn in Ir. apply (f_equal (@length nat)) in Ir. rewrite seq_length in Ir. cbn in Ir. lia.
    + destruct (IHr (S i) (lo + k - S i)%nat Ir ltac:(discriminate) ltac:(lia)) as (j & J1 & J2 & J3). exists j. split; [exact J1|]. split; [lia|]. destruct J3 as [[J3 J4]|[J3 J4]]; [left | right]; split; try assumption; try (intros; apply J4; lia).
      intros _. destruct (Nat.eq_dec (j - 1) i) as [->|N]; [lia | apply J4; lia].
Qed.

Lemma lookup_ok ns t index : inorder t = seq 0 (length ns) -> ns <> [] ->
  exists j, lookup ns t index = Some j /\ (j < length ns)%nat /\ (keyd ns j <= index \/ j = O) /\ ((S j < length ns)%nat -> index < keyd ns (S j)) \/
  (lookup ns t index = Some O /\ j = O /\ index < keyd ns 0).
Proof.
  intros I NE. assert (t <> Leaf) as NL. { intros ->. destruct ns; [congruence | discriminate I]. }
  destruct (walk_ok ns index t 0 (length ns) I NL ltac:(lia)) as (j & J1 & J2 & J3). assert (j < length ns)%nat as Lj by lia. unfold lookup. rewrite J1, (nth_error_nth' ns (Node 0 []) Lj). fold (keyd ns j).
  destruct J3 as [[J3 J4]|[J3 J4]].
  - assert (index <? keyd ns j = false) as -> by lia. exists j. left. split; [reflexivity|]. split; [lia|]. split; [left; exact J3 | intros; apply J4; lia].
  - assert (index <? keyd ns j = true) as -> by lia. destruct j as [|p]; [exists O; right; split; [reflexivity|]; split; [reflexivity | exact J3]|].
    exists p. left. split; [reflexivity|]. split; [lia|]. replace (S p - 1)%nat with p in J4 by lia. split; [left; apply J4; lia | intros; exact J3].
Qed.

Lemma inc_lt e l : inc (e :: l) -> forall f, In f l -> fst e < fst f.
Proof. cbn [inc]. intros [H _] f F. rewrite Forall_forall in H. apply H, F. Qed.

(* ----- skip_to on parts of a list *)
Lemma skip_cons start e f r : skip_to start (e :: f :: r) = if fst f <=? start then skip_to start (f :: r) else e :: f :: r.
Proof. reflexivity. Qed.
Lemma skip_left start a e b : inc (a ++ e :: b) -> fst e <= start -> skip_to start (a ++ e :: b) = skip_to start (e :: b).
Proof.
  induction a as [|x a IH]; intros I H; [reflexivity|]. cbn [app]. pose proof (proj2 I) as I'. cbn [app] in I'. destruct a as [|y a].
  - cbn [app]. rewrite skip_cons. assert (fst e <=? start = true) as -> by lia. reflexivity.
  - change ((y :: a) ++ e :: b) with (y :: (a ++ e :: b)) in *. rewrite skip_cons. assert (fst y <=? start = true) as ->. { pose proof (inc_lt y (a ++ e :: b) I' e ltac:(apply in_app_iff; right; left; reflexivity)). lia. } apply IH; assumption.
Qed.
Lemma skip_right start b : Forall (fun e => start < fst e) b -> forall a, a <> [] -> skip_to start (a ++ b) = skip_to start a ++ b.
Proof.
  intros H. induction a as [|x a IH]; intros NA; [congruence|]. destruct a as [|y a].
  - cbn [app]. destruct b as [|z b]; [reflexivity|]. rewrite skip_cons. inversion H; subst. assert (fst z <=? start = false) as -> by lia. reflexivity.
  - change ((x :: y :: a) ++ b) with (x :: y :: (a ++ b)). rewrite !skip_cons. destruct (fst y <=? start); [apply IH; discriminate | reflexivity].
Qed.
Lemma skip_all start l : Forall (fun e => start < fst e) l -> skip_to start l = l.
Proof. intros H. destruct l as [|e [|f r]]; try reflexivity. rewrite skip_cons. inversion H as [|? ? _ H2]; inversion H2; subst. assert (fst f <=? start = false) as -> by lia. reflexivity. Qed.
Lemma skip_facts start l : inc l -> exists p, l = p ++ skip_to start l /\ Forall (fun e => fst e <= start) p
  /\ match skip_to start l with [] => l = [] | e :: r => Forall (fun f => start < fst f) r /\ (p <> [] -> fst e <= start) end.
Proof.
  induction l as [|e l IH]; intros I; [exists []; repeat split; constructor|]. destruct l as [|f r].
  - exists []. split; [reflexivity|]. split; [constructor|]. cbn [skip_to]. split; [constructor | congruence].
  - rewrite skip_cons. destruct (fst f <=? start) eqn:Q.
    + destruct (IH (proj2 I)) as (p & P1 & P2 & P3). exists (e :: p). split; [cbn [app]; rewrite <- P1; reflexivity|]. pose proof (inc_lt e (f :: r) I f ltac:(left; reflexivity)). split; [constructor; [lia | exact P2]|].
      destruct (skip_to start (f :: r)) as [|g s] eqn:QS; [discriminate P3|]. destruct P3 as [P3 P4]. split; [exact P3|]. intros _. destruct p as [|x p]; [cbn [app] in P1; injection P1 as -> _; lia | apply P4; discriminate].
    + exists []. split; [reflexivity|]. split; [constructor|]. split; [|congruence]. pose proof (inc_lt f r (proj2 I)) as J. constructor; [lia|]. rewrite Forall_forall. intros g Hg. specialize (J g Hg). lia.
Qed.

(* what is looked up, on the whole list *)
Lemma split_nodes (ns : list node) j : (j < length ns)%nat -> ns = firstn j ns ++ nth j ns (Node 0 []) :: skipn (S j) ns.
Proof. revert j. induction ns as [|n ns IH]; intros j H; [cbn [length] in H; lia|]. destruct j as [|j]; [reflexivity|]. cbn [firstn nth app]. rewrite skipn_cons. f_equal. apply IH. cbn [length] in H. lia. Qed.
Lemma skipn_nth j : forall ns : list node, (j < length ns)%nat -> skipn j ns = nth j ns (Node 0 []) :: skipn (S j) ns.
Proof. induction j as [|j IHj]; intros [|q ns] H; cbn [length] in H; try lia; [reflexivity|]. cbn [nth]. rewrite !skipn_cons. apply IHj. lia. Qed.
Lemma lookup_flat ns t start : wf ns -> inorder t = seq 0 (length ns) -> ns <> [] ->
  exists i n, lookup ns t start = Some i /\ nth_error ns i = Some n /\ skip_to start (n_elts n) ++ flat (skipn (S i) ns) = skip_to start (flat ns)
    /\ skip_to start (n_elts n) <> [].
Proof.
  intros W I NE.
  assert (forall l, l <> [] -> skip_to start l <> []) as SNE. { induction l as [|x l IH]; [tauto|]. intros _. destruct l as [|y l]; [discriminate|]. rewrite skip_cons. destruct (fst y <=? start); [apply IH; discriminate | discriminate]. }
  destruct (lookup_ok ns t start I NE) as (j & [(L1 & L2 & L3 & L4)|(L1 & -> & L2)]).
  - exists j, (nth j ns (Node 0 [])). split; [exact L1|]. split; [apply nth_error_nth'; exact L2|]. pose proof (split_nodes ns j L2) as SN. set (n := nth j ns (Node 0 [])) in *. set (b := skipn (S j) ns) in *.
    assert (Forall node_ok (firstn j ns ++ n :: b)) as NO by (rewrite <- SN; apply (proj1 W)). apply Forall_app in NO. destruct NO as [_ NO]. inversion NO as [|? ? (e & r & N1 & N2) NB]; subst.
    assert (flat ns = flat (firstn j ns) ++ n_elts n ++ flat b) as FL. { rewrite SN at 1. rewrite flat_app. reflexivity. } pose proof (proj2 W) as IW. rewrite FL in IW. split; [|apply SNE; rewrite N1; discriminate].
    assert (Forall (fun e => start < fst e) (flat b)) as LB.
    { destruct b as [|m b'] eqn:QB; [constructor|]. assert (S j < length ns)%nat as SJ. { assert (length (skipn (S j) ns) = length (m :: b')) as X by (fold b; rewrite QB; reflexivity). rewrite skipn_length in X. cbn [length] in X. lia. }
      specialize (L4 SJ). assert (nth (S j) ns (Node 0 []) = m) as NM. { pose proof (skipn_nth (S j) ns SJ) as X. fold b in X. rewrite QB in X. injection X as -> _. reflexivity. }
      unfold keyd in L4. rewrite NM in L4. apply inc_app in IW. destruct IW as (_ & IW & _). apply inc_app in IW. destruct IW as (_ & IW & _). rewrite Forall_forall. intros f Hf. pose proof (key_le m b' (conj NB IW) f Hf). lia. }
    rewrite FL. destruct (L3) as [L5|L5].
    + unfold keyd in L5. fold n in L5. rewrite N1 in *. cbn [app] in *. rewrite (skip_left start (flat (firstn j ns)) e (r ++ flat b) IW ltac:(lia)). change (e :: r ++ flat b) with ((e :: r) ++ flat b). rewrite (skip_right start (flat b) LB) by discriminate. reflexivity.
    + subst j. cbn [firstn flat map concat app]. rewrite (skip_right start (flat b) LB) by (rewrite N1; discriminate). reflexivity.
  - destruct ns as [|n ns]; [congruence|]. exists O, n. split; [exact L1|]. split; [reflexivity|]. rewrite skipn_cons, skipn_O. pose proof (proj1 W) as NO. inversion NO as [|? ? (e & r & N1 & N2) _]; subst.
    assert (Forall (fun f => start < fst f) (flat (n :: ns))) as A. { rewrite Forall_forall. intros f Hf. pose proof (key_le n ns W f Hf). change (keyd (n :: ns) 0) with (n_key n) in L2. lia. }
    rewrite (skip_all start (flat (n :: ns)) A). change (flat (n :: ns)) with (n_elts n ++ flat ns) in *. apply Forall_app in A. split; [rewrite (skip_all start (n_elts n)) by tauto; reflexivity | apply SNE; rewrite N1; discriminate].
Qed.

(* ----- scanning *)
Lemma scan_zero end_ l : forall s, inc l -> Forall (fun e => s < fst e) l -> (scan end_ l = true <-> exists i, s <= i < end_ /\ rate_at 0 l i <> 0).
Proof.
  induction l as [|e l IH]; intros s I H; [cbn; split; [discriminate | intros (i & _ & X); congruence]|]. cbn [scan]. inversion H as [|? ? H1 H2]; subst. pose proof (inc_lt e l I) as J.
  destruct (end_ <=? fst e) eqn:Q.
  - split; [discriminate|]. intros (i & Hi & X). exfalso. apply X. apply rate_after. rewrite Forall_forall. intros f [->|F]; [lia|]. specialize (J f F). lia.
  - destruct (snd e =? 0) eqn:Q0; cbn [negb].
    + rewrite (IH s (proj2 I) H2). split; intros (i & Hi & X); exists i; (split; [exact Hi|]); rewrite rate_cons in *; replace (snd e) with 0 in * by lia; destruct (fst e <=? i); exact X.
    + split; [|reflexivity]. intros _. exists (fst e). split; [lia|]. rewrite rate_cons. assert (fst e <=? fst e = true) as -> by lia. rewrite rate_after; [lia|]. rewrite Forall_forall. exact J.
Qed.
Lemma exists_flat x t start end_ : wf (x_nodes x) -> x_init x = 0 -> tree_of t x -> start < end_ ->
  (segment_exists x t start end_ = true <-> exists i, start <= i < end_ /\ rate_at 0 (flat (x_nodes x)) i <> 0).
Proof.
  intros W I0 T SE. unfold segment_exists. rewrite I0. change (0 =? 0) with true. cbn [negb]. destruct (x_nodes x) as [|n0 ns0] eqn:QN.
  - unfold tree_of in T. rewrite QN in T. destruct t; [|cbn in T; destruct (inorder t1); discriminate T]. cbn. split; [discriminate | intros (i & _ & X); congruence].
  - rewrite <- QN in *. assert (x_nodes x <> []) as NE by (rewrite QN; discriminate). destruct (lookup_flat (x_nodes x) t start W T NE) as (i & n & L1 & L2 & L3 & L4). rewrite L1, L2. fold (flat (skipn (S i) (x_nodes x))). rewrite L3.
    destruct (skip_facts start (flat (x_nodes x)) (proj2 W)) as (p & P1 & P2 & P3). set (l := skip_to start (flat (x_nodes x))) in *.
    assert (forall k, start <= k -> l <> [] -> (p = [] \/ fst (hd (0, 0) l) <= start) -> rate_at 0 (flat (x_nodes x)) k = rate_at 0 l k) as RE.
    { intros k Hk NL [->|HL]; [rewrite P1; reflexivity|]. rewrite P1 at 1. rewrite rate_app. destruct l as [|e r]; [congruence|]. cbn [hd] in HL. apply rate_hd. lia. }
    pose proof (proj2 W) as IW. rewrite P1 in IW. apply inc_app in IW. destruct IW as (_ & IL & _).
    destruct l as [|e r] eqn:QL; [rewrite P3; cbn; split; [discriminate | intros (k & _ & X); congruence]|]. destruct P3 as [P3 P4].
    assert (p = [] \/ fst e <= start) as PE by (destruct p; [left; reflexivity | right; apply P4; discriminate]).
    assert (scan end_ (e :: r) = true <-> exists k, start <= k < end_ /\ rate_at 0 (e :: r) k <> 0) as SC.
    { destruct (Z.le_gt_cases (fst e) start) as [H|H]; [|apply scan_zero; [exact IL | constructor; [lia | exact P3]]]. cbn [scan]. assert (end_ <=? fst e = false) as -> by lia. destruct (snd e =? 0) eqn:Q0; cbn [negb].
      - rewrite (scan_zero end_ r start (proj2 IL) P3). split; intros (k & Hk & X); exists k; (split; [exact Hk|]); rewrite rate_cons in *; replace (snd e) with 0 in * by lia; destruct (fst e <=? k); exact X.
      - split; [|reflexivity]. intros _. exists start. split; [lia|]. rewrite rate_cons. assert (fst e <=? start = true) as -> by lia. rewrite rate_after by exact P3. lia. }
    rewrite SC. split; intros (k & Hk & X); exists k; (split; [exact Hk|]); [rewrite RE; [exact X | lia | discriminate | exact PE] | rewrite RE in X; [exact X | lia | discriminate | exact PE]].
Qed.
