(* The list of frames, and the trees. *)

From Coq Require Import List ZArith Lia Bool Arith Sorted.
From Coq Require Import ZifyBool ZifyNat.
From Verif Require Import TrkModel TrkSpec.
Import ListNotations.
Open Scope Z_scope.

(* ---- the list of frames ---- *)

Definition wf (l : flist) : Prop :=
  exists ini lst, l_parts l = ini ++ [lst] /\ Forall (fun p => length p = part_count) ini /\ (length lst <= part_count)%nat /\
    (l_off l < part_count)%nat /\ (ini = [] -> (l_off l <= length lst)%nat) /\ l_cnt l = length (content l).

Lemma wf_init : wf fl_init.
Proof. exists [], []. cbn. repeat split; unfold part_count; try lia. constructor. Qed.

Lemma head_ok l : wf l -> fl_head l = hd_error (content l).
Proof.
  intros (ini & lst & E & F & L & O & B & C). unfold fl_head, content. rewrite E.
  destruct ini as [|p ini]; cbn [app].
  - cbn [concat]. rewrite app_nil_r. generalize (l_off l). clear. induction lst as [|a r IH]; intros [|n]; cbn; try reflexivity. apply IH.
  - cbn [concat]. inversion F; subst. rewrite skipn_app, H1. replace (l_off l - part_count)%nat with 0%nat by lia.
    assert (G : (l_off l < length p)%nat) by lia. revert G. generalize (l_off l). clear.
    induction p as [|a r IH]; intros [|n] G; cbn in *; try lia; try reflexivity. apply IH. lia.
Qed.

Lemma last_app {A} (a : list A) x d : last (a ++ [x]) d = x.
Proof. apply last_last. Qed.

Lemma push_ok l f alloc : wf l ->
  match fl_push l f alloc with Some l' => wf l' /\ content l' = content l ++ [f] | None => alloc = false end.
Proof.
  intros (ini & lst & E & F & L & O & B & C). unfold fl_push. rewrite E, last_last.
  assert (SK : forall x, (l_off l <= length (concat (ini ++ [lst])))%nat -> skipn (l_off l) (concat (ini ++ [lst]) ++ x) = content l ++ x).
  { intros x HL. unfold content. rewrite E, skipn_app. replace (l_off l - length (concat (ini ++ [lst])))%nat with 0%nat by lia. reflexivity. }
  assert (LE : (l_off l <= length (concat (ini ++ [lst])))%nat).
  { destruct ini as [|p ini]; cbn [app concat]; rewrite app_length; [specialize (B eq_refl); lia|]. inversion F; subst. lia. }
  specialize (SK [f] LE).
  destruct (part_count <=? length lst)%nat eqn:CP.
  - assert (G : forall n, wf (Fl ((ini ++ [lst]) ++ [[f]]) n (l_off l) (S (l_cnt l))) /\ content (Fl ((ini ++ [lst]) ++ [[f]]) n (l_off l) (S (l_cnt l))) = content l ++ [f]).
    { intros n. assert (CC : content (Fl ((ini ++ [lst]) ++ [[f]]) n (l_off l) (S (l_cnt l))) = content l ++ [f]).
      { rewrite <- SK. unfold content. cbn [l_off l_parts]. f_equal. rewrite concat_app. cbn [concat]. rewrite app_nil_r. reflexivity. }
      split; [|exact CC]. exists (ini ++ [lst]), [f]. cbn [l_parts l_off l_cnt]. split; [reflexivity|].
      split; [apply Forall_app; split; [exact F|constructor; [lia|constructor]]|]. split; [cbn; unfold part_count; lia|].
      split; [exact O|]. split; [intros H; destruct ini; discriminate|]. rewrite CC, app_length, C. cbn. lia. }
    destruct (l_free l); [destruct alloc; [apply G|reflexivity]|apply G].
  - rewrite removelast_last.
    assert (CC : content (Fl (ini ++ [lst ++ [f]]) (l_free l) (l_off l) (S (l_cnt l))) = content l ++ [f]).
    { rewrite <- SK. unfold content. cbn [l_off l_parts]. f_equal. rewrite !concat_app. cbn [concat]. rewrite !app_nil_r, app_assoc. reflexivity. }
    split; [|exact CC]. exists ini, (lst ++ [f]). cbn [l_parts l_off l_cnt]. split; [reflexivity|]. split; [exact F|].
    split; [rewrite app_length; cbn; lia|]. split; [exact O|]. split; [intros H; specialize (B H); rewrite app_length; lia|].
    rewrite CC, app_length, C. cbn. lia.
Qed.

Lemma pop_ok l f r : wf l -> content l = f :: r -> exists l', fl_pop l = Some l' /\ wf l' /\ content l' = r.
Proof.
  intros (ini & lst & E & F & L & O & B & C) EC. unfold fl_pop. rewrite EC in C. cbn [length] in C. rewrite C.
  assert (SK : skipn (S (l_off l)) (concat (l_parts l)) = r).
  { unfold content in EC.
    revert EC. generalize (concat (l_parts l)), (l_off l). clear. intros x. induction x as [|a x IH]; intros [|n] H; cbn [skipn] in *; try discriminate.
    - injection H as _ <-. reflexivity.
    - destruct x; [destruct n; discriminate|]. apply IH. exact H. }
  destruct (S (l_off l) <? part_count)%nat eqn:CO.
  - eexists. split; [reflexivity|]. split; [|exact SK].
    exists ini, lst. cbn [l_parts l_off l_cnt]. split; [exact E|]. split; [exact F|]. split; [exact L|]. split; [lia|]. split.
    + intros ->. specialize (B eq_refl). cbn in E. unfold content in EC. rewrite E in EC. cbn [concat] in EC. rewrite app_nil_r in EC.
      destruct (Nat.eq_dec (l_off l) (length lst)) as [H|H]; [|lia]. rewrite H, skipn_all in EC. discriminate.
    + unfold content. cbn [l_off l_parts]. rewrite SK. reflexivity.
  - assert (SO : S (l_off l) = part_count) by lia. rewrite SO in SK.
    destruct ini as [|p ini]; rewrite E in *; cbn [app] in *.
    + eexists. split; [reflexivity|].
      cbn [concat] in SK. rewrite app_nil_r in SK. rewrite skipn_all2 in SK by lia. subst r.
      split; [|reflexivity]. exists [], []. cbn. unfold part_count. repeat split; try lia. constructor.
    + pose proof (Forall_inv F) as HP. pose proof (Forall_inv_tail F) as F'. cbn beta in HP.
      assert (SK' : concat (ini ++ [lst]) = r).
      { cbn [concat] in SK. rewrite skipn_app, HP, Nat.sub_diag in SK. rewrite skipn_all2 in SK by lia. exact SK. }
      destruct (ini ++ [lst]) as [|x y] eqn:EX; [destruct ini; discriminate|].
      eexists. split; [reflexivity|]. split; [|exact SK'].
      exists ini, lst. cbn [l_parts l_off l_cnt]. rewrite EX. split; [reflexivity|]. split; [exact F'|]. split; [exact L|].
      split; [unfold part_count; lia|]. split; [lia|]. unfold content. cbn [l_off l_parts skipn]. rewrite SK'. reflexivity.
Qed.

(* ---- trees ---- *)

Definition kle (a b : Z * nat) : Prop := fst a <= fst b.

(* the tree has exactly the nodes that g says *)
Definition tree_ok (l : list (Z * nat)) (g : nat -> option Z) : Prop :=
  StronglySorted kle l /\ NoDup (map snd l) /\ forall k i, In (k, i) l <-> g i = Some k.

Lemma tree_ext l g g' : tree_ok l g -> (forall i, g' i = g i) -> tree_ok l g'.
Proof. intros (S & N & H) E. split; [exact S|]. split; [exact N|]. intros k i. rewrite E. apply H. Qed.

Lemma in_ins k t : forall l x, In x (ins k t l) <-> x = (k, t) \/ In x l.
Proof.
  induction l as [|[k' t'] r IH]; intros x; cbn [ins]; [cbn; intuition congruence|].
  destruct (k <? k'); cbn [In]; [intuition congruence|]. rewrite IH. cbn. tauto.
Qed.

Lemma ins_sorted k t : forall l, StronglySorted kle l -> StronglySorted kle (ins k t l).
Proof.
  induction 1 as [|[k' t'] r S IH F]; cbn [ins]; [repeat constructor|].
  destruct (k <? k') eqn:C.
  - constructor; [constructor; assumption|]. constructor; [unfold kle; cbn; lia|].
    apply Forall_forall. intros x HX. rewrite Forall_forall in F. specialize (F x HX). unfold kle in *. cbn in *. lia.
  - constructor; [exact IH|]. apply Forall_forall. intros x HX. apply in_ins in HX as [->|HX]; [unfold kle; cbn; lia|].
    rewrite Forall_forall in F. exact (F x HX).
Qed.

Lemma ins_nodup k t : forall l, NoDup (map snd l) -> ~ In t (map snd l) -> NoDup (map snd (ins k t l)).
Proof.
  induction l as [|[k' t'] r IH]; intros N H; cbn [ins].
  - constructor; [exact H|exact N].
  - destruct (k <? k').
    + cbn [map snd] in *. constructor; [exact H|exact N].
    + cbn [map snd] in *. inversion N; subst. constructor.
      * intros X. apply in_map_iff in X as ([a b] & E & X). cbn in E. subst b. apply in_ins in X as [X|X].
        -- injection X as -> ->. apply H. left. reflexivity.
        -- apply H2. apply in_map_iff. exists (a, t'). auto.
      * apply IH; [assumption|]. intros X. apply H. right. exact X.
Qed.

Lemma tree_ins l g k i : tree_ok l g -> g i = None -> tree_ok (ins k i l) (fun j => if (j =? i)%nat then Some k else g j).
Proof.
  intros (S & N & H) G. split; [apply ins_sorted; exact S|]. split.
  - apply ins_nodup; [exact N|]. intros X. apply in_map_iff in X as ([a b] & E & X). cbn in E. subst b. apply H in X. congruence.
  - intros k' j. rewrite in_ins, H. destruct (j =? i)%nat eqn:C.
    + replace j with i by lia. split; [intros [X|X]; congruence|]. intros X. left. congruence.
    + split; [intros [X|X]; [injection X as -> ->; lia|exact X]|]. auto.
Qed.

Lemma filter_sorted (p : Z * nat -> bool) l : StronglySorted kle l -> StronglySorted kle (filter p l).
Proof.
  induction 1 as [|x r S IH F]; cbn [filter]; [constructor|]. destruct (p x); [|exact IH]. constructor; [exact IH|].
  apply Forall_forall. intros y HY. apply filter_In in HY as (HY & _). rewrite Forall_forall in F. exact (F y HY).
Qed.

Lemma filter_nodup (p : Z * nat -> bool) l : NoDup (map snd l) -> NoDup (map snd (filter p l)).
Proof.
  induction l as [|x r IH]; cbn [filter map]; [auto|]. intros N. inversion N; subst. destruct (p x); [|auto]. cbn [map]. constructor; [|auto].
  intros X. apply H1. apply in_map_iff in X as (y & E & X). apply filter_In in X as (X & _). apply in_map_iff. exists y. auto.
Qed.

Lemma tree_del l g i : tree_ok l g -> tree_ok (del i l) (fun j => if (j =? i)%nat then None else g j).
Proof.
  intros (S & N & H). unfold del. split; [apply filter_sorted; exact S|]. split; [apply filter_nodup; exact N|].
  intros k j. rewrite filter_In. cbn [snd]. rewrite H. destruct (j =? i)%nat; cbn; intuition congruence.
Qed.

(* ---- lists ---- *)

Lemma upd_len {A} (x : A) : forall l i, length (upd l i x) = length l.
Proof. induction l as [|a r IH]; intros [|i]; cbn; auto. Qed.

Lemma upd_nth {A} (x : A) : forall l i j, nth_error (upd l i x) j =
  if (j =? i)%nat then match nth_error l i with Some _ => Some x | None => None end else nth_error l j.
Proof.
  induction l as [|a r IH]; intros [|i] [|j]; cbn; try reflexivity.
  - destruct (j =? i)%nat; reflexivity.
  - rewrite IH. reflexivity.
Qed.
