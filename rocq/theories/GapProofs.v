From Coq Require Import ZArith List Bool Lia ZifyBool Arith Sorted.
From Verif Require Import Bytes GapModel GapSpec.
Import ListNotations.
Open Scope Z_scope.

Definition flat (ns : list node) : list elt := concat (map n_elts ns).
(* strictly increasing *)
Fixpoint inc (l : list elt) : Prop :=
  match l with [] => True | e :: r => Forall (fun f => fst e < fst f) r /\ inc r end.
Definition node_ok (n : node) : Prop := exists e r, n_elts n = e :: r /\ n_key n = fst e.
Definition wf (ns : list node) : Prop := Forall node_ok ns /\ inc (flat ns).

Lemma inc_app a b : inc (a ++ b) <-> inc a /\ inc b /\ Forall (fun e => Forall (fun f => fst e < fst f) b) a.
Proof.
  induction a as [|x a IH]; [cbn [app inc]; repeat split; try tauto; constructor|]. cbn [app inc]. rewrite IH, Forall_app. split.
  - intros ((H1 & H2) & H3 & H4 & H5). repeat split; try assumption. constructor; assumption.
  - intros ((H1 & H2) & H3 & H4). inversion H4; subst. repeat split; assumption.
Qed.
Lemma rate_app v a b i : rate_at v (a ++ b) i = rate_at (rate_at v a i) b i.
Proof. unfold rate_at. apply fold_left_app. Qed.
Lemma rate_cons v e l i : rate_at v (e :: l) i = rate_at (if fst e <=? i then snd e else v) l i.
Proof. reflexivity. Qed.
Lemma rate_after v l i : Forall (fun e => i < fst e) l -> rate_at v l i = v.
Proof. revert v. induction l as [|e l IH]; intros v H; [reflexivity|]. rewrite rate_cons. inversion H; subst. assert (fst e <=? i = false) as -> by lia. apply IH. assumption. Qed.
Lemma last_def (l : list elt) d d' : l <> [] -> last l d = last l d'.
Proof. induction l as [|x l IH]; [tauto|]. intros _. destruct l as [|y l]; [reflexivity|]. exact (IH ltac:(discriminate)). Qed.
Lemma rate_before v l i : Forall (fun e => fst e <= i) l -> rate_at v l i = snd (last l (0, v)).
Proof.
  revert v. induction l as [|e l IH]; intros v H; [reflexivity|]. rewrite rate_cons. inversion H; subst. assert (fst e <=? i = true) as -> by lia. rewrite IH by assumption.
  destruct l as [|f l]; [reflexivity|]. change (last (e :: f :: l) (0, v)) with (last (f :: l) (0, v)). f_equal. apply last_def. discriminate.
Qed.
(* what comes before does not matter once a change is there *)
Lemma rate_hd v w e l i : fst e <= i -> rate_at v (e :: l) i = rate_at w (e :: l) i.
Proof. intros H. rewrite !rate_cons. assert (fst e <=? i = true) as -> by lia. reflexivity. Qed.

Lemma flat_app a b : flat (a ++ b) = flat a ++ flat b.
Proof. unfold flat. rewrite map_app, concat_app. reflexivity. Qed.
Lemma push_spec ns e : flat (push ns e) = flat ns ++ [e] /\ (Forall node_ok ns -> Forall node_ok (push ns e)).
Proof.
  induction ns as [|n ns [IH1 IH2]]; cbn [push].
  - split; [reflexivity|]. intros _. constructor; [exists e, []; split; reflexivity | constructor].
  - destruct ns as [|m ns].
    + destruct (length (n_elts n) <? NODE_ELTS)%nat.
      * unfold flat. cbn [map concat n_elts]. rewrite !app_nil_r. split; [reflexivity|]. intros H. inversion H as [|? ? (f & r & N1 & N2) _]; subst. constructor; [|constructor]. exists f, (r ++ [e]). cbn [n_elts n_key]. rewrite N1, N2. split; reflexivity.
      * unfold flat. cbn [map concat n_elts]. rewrite !app_nil_r. split; [reflexivity|]. intros H. inversion H; subst. constructor; [assumption|]. constructor; [exists e, []; split; reflexivity | constructor].
    + set (q := push (m :: ns) e) in *. change (flat (n :: q)) with (n_elts n ++ flat q). rewrite IH1. change (flat (n :: m :: ns)) with (n_elts n ++ flat (m :: ns)). rewrite app_assoc. split; [reflexivity|]. intros H. inversion H; subst. constructor; [assumption | apply IH2; assumption].
Qed.

Lemma key_le n ns : wf (n :: ns) -> forall e, In e (flat (n :: ns)) -> n_key n <= fst e.
Proof.
  intros (H & I) e. inversion H as [|? ? (f & r & N1 & N2) _]; subst. unfold flat in *. cbn [map concat] in *. rewrite N1 in *. cbn [app inc] in I. destruct I as [I _]. rewrite N2. intros [->|J]; [lia|]. rewrite Forall_forall in I. specialize (I e J). lia.
Qed.
Lemma wf_tail n ns : wf (n :: ns) -> wf ns.
Proof. intros (H & I). unfold wf. inversion H; subst. split; [assumption|]. unfold flat in *. cbn [map concat] in I. apply inc_app in I. tauto. Qed.

Lemma free_spec ns : forall min, wf ns -> wf (free_nodes ns min) /\ (ns <> [] -> free_nodes ns min <> []) /\ (exists p, flat ns = p ++ flat (free_nodes ns min))
  /\ forall v i, min <= i -> rate_at v (flat (free_nodes ns min)) i = rate_at v (flat ns) i.
Proof.
  induction ns as [|n ns IH]; intros min W; [split; [exact W|]; split; [tauto|]; split; [exists []; reflexivity | reflexivity]|]. cbn [free_nodes]. destruct ns as [|m ns]; [split; [exact W|]; split; [tauto|]; split; [exists []; reflexivity | reflexivity]|].
  destruct (min <? n_key m) eqn:Q; [split; [exact W|]; split; [tauto|]; split; [exists []; reflexivity | reflexivity]|].
  destruct (IH min (wf_tail _ _ W)) as (I1 & I2 & (p & I3) & I4). split; [exact I1|]. split; [intros _; apply I2; discriminate|]. split.
  - exists (n_elts n ++ p). change (flat (n :: m :: ns)) with (n_elts n ++ flat (m :: ns)). rewrite I3, app_assoc. reflexivity.
  - intros v i Hi. rewrite I4 by exact Hi. change (flat (n :: m :: ns)) with (n_elts n ++ flat (m :: ns)). rewrite rate_app. 
    destruct W as (H & _). inversion H as [|? ? _ H2]; subst. inversion H2 as [|? ? (f & r & N1 & N2) _]; subst. unfold flat. cbn [map concat]. rewrite N1. cbn [app]. apply rate_hd. lia.
Qed.

(* ----- histories *)
Definition eff (c : conf) (b : Z) : Z := if b =? 0 then 0 else if c_bitrate c then b else 1.
Definition rec_inv (c : conf) (x : ctx) (K : list elt) (F : Z) : Prop :=
  wf (x_nodes x) /\ x_init x = 0 /\ x_rate x = 100 * snd (last (flat (x_nodes x)) (0, 0))
  /\ (x_index x = INVALID \/ 0 <= x_index x < INVALID) /\ (x_index x = INVALID -> x_nodes x = [] /\ K = [])
  /\ Forall (fun e => 0 <= fst e <= x_index x) K /\ Forall (fun e => 0 <= fst e <= x_index x /\ 0 <= snd e < 2 ^ 32) (flat (x_nodes x))
  /\ (forall i, F <= i -> stands_for c (rate_at 0 K i) (rate_at 0 (flat (x_nodes x)) i)).

Lemma last_in (l : list elt) d : l <> [] -> In (last l d) l.
Proof. induction l as [|x l IH]; [tauto|]. intros _. destruct l; [left; reflexivity | right; apply IH; discriminate]. Qed.
Lemma last_app1 (l : list elt) e d : last (l ++ [e]) d = e.
Proof. apply last_last. Qed.

Lemma created_inv c x K F i b : c_gaps c = true -> conf_ok c -> 0 <= i < INVALID -> 0 <= b < 2 ^ 32 -> rec_inv c x K F ->
  rec_inv c (created c x i b) (K ++ (if (x_index x =? INVALID) || (x_index x <? i) then [(i, b)] else [])) F.
Proof.
  intros G (C1 & C2) Hi Hb (W & I1 & I2 & I3 & I4 & I5 & I6 & I7). unfold created. rewrite G. rewrite andb_false_r. cbn [negb andb].
  destruct ((x_index x =? INVALID) || (x_index x <? i)) eqn:Q.
  2:{ assert ((i <=? x_index x) && negb (x_index x =? INVALID) = true) as -> by lia. rewrite app_nil_r. unfold rec_inv. tauto. }
  assert ((i <=? x_index x) && negb (x_index x =? INVALID) = false) as -> by lia. rewrite andb_false_r. cbv zeta. cbn [x_nodes x_rate x_init x_index x_minfree].
  set (cur := if b =? 0 then 0 else if c_bitrate c then b else NO_BITRATE). assert (0 <= cur < 2 ^ 32) as Hc by (unfold cur, NO_BITRATE; destruct (b =? 0), (c_bitrate c); lia).
  assert (cur = 0 <-> b = 0) as C0 by (unfold cur, NO_BITRATE; destruct (b =? 0) eqn:?, (c_bitrate c); lia). assert (c_bitrate c = true -> cur = b) as CB by (unfold cur; intros ->; destruct (b =? 0) eqn:?; lia).
  assert (forall u, 0 <= u < 2 ^ 31 -> u64 (cur * u) = cur * u) as U. { intros u Hu. unfold u64. apply Z.mod_small. split; [nia|]. assert (cur * u <= 2 ^ 32 * 2 ^ 31) by nia. lia. }
  rewrite !U by lia.
  assert (Forall (fun e => 0 <= fst e < i) K) as K1. { destruct (x_index x =? INVALID) eqn:Q1; [destruct (I4 ltac:(lia)) as [_ ->]; constructor|]. eapply Forall_impl; [|exact I5]. intros e He. cbv beta in *. lia. }
  assert (Forall (fun e => 0 <= fst e < i /\ 0 <= snd e < 2 ^ 32) (flat (x_nodes x))) as N1. { destruct (x_index x =? INVALID) eqn:Q1; [destruct (I4 ltac:(lia)) as [-> _]; constructor|]. eapply Forall_impl; [|exact I6]. intros e He. cbv beta in *. lia. }
  assert (Forall (fun e => 0 <= fst e <= i) (K ++ [(i, b)])) as K2. { apply Forall_app. split; [|constructor; [cbn [fst]; lia | constructor]]. eapply Forall_impl; [|exact K1]. intros e He. cbv beta in *. lia. }
  assert (rate_at 0 (flat (x_nodes x)) i = snd (last (flat (x_nodes x)) (0, 0))) as R0. { apply rate_before. eapply Forall_impl; [|exact N1]. intros e He. cbv beta in *. lia. }
  destruct ((cur * c_lower c <=? x_rate x) && (x_rate x <=? cur * c_upper c)) eqn:Q2.
  - (* close to the last one *)
    unfold rec_inv. cbn [x_nodes x_rate x_init x_index x_minfree]. split; [exact W|]. split; [exact I1|]. split; [exact I2|]. split; [right; exact Hi|]. split; [intros; lia|]. split; [exact K2|].
    split; [eapply Forall_impl; [|exact N1]; intros e He; cbv beta in *; lia|].
    intros j Hj. rewrite rate_app. rewrite rate_cons. cbn [fst snd rate_at fold_left]. destruct (i <=? j) eqn:Q3; [|apply I7; exact Hj].
    assert (rate_at 0 (flat (x_nodes x)) j = snd (last (flat (x_nodes x)) (0, 0))) as ->. { apply rate_before. eapply Forall_impl; [|exact N1]. intros e He. cbv beta in *. lia. }
    set (v := snd (last (flat (x_nodes x)) (0, 0))) in *. assert (0 <= v) as V0. { unfold v. destruct (flat (x_nodes x)) as [|e0 l0] eqn:Q4; [cbn; lia|]. rewrite Forall_forall in N1. specialize (N1 (last (e0 :: l0) (0, 0)) (last_in (e0 :: l0) (0, 0) ltac:(discriminate))). lia. }
    split; [|intros H; specialize (CB H); right; rewrite <- CB; lia]. split; intros H.
    + apply C0. nia.
    + apply C0 in H. nia.
  - (* a new one *)
    unfold rec_inv. cbn [x_nodes x_rate x_init x_index x_minfree]. destruct (push_spec (x_nodes x) (i, cur)) as [P1 P2]. rewrite P1. destruct W as [W1 W2].
    assert (inc (flat (x_nodes x) ++ [(i, cur)])) as IN.
    { apply inc_app. split; [exact W2|]. split; [cbn [inc]; split; [constructor | exact I]|]. eapply Forall_impl; [|exact N1]. intros e He. cbv beta in *. constructor; [cbn [fst]; lia | constructor]. }
    split; [split; [apply P2, W1 | rewrite P1; exact IN]|].
    split; [exact I1|]. split; [rewrite last_app1; cbn [snd]; lia|]. split; [right; exact Hi|]. split; [intros; lia|]. split; [exact K2|].
    split; [apply Forall_app; split; [eapply Forall_impl; [|exact N1]; intros e He; cbv beta in *; lia | constructor; [cbn [fst snd]; lia | constructor]]|].
    intros j Hj. rewrite !rate_app, !rate_cons. cbn [fst snd rate_at fold_left]. destruct (i <=? j) eqn:Q3; [|apply I7; exact Hj].
    split; [exact C0|]. intros H. left. apply CB. exact H.
Qed.

Lemma freed_inv c x K F m : rec_inv c x K F -> rec_inv c (freed x m) K (Z.max m F).
Proof.
  intros (W & I1 & I2 & I3 & I4 & I5 & I6 & I7). unfold freed. destruct (m <? x_minfree x) eqn:Q.
  - unfold rec_inv. assert (forall i, Z.max m F <= i -> stands_for c (rate_at 0 K i) (rate_at 0 (flat (x_nodes x)) i)) by (intros i Hi; apply I7; lia). tauto.
  - destruct (free_spec (x_nodes x) m W) as (F1 & F2 & (p & F3) & F4). unfold rec_inv. cbn [x_nodes x_rate x_init x_index x_minfree]. split; [exact F1|]. split; [exact I1|]. split.
    { rewrite I2, F3. destruct (x_nodes x) as [|n ns] eqn:QN; [cbn [free_nodes] in *; cbn in F3; symmetry in F3; apply app_eq_nil in F3; destruct F3 as [-> _]; reflexivity|].
      assert (flat (free_nodes (n :: ns) m) <> []) as NE. { specialize (F2 ltac:(discriminate)). destruct (free_nodes (n :: ns) m) as [|q qs]; [congruence|]. destruct F1 as [F1 _]. inversion F1 as [|? ? (f & r & N1 & _) _]; subst. unfold flat. cbn [map concat]. rewrite N1. discriminate. }
      f_equal. f_equal. generalize (flat (free_nodes (n :: ns) m)) NE. intros l NL. clear -NL. induction p as [|x p IH]; [reflexivity|]. cbn [app]. rewrite <- IH. destruct (p ++ l) eqn:Q; [apply app_eq_nil in Q; tauto | reflexivity]. }
    split; [exact I3|]. split; [intros H; destruct (I4 H) as [H1 H2]; rewrite H1; split; [reflexivity | exact H2]|]. split; [exact I5|]. split; [rewrite F3 in I6; apply Forall_app in I6; tauto|].
    intros i Hi. rewrite F4 by lia. apply I7. lia.
Qed.

Definition last_opt (x : ctx) : option Z := if x_index x =? INVALID then None else Some (x_index x).
Lemma run_inv c h : forall x K F, c_gaps c = true -> conf_ok c -> Forall op_ok h -> 0 <= F -> rec_inv c x K F -> rec_inv c (run c x h) (K ++ made (last_opt x) h) (Z.max F (freed_to h)).
Proof.
  induction h as [|o h IH]; intros x K F G C O HF R.
  - cbn [made run fold_left freed_to]. rewrite app_nil_r, Z.max_l by exact HF. exact R.
  - inversion O as [|? ? O1 O2]; subst. cbn [run fold_left]. change (fold_left (step c) h (step c x o)) with (run c (step c x o) h). destruct o as [i b|m]; cbn [step made freed_to].
    + destruct O1 as [Oi Ob]. pose proof (created_inv c x K F i b G C ltac:(unfold INVALID; lia) Ob R) as R1. pose proof (IH _ _ F G C O2 HF R1) as R2.
      assert (x_index (created c x i b) = if (x_index x =? INVALID) || (x_index x <? i) then i else x_index x) as XI.
      { unfold created. rewrite G. rewrite andb_false_r. cbn [negb]. rewrite andb_false_r. destruct ((x_index x =? INVALID) || (x_index x <? i)) eqn:Q.
        - assert ((i <=? x_index x) && negb (x_index x =? INVALID) = false) as -> by lia. cbv zeta. destruct (_ && _); reflexivity.
        - assert ((i <=? x_index x) && negb (x_index x =? INVALID) = true) as -> by lia. reflexivity. }
      unfold last_opt in *. rewrite XI in R2. destruct (x_index x =? INVALID) eqn:Q1; cbn [orb] in *.
      * assert (i =? INVALID = false) as QI by (unfold INVALID; lia). rewrite QI in R2. rewrite <- app_assoc in R2. exact R2.
      * destruct (x_index x <? i) eqn:Q2; [|rewrite Q1, app_nil_r in R2; exact R2]. assert (i =? INVALID = false) as QI by (unfold INVALID; lia). rewrite QI in R2. rewrite <- app_assoc in R2. exact R2.
    + pose proof (freed_inv c x K F m R) as R1. pose proof (IH _ _ (Z.max m F) G C O2 ltac:(lia) R1) as R2. assert (last_opt (freed x m) = last_opt x) as L by (unfold freed, last_opt; destruct (m <? x_minfree x); reflexivity). rewrite L in R2.
      replace (Z.max F (Z.max m (freed_to h))) with (Z.max (Z.max m F) (freed_to h)) by lia. exact R2.
Qed.
Lemma init_inv c : c_gaps c = true -> rec_inv c (init c) [] 0.
Proof.
  intros G. unfold init. rewrite G. unfold rec_inv. cbn [x_nodes x_rate x_init x_index flat map concat last snd]. split; [split; [constructor | exact I]|]. split; [reflexivity|]. split; [reflexivity|]. split; [left; reflexivity|]. split; [intros _; split; reflexivity|]. split; [constructor|]. split; [constructor|].
  intros i _. cbn. unfold stands_for. split; [tauto|]. intros _. left. reflexivity.
Qed.
