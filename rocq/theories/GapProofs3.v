(* What is sent to the packager, and what is saved and read again. *)
From Coq Require Import ZArith List Bool Lia ZifyBool Arith.
From Verif Require Import Bytes GapModel GapSpec GapProofs GapProofs2.
Import ListNotations.
Open Scope Z_scope.

Lemma serve_rate x v i : wf (x_nodes x) -> x_init x = 0 -> 0 <= i -> rate_at v (write_serve x) i = rate_at 0 (flat (x_nodes x)) i.
Proof.
  intros (NO & _) I0 Hi. unfold write_serve. rewrite I0. destruct (x_nodes x) as [|n ns] eqn:Q.
  - cbn. assert (0 <=? i = true) as -> by lia. reflexivity.
  - fold (flat (n :: ns)). inversion NO as [|? ? (e & r & N1 & N2) _]; subst. rewrite N1. cbn [hd]. destruct (0 <? fst e) eqn:Q0.
    + cbn [app]. rewrite rate_cons. cbn [fst snd]. assert (0 <=? i = true) as -> by lia. reflexivity.
    + cbn [app]. change (flat (n :: ns)) with (n_elts n ++ flat ns). rewrite N1. cbn [app]. apply rate_hd. lia.
Qed.

(* ----- writing *)
Fixpoint upto (max : Z) (l : list elt) : list elt :=
  match l with [] => [] | e :: r => if fst e <=? max then e :: upto max r else [] end.
Lemma upto_none max l : Forall (fun e => max < fst e) l -> upto max l = [].
Proof. intros H. destruct l as [|e r]; [reflexivity|]. inversion H; subst. cbn [upto]. assert (fst e <=? max = false) as -> by lia. reflexivity. Qed.
Lemma upto_all max l : Forall (fun e => fst e <= max) l -> upto max l = l.
Proof. induction l as [|e r IH]; intros H; [reflexivity|]. inversion H; subst. cbn [upto]. assert (fst e <=? max = true) as -> by lia. rewrite IH by assumption. reflexivity. Qed.
Lemma upto_app max a b : inc (a ++ b) -> upto max (a ++ b) = upto max a ++ upto max b.
Proof.
  induction a as [|x a IH]; intros I; [reflexivity|]. cbn [app upto]. destruct (fst x <=? max) eqn:Q; [cbn [app]; f_equal; apply IH; exact (proj2 I)|].
  cbn [app]. symmetry. apply upto_none. pose proof (inc_lt x (a ++ b) I) as J. rewrite Forall_forall. intros f F. specialize (J f ltac:(apply in_app_iff; right; exact F)). lia.
Qed.
Lemma upto_rate max l v i : inc l -> i <= max -> rate_at v (upto max l) i = rate_at v l i.
Proof.
  revert v. induction l as [|e r IH]; intros v I H; [reflexivity|]. cbn [upto]. destruct (fst e <=? max) eqn:Q; [rewrite !rate_cons; apply IH; [exact (proj2 I) | exact H]|].
  symmetry. apply rate_after. pose proof (inc_lt e r I) as J. constructor; [lia|]. rewrite Forall_forall. intros f F. specialize (J f F). lia.
Qed.
Lemma upto_le max l : Forall (fun e => fst e <= max) (upto max l).
Proof. induction l as [|e r IH]; [constructor|]. cbn [upto]. destruct (fst e <=? max) eqn:Q; constructor; [lia | exact IH]. Qed.
Lemma upto_in max l e : In e (upto max l) -> In e l.
Proof. induction l as [|x r IH]; [tauto|]. cbn [upto]. destruct (fst x <=? max); [|intros []]. intros [->|H]; [left; reflexivity | right; apply IH, H]. Qed.
Lemma upto_inc max l : inc l -> inc (upto max l).
Proof. induction l as [|e r IH]; intros I; [exact I|]. cbn [upto]. destruct (fst e <=? max); [|exact Logic.I]. split; [|apply IH; exact (proj2 I)]. pose proof (inc_lt e r I) as J. rewrite Forall_forall. intros f F. apply J, (upto_in max), F. Qed.
Lemma trim_upto max l : inc l -> trim max l = upto max l.
Proof.
  induction l as [|e r IH]; intros I; [reflexivity|]. cbn [trim upto]. rewrite IH by exact (proj2 I). destruct (fst e <=? max) eqn:Q; [destruct (upto max r); reflexivity|].
  rewrite upto_none; [reflexivity|]. pose proof (inc_lt e r I) as J. rewrite Forall_forall. intros f F. specialize (J f F). lia.
Qed.
Lemma write_loop_upto max ns : forall l, l <> [] -> inc (l ++ flat ns) -> Forall node_ok ns -> write_loop max l ns = upto max (l ++ flat ns).
Proof.
  induction ns as [|n ns IH]; intros l NL I NO; cbn [write_loop].
  - change (flat []) with (@nil elt) in *. rewrite app_nil_r in *. rewrite trim_upto by exact I. destruct (upto max l); [reflexivity | rewrite app_nil_r; reflexivity].
  - inversion NO as [|? ? (e & r & N1 & N2) NB]; subst. pose proof I as I'. apply inc_app in I'. destruct I' as (Il & Ir & _). rewrite upto_app by exact I. rewrite trim_upto by exact Il. change (flat (n :: ns)) with (n_elts n ++ flat ns) in *.
    rewrite <- (IH (n_elts n) ltac:(rewrite N1; discriminate) Ir NB). destruct (upto max l) as [|x u] eqn:QU; [|reflexivity]. cbn [app]. rewrite (IH (n_elts n) ltac:(rewrite N1; discriminate) Ir NB). symmetry. apply upto_none.
    destruct l as [|y l]; [congruence|]. cbn [upto] in QU. destruct (fst y <=? max) eqn:Q; [discriminate QU|]. pose proof (inc_lt y (l ++ n_elts n ++ flat ns) I) as J. rewrite Forall_forall. intros f F. specialize (J f ltac:(apply in_app_iff; right; exact F)). lia.
Qed.
Lemma write_spec x t min max : wf (x_nodes x) -> tree_of t x ->
  match write_index x t min max with None => x_nodes x = [] | Some l => l = upto max (skip_to min (flat (x_nodes x))) end.
Proof.
  intros W T. unfold write_index. destruct (x_nodes x) as [|n0 ns0] eqn:QN.
  - unfold tree_of in T. rewrite QN in T. destruct t; [reflexivity | cbn in T; destruct (inorder t1); discriminate T].
  - rewrite <- QN in *. assert (x_nodes x <> []) as NE by (rewrite QN; discriminate). destruct (lookup_flat (x_nodes x) t min W T NE) as (i & n & L1 & L2 & L3 & L4). rewrite L1, L2, <- L3.
    apply write_loop_upto; [exact L4| |]. { rewrite L3. destruct (skip_facts min (flat (x_nodes x)) (proj2 W)) as (p & P1 & _). pose proof (proj2 W) as I. rewrite P1 in I. apply inc_app in I. tauto. }
    pose proof (proj1 W) as NO. rewrite <- (firstn_skipn (S i) (x_nodes x)) in NO. apply Forall_app in NO. tauto.
Qed.

(* ----- reading *)
Lemma fill_ge some max room : forall first min l acc, max < 2 ^ 32 - 1 -> 0 <= min -> inc l -> Forall (fun e => min <= fst e <= max) l ->
  exists first' min', fill some max room first min l acc = Some (acc ++ firstn room l, first', min', skipn room l) /\ 0 <= min' /\ Forall (fun e => min' <= fst e <= max) (skipn room l).
Proof.
  induction room as [|room IH]; intros first min l acc HM Hm I H.
  - exists first, min. rewrite firstn_O, skipn_O, app_nil_r. split; [destruct l; reflexivity|]. tauto.
  - destruct l as [|e r]; [exists first, min; cbn [fill firstn skipn]; rewrite app_nil_r; split; [reflexivity|]; split; [exact Hm | constructor]|]. inversion H as [|? ? H1 H2]; subst. cbn [fill firstn skipn]. assert (fst e <? min = false) as -> by lia. cbn [andb]. assert (max <? fst e = false) as -> by lia.
    assert (u32 (fst e + 1) = fst e + 1) as -> by (unfold u32; apply Z.mod_small; lia).
    destruct (IH false (fst e + 1) r (acc ++ [e]) HM ltac:(lia) (proj2 I)) as (f' & m' & E1 & E2 & E3).
    { pose proof (inc_lt e r I) as J. rewrite Forall_forall in *. intros f F. specialize (J f F). specialize (H2 f F). lia. }
    exists f', m'. rewrite E1, <- app_assoc. split; [reflexivity|]. tauto.
Qed.
(* the first of the block may be before it *)
Definition kept (some : bool) (min : Z) (l : list elt) : list elt :=
  match l with e :: r => if (fst e <? min) && some then r else l | [] => [] end.
Lemma fill_first some max room min l : max < 2 ^ 32 - 1 -> 0 <= min -> inc l -> Forall (fun e => 0 <= fst e <= max) l -> Forall (fun e => min <= fst e) (tl l) ->
  exists first' min', fill some max (S room) true min l [] = Some (firstn (S room) (kept some min l), first', min', skipn (S room) (kept some min l))
   /\ 0 <= min' /\ Forall (fun e => min' <= fst e <= max) (skipn (S room) (kept some min l)).
Proof.
  intros HM Hm I H T. destruct l as [|e r]; [exists true, min; cbn; split; [reflexivity|]; split; [lia | constructor]|]. cbn [tl] in T. inversion H as [|? ? H1 H2]; subst.
  assert (Forall (fun e => min <= fst e <= max) r) as HR. { rewrite Forall_forall in *. intros f F. specialize (T f F). specialize (H2 f F). lia. }
  cbn [kept]. destruct (fst e <? min) eqn:Q; [destruct some|].
  - cbn [fill]. rewrite Q. cbn [andb negb]. destruct (fill_ge true max (S room) false min r [] HM Hm (proj2 I) HR) as (f' & m' & E1 & E2 & E3). exists f', m'. cbn [app] in E1. tauto.
  - cbn [fill firstn skipn andb]. rewrite Q. cbn [andb negb]. assert (max <? fst e = false) as -> by lia. assert (u32 (fst e + 1) = fst e + 1) as -> by (unfold u32; apply Z.mod_small; lia).
    destruct (fill_ge false max room false (fst e + 1) r ([] ++ [e]) HM ltac:(lia) (proj2 I)) as (f' & m' & E1 & E2 & E3). { pose proof (inc_lt e r I) as J. rewrite Forall_forall in *. intros f F. specialize (J f F). specialize (H2 f F). lia. } exists f', m'. tauto.
  - cbn [andb]. destruct (fill_ge some max (S room) true min (e :: r) [] HM Hm I) as (f' & m' & E1 & E2 & E3); [constructor; [lia | exact HR]|]. exists f', m'. cbn [app] in E1. tauto.
Qed.

Lemma skipn_inc k : forall l, inc l -> inc (skipn k l).
Proof. induction k as [|k IH]; intros l I; [rewrite skipn_O; exact I|]. destruct l as [|e r]; [exact I|]. rewrite skipn_cons. apply IH, (proj2 I). Qed.
Lemma add_node ns o : Forall node_ok ns -> Forall node_ok (match o with [] => ns | e :: _ => ns ++ [Node (fst e) o] end) /\ flat (match o with [] => ns | e :: _ => ns ++ [Node (fst e) o] end) = flat ns ++ o.
Proof.
  intros H. destruct o as [|e o]; [rewrite app_nil_r; split; [exact H | reflexivity]|]. split; [apply Forall_app; split; [exact H|]; constructor; [|constructor]; exists e, o; split; reflexivity|].
  rewrite flat_app. f_equal. unfold flat. cbn [map concat n_elts]. apply app_nil_r.
Qed.
Lemma new_nodes_ge max fuel : forall first min l ns, (length l <= fuel)%nat -> max < 2 ^ 32 - 1 -> 0 <= min -> inc l -> Forall (fun e => min <= fst e <= max) l -> Forall node_ok ns ->
  exists ns', new_nodes fuel max first min l ns = Some ns' /\ flat ns' = flat ns ++ l /\ Forall node_ok ns'.
Proof.
  induction fuel as [|fuel IH]; intros first min l ns L HM Hm I H NO.
  - destruct l; [|cbn [length] in L; lia]. exists ns. rewrite app_nil_r. split; [reflexivity|]. tauto.
  - destruct l as [|e r]; [exists ns; rewrite app_nil_r; split; [reflexivity|]; tauto|]. cbn [new_nodes]. set (l := e :: r) in *.
    destruct (fill_ge (match ns with [] => false | _ => true end) max NODE_ELTS first min l [] HM Hm I H) as (f' & m' & E1 & E2 & E3). rewrite E1. cbn [app]. destruct (add_node ns (firstn NODE_ELTS l) NO) as [A1 A2].
    destruct (IH f' m' (skipn NODE_ELTS l) (match firstn NODE_ELTS l with [] => ns | e0 :: _ => ns ++ [Node (fst e0) (firstn NODE_ELTS l)] end)) as (ns' & X1 & X2 & X3); try assumption.
    { rewrite skipn_length. unfold NODE_ELTS, l in *. cbn [length] in *. lia. } { apply skipn_inc, I. }
    exists ns'. split; [exact X1|]. split; [|exact X3]. rewrite X2. etransitivity; [exact (f_equal (fun q => q ++ skipn NODE_ELTS l) A2)|]. cbv beta. rewrite <- app_assoc, firstn_skipn. reflexivity.
Qed.
Lemma new_nodes_first max fuel min l ns : (length l <= fuel)%nat -> max < 2 ^ 32 - 1 -> 0 <= min -> inc l -> Forall (fun e => 0 <= fst e <= max) l -> Forall (fun e => min <= fst e) (tl l) -> Forall node_ok ns ->
  exists ns', new_nodes fuel max true min l ns = Some ns' /\ flat ns' = flat ns ++ kept (match ns with [] => false | _ => true end) min l /\ Forall node_ok ns'.
Proof.
  intros L HM Hm I H T NO. destruct l as [|e r]; [exists ns; destruct fuel; cbn [new_nodes kept]; rewrite app_nil_r; split; try reflexivity; tauto|]. set (l := e :: r) in *. destruct fuel as [|fuel]; [unfold l in L; cbn [length] in L; lia|]. cbn [new_nodes]. unfold l at 1.
  destruct (fill_first (match ns with [] => false | _ => true end) max 119 min l HM Hm I H T) as (f' & m' & E1 & E2 & E3). change (S 119) with NODE_ELTS in *. rewrite E1. set (k := kept _ min l) in *. destruct (add_node ns (firstn NODE_ELTS k) NO) as [A1 A2].
  assert (inc k) as IK. { unfold k, kept, l. destruct (_ && _); [exact (proj2 I) | exact I]. } assert (length k <= length l)%nat as LK. { unfold k, kept, l. destruct (_ && _); cbn [length]; lia. }
  destruct (new_nodes_ge max fuel f' m' (skipn NODE_ELTS k) (match firstn NODE_ELTS k with [] => ns | e0 :: _ => ns ++ [Node (fst e0) (firstn NODE_ELTS k)] end)) as (ns' & X1 & X2 & X3); try assumption.
  { rewrite skipn_length. unfold NODE_ELTS, l in *. cbn [length] in *. lia. } { apply skipn_inc, IK. }
  exists ns'. split; [exact X1|]. split; [|exact X3]. rewrite X2. etransitivity; [exact (f_equal (fun q => q ++ skipn NODE_ELTS k) A2)|]. cbv beta. rewrite <- app_assoc, firstn_skipn. reflexivity.
Qed.
Lemma fill_last_ok ns o : ns <> [] -> Forall node_ok ns -> flat (fill_last ns o) = flat ns ++ o /\ Forall node_ok (fill_last ns o) /\ fill_last ns o <> [].
Proof.
  intros NE NO. unfold fill_last. pose proof (app_removelast_last (Node 0 []) NE) as E. set (n := last ns (Node 0 [])) in *. set (p := removelast ns) in *. clearbody n p. subst ns. rewrite !flat_app. apply Forall_app in NO. destruct NO as [N1 N2]. inversion N2 as [|? ? (e & r & M1 & M2) _]; subst.
  split; [unfold flat at 2 4; cbn [map concat n_elts]; rewrite !app_nil_r, app_assoc; reflexivity|]. split; [apply Forall_app; split; [exact N1|]; constructor; [|constructor]; exists e, (r ++ o); cbn [n_elts n_key]; rewrite M1; split; [reflexivity | exact M2]|]. intros X. apply app_eq_nil in X. destruct X as [_ X]. discriminate X.
Qed.
Lemma last_index_flat ns d : ns <> [] -> Forall node_ok ns -> last_index ns = fst (last (flat ns) d).
Proof.
  intros NE NO. unfold last_index. rewrite (app_removelast_last (Node 0 []) NE) at 2. rewrite flat_app. set (n := last ns (Node 0 [])). assert (In n ns) as IN. { unfold n. rewrite (app_removelast_last (Node 0 []) NE) at 2. apply in_app_iff. right. left. reflexivity. }
  rewrite Forall_forall in NO. destruct (NO n IN) as (e & r & M1 & _). unfold flat at 2. cbn [map concat]. rewrite app_nil_r, M1. clear. set (a := flat (removelast ns)). clearbody a. destruct (exists_last (l := e :: r) ltac:(discriminate)) as (q & z & ->). rewrite app_assoc, !last_last. reflexivity.
Qed.

Lemma last_flat ns : Forall node_ok ns -> last (n_elts (last ns (Node 0 []))) (0, 0) = last (flat ns) (0, 0).
Proof.
  intros NO. destruct ns as [|n0 ns0]; [reflexivity|]. assert (n0 :: ns0 <> []) as NE by discriminate. set (ns := n0 :: ns0) in *. clearbody ns. pose proof (app_removelast_last (Node 0 []) NE) as E. set (n := last ns (Node 0 [])) in *. set (p := removelast ns) in *. clearbody n p. subst ns. apply Forall_app in NO. destruct NO as [_ NO]. inversion NO as [|? ? (e & r & M1 & _) _]; subst.
  rewrite flat_app. unfold flat at 2. cbn [map concat]. rewrite app_nil_r, M1. destruct (exists_last (l := e :: r) ltac:(discriminate)) as (q & z & ->). rewrite app_assoc, !last_last. reflexivity.
Qed.

Lemma read_spec y min max l : wf (x_nodes y) -> Forall (fun e => fst e < min) (flat (x_nodes y)) -> max < 2 ^ 32 - 1 -> 0 <= min ->
  inc l -> Forall (fun e => 0 <= fst e <= max) l -> Forall (fun e => min <= fst e) (tl l) ->
  exists y', read_index y min max l = Some y' /\ Forall node_ok (x_nodes y') /\ x_init y' = x_init y /\ x_index y' = x_index y
    /\ (y' = y \/ x_rate y' = u32 (snd (last (flat (x_nodes y')) (0, 0)) * 100))
    /\ flat (x_nodes y') = flat (x_nodes y) ++ kept (match x_nodes y with [] => false | _ => true end) min l.
Proof.
  intros (NO & IY) LY HM Hm I H T. unfold read_index. destruct l as [|e r]; [exists y; cbn [kept]; rewrite app_nil_r; split; [reflexivity|]; split; [exact NO|]; split; [reflexivity|]; split; [reflexivity|]; split; [left; reflexivity | reflexivity]|]. set (l := e :: r) in *. unfold l at 1. destruct (x_nodes y) as [|n ns0] eqn:QN.
  - destruct (new_nodes_first max (length l) min l [] (Nat.le_refl _) HM Hm I H T NO) as (ns' & X1 & X2 & X3). cbv beta iota. fold l. rewrite X1. eexists. split; [reflexivity|]. cbn [x_nodes x_init x_index x_rate]. rewrite <- (last_flat _ X3). split; [exact X3|]. split; [reflexivity|]. split; [reflexivity|]. split; [right; reflexivity|]. exact X2.
  - assert (x_nodes y <> []) as NE by (rewrite QN; discriminate). rewrite <- QN in *. clear QN.
    assert (min <=? last_index (x_nodes y) = false) as ->. { rewrite (last_index_flat (x_nodes y) (0, 0) NE NO). rewrite Forall_forall in LY. specialize (LY (last (flat (x_nodes y)) (0, 0))). assert (flat (x_nodes y) <> []). { destruct (x_nodes y) as [|m q]; [congruence|]. inversion NO as [|? ? (f & s & M1 & _) _]; subst. unfold flat. cbn [map concat]. rewrite M1. discriminate. } specialize (LY (last_in _ _ H0)). lia. }
    set (room := (NODE_ELTS - length (n_elts (last (x_nodes y) (Node 0 []))))%nat). destruct room as [|room].
    + cbn [fill]. unfold l at 1. cbn [fill]. destruct (fill_last_ok (x_nodes y) [] NE NO) as (F1 & F2 & F3). rewrite app_nil_r in F1. destruct (new_nodes_first max (length l) min l (fill_last (x_nodes y) []) (Nat.le_refl _) HM Hm I H T F2) as (ns' & X1 & X2 & X3). fold l. rewrite X1. eexists. split; [reflexivity|]. cbn [x_nodes x_init x_index x_rate]. rewrite <- (last_flat _ X3). split; [exact X3|]. split; [reflexivity|]. split; [reflexivity|]. split; [right; reflexivity|]. rewrite F1 in X2. destruct (fill_last (x_nodes y) []); [congruence|]. exact X2.
    + destruct (fill_first true max room min l HM Hm I H T) as (f' & m' & E1 & E2 & E3). rewrite E1. set (k := kept true min l) in *. destruct (fill_last_ok (x_nodes y) (firstn (S room) k) NE NO) as (F1 & F2 & F3).
      assert (inc k) as IK. { unfold k, kept, l. destruct (_ && _); [exact (proj2 I) | exact I]. }
      destruct (new_nodes_ge max (length (skipn (S room) k)) f' m' (skipn (S room) k) (fill_last (x_nodes y) (firstn (S room) k)) (Nat.le_refl _) HM E2 (skipn_inc _ _ IK) E3 F2) as (ns' & X1 & X2 & X3). rewrite X1. eexists. split; [reflexivity|]. cbn [x_nodes x_init x_index x_rate]. rewrite <- (last_flat _ X3). split; [exact X3|]. split; [reflexivity|]. split; [reflexivity|]. split; [right; reflexivity|].
      rewrite F1, <- app_assoc, firstn_skipn in X2. exact X2.
Qed.
