From Coq Require Import List ZArith Bool Lia ZifyBool ZifyNat.
From Verif Require Import SegListModel SegListSpec.
Import ListNotations.
Local Open Scope Z_scope.

(* --- lists --- *)
Lemma unsnoc_none {A} (l : list A) : unsnoc l = None -> l = [].
Proof. destruct l as [|x r]; [auto|]. cbn. destruct (unsnoc r) as [[? ?]|]; discriminate. Qed.

Lemma unsnoc_some {A} (l : list A) p x : unsnoc l = Some (p, x) -> l = p ++ [x].
Proof.
  revert p x. induction l as [|y r IH]; intros p x H; [discriminate|]. cbn in H.
  destruct (unsnoc r) as [[i z]|] eqn:E.
  - injection H as <- <-. cbn. rewrite (IH i z eq_refl). reflexivity.
  - injection H as <- <-. rewrite (unsnoc_none _ E). reflexivity.
Qed.

Lemma unsnoc_snoc {A} (p : list A) x : unsnoc (p ++ [x]) = Some (p, x).
Proof. induction p as [|y p IH]; [reflexivity|]. cbn. rewrite IH. reflexivity. Qed.

(* --- counts --- *)
Fixpoint cnt (elts : list elt) : Z := match elts with [] => 0 | e :: r => e_cnt e + cnt r end.
Fixpoint dsum (elts : list elt) : Z := match elts with [] => 0 | e :: r => e_cnt e * e_dur e + dsum r end.

Lemma cnt_app a b : cnt (a ++ b) = cnt a + cnt b.
Proof. induction a as [|x a IH]; cbn [cnt app]; lia. Qed.
Lemma dsum_app a b : dsum (a ++ b) = dsum a + dsum b.
Proof. induction a as [|x a IH]; cbn [dsum app]; lia. Qed.

Lemma run_app n m i t d :
  run (n + m) i t d = run n i t d ++ run m (i + Z.of_nat n) (t + Z.of_nat n * d) d.
Proof.
  revert i t. induction n as [|n IH]; intros i t.
  - cbn [Nat.add run app]. f_equal; lia.
  - cbn [Nat.add run app]. rewrite IH. do 2 f_equal; f_equal; lia.
Qed.

Lemma expand_app a b i t :
  expand (a ++ b) i t = expand a i t ++ expand b (i + cnt a) (t + dsum a).
Proof.
  revert i t. induction a as [|x a IH]; intros i t; cbn [app expand cnt dsum].
  - f_equal; lia.
  - rewrite IH, <- app_assoc. do 2 f_equal; f_equal; lia.
Qed.

Definition okelt (e : elt) : Prop := 1 <= e_cnt e /\ 0 <= e_dur e.

Lemma run_length n i t d : length (run n i t d) = n.
Proof. revert i t; induction n as [|n IH]; intros; cbn; auto. Qed.

Lemma cnt_nonneg a : Forall okelt a -> 0 <= cnt a.
Proof. induction 1 as [|x a [H _] _ IH]; cbn [cnt]; lia. Qed.
Lemma dsum_nonneg a : Forall okelt a -> 0 <= dsum a.
Proof. induction 1 as [|x a [H H'] _ IH]; cbn [dsum]; nia. Qed.

Lemma expand_length a i t : Forall okelt a -> Z.of_nat (length (expand a i t)) = cnt a.
Proof.
  intros H. revert i t. induction H as [|x a [H _] _ IH]; intros i t; cbn [expand cnt]; [reflexivity|].
  rewrite app_length, run_length. specialize (IH (i + e_cnt x) (t + e_cnt x * e_dur x)). lia.
Qed.

Lemma expand_one d i t : expand [mk_elt 1 d] i t = [mk_seg i t d].
Proof. reflexivity. Qed.

Lemma expand_grow d c i t : 0 <= c ->
  expand [mk_elt (c + 1) d] i t = expand [mk_elt c d] i t ++ [mk_seg (i + c) (t + c * d) d].
Proof.
  intros H. cbn [expand e_cnt e_dur]. rewrite !app_nil_r.
  replace (Z.to_nat (c + 1)) with (Z.to_nat c + 1)%nat by lia.
  rewrite run_app. cbn [run]. rewrite Z2Nat.id by lia. reflexivity.
Qed.

Lemma expand_join d c c' i t : 0 <= c -> 0 <= c' ->
  expand [mk_elt (c + c') d] i t = expand [mk_elt c d] i t ++ expand [mk_elt c' d] (i + c) (t + c * d).
Proof.
  intros H H'. cbn [expand e_cnt e_dur]. rewrite !app_nil_r.
  replace (Z.to_nat (c + c')) with (Z.to_nat c + Z.to_nat c')%nat by lia.
  rewrite run_app. rewrite Z2Nat.id by lia. reflexivity.
Qed.

(* --- well-formed lists --- *)
Definition wf_node (n : node) : Prop :=
  n_elts n <> [] /\ (length (n_elts n) <= NODE_ELTS)%nat /\ Forall okelt (n_elts n) /\
  n_last n + 1 = n_key n + cnt (n_elts n).
Definition n_end (n : node) : Z := n_time n + dsum (n_elts n).
Definition link (a b : node) : Prop :=
  n_last a < n_key b /\ n_period a <= n_period b /\
  (n_period a = n_period b -> n_key b = n_last a + 1 /\ n_time b = n_end a).
Fixpoint linked (l : list node) : Prop :=
  match l with
  | a :: ((b :: _) as r) => link a b /\ linked r
  | _ => True
  end.
Fixpoint ecount (l : list node) : Z :=
  match l with [] => 0 | n :: r => Z.of_nat (length (n_elts n)) + ecount r end.
Fixpoint scount (l : list node) : Z :=
  match l with [] => 0 | n :: r => cnt (n_elts n) + scount r end.
Definition wf (l : slist) : Prop :=
  Forall wf_node (l_nodes l) /\ linked (l_nodes l) /\
  (forall p x, l_nodes l = p ++ [x] -> l_last_time l = n_end x) /\
  l_node_count l = Z.of_nat (length (l_nodes l)) /\
  l_elt_count l = ecount (l_nodes l) /\ l_seg_count l = scount (l_nodes l).

Lemma ecount_app a b : ecount (a ++ b) = ecount a + ecount b.
Proof. induction a as [|x a IH]; cbn [ecount app]; lia. Qed.
Lemma scount_app a b : scount (a ++ b) = scount a + scount b.
Proof. induction a as [|x a IH]; cbn [scount app]; lia. Qed.
Lemma segs_of_app a b : segs_of (a ++ b) = segs_of a ++ segs_of b.
Proof. unfold segs_of. apply flat_map_app. Qed.
Lemma segs_of_one x : segs_of [x] = node_segs x.
Proof. unfold segs_of. cbn. apply app_nil_r. Qed.
Lemma segs_of_length l : Forall wf_node l -> Z.of_nat (length (segs_of l)) = scount l.
Proof.
  induction 1 as [|n l W _ IH]; [reflexivity|]. unfold segs_of in *. cbn [flat_map scount].
  rewrite app_length. unfold node_segs at 1. destruct W as (_ & _ & W & _).
  pose proof (expand_length (n_elts n) (n_key n) (n_time n) W). lia.
Qed.

Lemma linked_snoc p x :
  linked (p ++ [x]) <-> linked p /\ (forall q y, p = q ++ [y] -> link y x).
Proof.
  induction p as [|a p IH].
  - cbn. split; [intros _; split; auto; intros [|? ?] ? E; discriminate|auto].
  - destruct p as [|b p].
    + cbn. split.
      * intros [H _]. split; auto. intros q y E. destruct q as [|z [|? ?]]; cbn in E; try discriminate. congruence.
      * intros [_ H]. split; auto. apply (H [] a eq_refl).
    + change (linked ((a :: b :: p) ++ [x])) with (link a b /\ linked ((b :: p) ++ [x])).
      change (linked (a :: b :: p)) with (link a b /\ linked (b :: p)). rewrite IH. split.
      * intros (H & H1 & H2). split; [split; assumption|].
        intros q y E. destruct q as [|z q]; cbn in E; [discriminate|]. injection E as <- E. exact (H2 q y E).
      * intros ((H & H1) & H2). split; [exact H|]. split; auto. intros q y E. apply (H2 (a :: q) y). cbn. rewrite E. reflexivity.
Qed.

Lemma snoc_inj {A} (p q : list A) x y : p ++ [x] = q ++ [y] -> p = q /\ x = y.
Proof. apply app_inj_tail. Qed.

Lemma wf_last l p x : wf l -> l_nodes l = p ++ [x] ->
  wf_node x /\ Forall wf_node p /\ linked p /\ (forall q y, p = q ++ [y] -> link y x) /\ l_last_time l = n_end x.
Proof.
  intros (H1 & H2 & H3 & _) E. pose proof (H3 _ _ E) as H4. rewrite E in H1, H2.
  apply Forall_app in H1 as [H1 H1']. inversion H1'; subst. apply linked_snoc in H2 as [H2 H2']. auto.
Qed.

(* replacing the last node *)
Lemma link_same y x x' : link y x -> n_key x' = n_key x -> n_time x' = n_time x -> n_period x' = n_period x -> link y x'.
Proof. unfold link. intros (A & B & C) -> -> ->. auto. Qed.

Lemma wf_snoc p x nc ec sc lt :
  Forall wf_node p -> linked p -> wf_node x -> (forall q y, p = q ++ [y] -> link y x) ->
  nc = Z.of_nat (length p) + 1 -> ec = ecount p + Z.of_nat (length (n_elts x)) -> sc = scount p + cnt (n_elts x) ->
  lt = n_end x -> wf (mk_slist (p ++ [x]) nc ec sc lt).
Proof.
  intros A B C D E F G H. unfold wf. cbn [l_nodes l_node_count l_elt_count l_seg_count l_last_time].
  split; [apply Forall_app; auto|]. split; [apply linked_snoc; auto|].
  split; [intros q y E'; apply snoc_inj in E' as [_ <-]; exact H|].
  split; [rewrite app_length; cbn; lia|]. rewrite ecount_app, scount_app. cbn [ecount scount]. lia.
Qed.

Lemma okelt_app a b : Forall okelt (a ++ b) <-> Forall okelt a /\ Forall okelt b.
Proof. apply Forall_app. Qed.

(* the last element of a node *)
Lemma node_last x p e : wf_node x -> n_elts x = p ++ [e] ->
  Forall okelt p /\ okelt e /\ n_last x + 1 = n_key x + cnt p + e_cnt e /\
  n_end x = n_time x + dsum p + e_cnt e * e_dur e /\
  node_segs x = expand p (n_key x) (n_time x) ++ expand [e] (n_key x + cnt p) (n_time x + dsum p).
Proof.
  intros (_ & _ & F & L) E. rewrite E in F, L. apply okelt_app in F as [F F2]. inversion F2; subst.
  split; auto. split; auto. rewrite cnt_app in L. cbn [cnt] in L. split; [lia|].
  unfold n_end, node_segs. rewrite E, dsum_app, expand_app. cbn [dsum]. split; [lia|reflexivity].
Qed.

Lemma wf_add_node l period i t d l' : wf l -> 0 <= d ->
  (forall q y, l_nodes l = q ++ [y] -> link y (mk_node i t i period [mk_elt 1 d])) ->
  add_node l true period i t d = Some l' -> wf l' /\ segs l' = segs l ++ [mk_seg i t d].
Proof.
  intros W D L H. injection H as <-. pose proof W as (W1 & W2 & W3 & W4 & W5 & W6). split.
  - apply wf_snoc; auto.
    + unfold wf_node. cbn [n_elts n_last n_key cnt e_cnt length]. split; [discriminate|]. split; [unfold NODE_ELTS; lia|].
      split; [repeat constructor; cbn; lia|lia].
    + lia.
    + cbn. lia.
    + cbn. lia.
    + unfold n_end. cbn [n_time n_elts dsum e_cnt e_dur]. lia.
  - unfold segs. cbn [l_nodes]. rewrite segs_of_app, segs_of_one. reflexivity.
Qed.

Lemma seg_add_ok l alloc i t d l' : wf l -> 0 <= d -> (forall q y, l_nodes l = q ++ [y] -> n_last y < i) ->
  seg_add l alloc i t d = Some l' -> wf l' /\ segs l' = segs l ++ [mk_seg i t d].
Proof.
  intros W D L H. unfold seg_add in H. destruct (unsnoc (l_nodes l)) as [[pre last]|] eqn:E.
  - apply unsnoc_some in E. pose proof (wf_last _ _ _ W E) as (Wx & Wp & Lp & Ll & LT). specialize (L _ _ E).
    destruct ((t =? l_last_time l) && (i =? n_last last + 1)) eqn:C.
    + apply andb_prop in C as [C1 C2]. apply Z.eqb_eq in C1, C2.
      destruct (unsnoc (n_elts last)) as [[epre e]|] eqn:E2; [|discriminate]. apply unsnoc_some in E2.
      pose proof (node_last _ _ _ Wx E2) as (O1 & O2 & K1 & K2 & K3). pose proof Wx as (_ & NL & _ & _).
      pose proof W as (_ & _ & _ & W4 & W5 & W6). rewrite E in W4, W5, W6. rewrite app_length in W4. rewrite ecount_app in W5.
      rewrite scount_app in W6. cbn [length ecount scount] in W4, W5, W6.
      destruct (e_dur e =? d) eqn:C3.
      * apply Z.eqb_eq in C3. injection H as <-. split.
        -- apply wf_snoc; auto.
           ++ unfold wf_node. cbn [n_elts n_last n_key]. split; [destruct epre; discriminate|].
              rewrite app_length in *. rewrite E2, app_length in NL. cbn [length] in *. split; [lia|].
              split; [apply okelt_app; split; auto; repeat constructor; cbn; unfold okelt in O2; lia|].
              rewrite cnt_app. cbn [cnt e_cnt]. lia.
           ++ lia.
           ++ cbn [n_elts]. rewrite app_length. rewrite E2, app_length in W5. cbn [length] in *. lia.
           ++ cbn [n_elts]. rewrite cnt_app. rewrite E2, cnt_app in W6. cbn [cnt e_cnt] in *. lia.
           ++ unfold n_end. cbn [n_elts n_time]. rewrite dsum_app. cbn [dsum e_cnt e_dur]. lia.
        -- unfold segs. cbn [l_nodes]. rewrite E, !segs_of_app, !segs_of_one. unfold node_segs at 1. cbn [n_elts n_key n_time].
           rewrite K3, expand_app, <- !app_assoc. do 2 f_equal. destruct e as [ec ed]; cbn [e_cnt e_dur] in *. unfold okelt in O2; cbn in O2.
           rewrite expand_grow by lia. do 2 f_equal. f_equal; lia.
      * destruct (Nat.ltb (length (n_elts last)) NODE_ELTS) eqn:C4.
        -- apply Nat.ltb_lt in C4. injection H as <-. split.
           ++ apply wf_snoc; auto.
              ** unfold wf_node. cbn [n_elts n_last n_key]. split; [destruct (n_elts last); discriminate|].
                 rewrite app_length. cbn [length]. split; [lia|]. split; [apply okelt_app; split; [apply Wx|repeat constructor; cbn; lia]|].
                 rewrite cnt_app. cbn [cnt e_cnt]. destruct Wx as (_ & _ & _ & WL). lia.
              ** lia.
              ** cbn [n_elts]. rewrite app_length. cbn [length]. lia.
              ** cbn [n_elts]. rewrite cnt_app. cbn [cnt e_cnt]. lia.
              ** unfold n_end in *. cbn [n_elts n_time]. rewrite dsum_app. cbn [dsum e_cnt e_dur]. lia.
           ++ unfold segs. cbn [l_nodes]. rewrite E, !segs_of_app, !segs_of_one. unfold node_segs at 1. cbn [n_elts n_key n_time].
              rewrite expand_app, <- !app_assoc. unfold node_segs. do 2 f_equal.
              rewrite expand_one. destruct Wx as (_ & _ & _ & WL). unfold n_end in *. do 2 f_equal; lia.
        -- destruct alloc; [|discriminate]. eapply wf_add_node; eauto. intros q y Eq. rewrite E in Eq.
           apply snoc_inj in Eq as [_ <-]. unfold link. cbn [n_key n_period n_time]. repeat split; lia.
    + destruct alloc; [|discriminate]. eapply wf_add_node; eauto. intros q y Eq. rewrite E in Eq.
      apply snoc_inj in Eq as [_ <-]. unfold link. cbn [n_key n_period n_time]. repeat split; lia.
  - apply unsnoc_none in E. destruct alloc; [|discriminate]. eapply wf_add_node; eauto. intros q y Eq. rewrite E in Eq.
    destruct q; discriminate.
Qed.

Lemma seg_add_total l i t d : wf l -> seg_add l true i t d <> None.
Proof.
  intros W. unfold seg_add, add_node. destruct (unsnoc (l_nodes l)) as [[pre last]|] eqn:E; [|discriminate].
  apply unsnoc_some in E. pose proof (wf_last _ _ _ W E) as ((NE & _) & _).
  destruct (unsnoc (n_elts last)) as [[epre e]|] eqn:E2; [|apply unsnoc_none in E2; contradiction].
  repeat match goal with |- context [if ?b then _ else _] => destruct b end; discriminate.
Qed.

Lemma set_last_dur_snoc l s d : set_last_dur (l ++ [s]) d = l ++ [mk_seg (s_index s) (s_time s) d].
Proof.
  induction l as [|x l IH]; [reflexivity|]. cbn [app]. rewrite <- IH. cbn [set_last_dur].
  destruct (l ++ [s]) eqn:E; [destruct l; discriminate|reflexivity].
Qed.

Lemma update_last_ok l d l' : wf l -> 0 <= d -> update_last l d = Some l' ->
  wf l' /\ exists pre s, segs l = pre ++ [s] /\ s_dur s = PENDING /\ segs l' = pre ++ [mk_seg (s_index s) (s_time s) d].
Proof.
  intros W D H. unfold update_last in H. destruct (unsnoc (l_nodes l)) as [[pre last]|] eqn:E; [|discriminate].
  apply unsnoc_some in E. pose proof (wf_last _ _ _ W E) as (Wx & Wp & Lp & Ll & LT).
  destruct (unsnoc (n_elts last)) as [[epre e]|] eqn:E2; [|discriminate]. apply unsnoc_some in E2.
  pose proof (node_last _ _ _ Wx E2) as (O1 & O2 & K1 & K2 & K3). pose proof Wx as (_ & NL & _ & _).
  pose proof W as (_ & _ & _ & W4 & W5 & W6). rewrite E in W4, W5, W6. rewrite app_length in W4. rewrite ecount_app in W5.
  rewrite scount_app in W6. cbn [length ecount scount] in W4, W5, W6.
  destruct (e_cnt e =? 1) eqn:C1; [|discriminate]. destruct (e_dur e =? PENDING) eqn:C2; [|discriminate].
  apply Z.eqb_eq in C1, C2. cbn [negb] in H. unfold PENDING in *. destruct e as [ec ed]; cbn [e_cnt e_dur] in *. subst ec ed.
  rewrite expand_one in K3. rewrite E2, app_length in NL, W5. cbn [length] in NL, W5. rewrite E2, cnt_app in W6. cbn [cnt e_cnt] in W6.
  assert (SG : segs l = (segs_of pre ++ expand epre (n_key last) (n_time last)) ++ [mk_seg (n_key last + cnt epre) (n_time last + dsum epre) 0]).
  { unfold segs. rewrite E, segs_of_app, segs_of_one, K3, app_assoc. reflexivity. }
  set (use_new := Some (mk_slist (pre ++ [mk_node (n_key last) (n_time last) (n_last last) (n_period last) (epre ++ [mk_elt 1 d])])
                      (l_node_count l) (l_elt_count l) (l_seg_count l) (l_last_time l + d))) in H.
  assert (NEW : use_new = Some l' -> wf l' /\ exists pre s, segs l = pre ++ [s] /\ s_dur s = 0 /\ segs l' = pre ++ [mk_seg (s_index s) (s_time s) d]).
  { intros U. injection U as <-. split.
    - apply wf_snoc; auto.
      + unfold wf_node. cbn [n_elts n_last n_key]. split; [destruct epre; discriminate|].
        rewrite app_length. cbn [length]. split; [lia|]. split; [apply okelt_app; split; auto; repeat constructor; cbn; lia|].
        rewrite cnt_app. cbn [cnt e_cnt]. lia.
      + lia.
      + cbn [n_elts]. rewrite app_length. cbn [length]. lia.
      + cbn [n_elts]. rewrite cnt_app. cbn [cnt e_cnt]. lia.
      + unfold n_end. cbn [n_elts n_time]. rewrite dsum_app. cbn [dsum e_cnt e_dur]. lia.
    - do 2 eexists. split; [exact SG|]. split; [reflexivity|]. cbn [s_index s_time]. unfold segs. cbn [l_nodes].
      rewrite segs_of_app, segs_of_one. unfold node_segs. cbn [n_elts n_key n_time]. rewrite expand_app, expand_one, app_assoc. reflexivity. }
  destruct (unsnoc epre) as [[epre2 e2]|] eqn:E3.
  - destruct (e_dur e2 =? d) eqn:C3; [|exact (NEW H)]. clear NEW use_new. apply Z.eqb_eq in C3. apply unsnoc_some in E3. subst epre.
    injection H as <-. apply okelt_app in O1 as [O1 O3]. inversion O3 as [|? ? O4 _]; subst. rewrite cnt_app in *. rewrite dsum_app in *.
    rewrite app_length in *. cbn [cnt dsum length] in *. unfold okelt in O4. split.
    + apply wf_snoc; auto.
      * unfold wf_node. cbn [n_elts n_last n_key]. split; [destruct epre2; discriminate|].
        rewrite app_length. cbn [length]. split; [lia|]. split; [apply okelt_app; split; auto; repeat constructor; cbn; lia|].
        rewrite cnt_app. cbn [cnt e_cnt]. lia.
      * lia.
      * cbn [n_elts]. rewrite app_length. cbn [length]. lia.
      * cbn [n_elts]. rewrite cnt_app. cbn [cnt e_cnt]. lia.
      * unfold n_end. cbn [n_elts n_time]. rewrite dsum_app. cbn [dsum e_cnt e_dur]. lia.
    + do 2 eexists. split; [exact SG|]. split; [reflexivity|]. cbn [s_index s_time]. unfold segs. cbn [l_nodes].
      rewrite segs_of_app, segs_of_one. unfold node_segs. cbn [n_elts n_key n_time]. rewrite !expand_app, <- !app_assoc. do 2 f_equal.
      destruct e2 as [c2 d2]; cbn [e_cnt e_dur] in *. rewrite expand_grow by lia. do 2 f_equal. f_equal; lia.
  - apply unsnoc_none in E3. subst epre. destruct (unsnoc pre) as [[pre2 prev]|] eqn:E4; [|exact (NEW H)].
    apply unsnoc_some in E4. subst pre. destruct (n_period prev =? n_period last) eqn:C3; [|exact (NEW H)]. cbn [negb] in H.
    apply Z.eqb_eq in C3. destruct (unsnoc (n_elts prev)) as [[pepre pe]|] eqn:E5; [|discriminate].
    destruct (e_dur pe =? d) eqn:C4; [|exact (NEW H)]. clear NEW use_new. apply Z.eqb_eq in C4. apply unsnoc_some in E5.
    injection H as <-. apply Forall_app in Wp as [Wp Wp']. inversion Wp' as [|? ? Wprev _]; subst. apply linked_snoc in Lp as [Lp Lp'].
    pose proof (node_last _ _ _ Wprev E5) as (P1 & P2 & J1 & J2 & J3).
    pose proof (Ll pre2 prev eq_refl) as (_ & _ & LK). specialize (LK C3) as [LK1 LK2].
    rewrite app_length in W4. rewrite ecount_app in W5. rewrite scount_app in W6. cbn [length ecount scount] in W4, W5, W6.
    rewrite E5, app_length in W5. rewrite E5, cnt_app in W6. cbn [cnt dsum length app e_cnt e_dur] in *. unfold okelt in P2. rewrite E2.
    pose proof Wprev as (_ & NLp & _ & _). rewrite E5, app_length in NLp. cbn [length] in NLp. split.
    + apply wf_snoc; auto.
      * unfold wf_node. cbn [n_elts n_last n_key]. split; [destruct pepre; discriminate|].
        rewrite app_length. cbn [length]. split; [lia|]. split; [apply okelt_app; split; auto; repeat constructor; cbn; lia|].
        rewrite cnt_app. cbn [cnt e_cnt]. lia.
      * lia.
      * cbn [n_elts length]. rewrite app_length. cbn [length]. lia.
      * cbn [n_elts]. rewrite cnt_app. cbn [cnt e_cnt]. lia.
      * unfold n_end. cbn [n_elts n_time]. rewrite dsum_app. cbn [dsum e_cnt e_dur]. lia.
    + do 2 eexists. split; [exact SG|]. split; [reflexivity|]. cbn [s_index s_time]. unfold segs. cbn [l_nodes].
      rewrite !segs_of_app, !segs_of_one. cbn [expand]. rewrite app_nil_r. rewrite J3. unfold node_segs. cbn [n_elts n_key n_time].
      rewrite !expand_app, <- !app_assoc. do 2 f_equal.
      destruct pe as [c2 d2]; cbn [e_cnt e_dur] in *. rewrite expand_grow by lia. do 2 f_equal. f_equal; lia.
Qed.

(* free *)
Lemma free_loop_ok min nodes : forall nc ec sc, Forall wf_node nodes ->
  exists dropped kept, nodes = dropped ++ kept /\ (nodes <> [] -> kept <> []) /\
    free_loop nodes nc ec sc min = (kept, nc - Z.of_nat (length dropped), ec - ecount dropped, sc - scount dropped) /\
    (forall a b r, kept = a :: b :: r -> min <= n_key b) /\
    (linked nodes -> Forall (fun n => n_last n < min) dropped).
Proof.
  induction nodes as [|n nodes IH]; intros nc ec sc W.
  - exists [], []. cbn. repeat split; auto; try discriminate. repeat match goal with |- (_, _) = (_, _) => f_equal end; lia.
  - destruct nodes as [|next r].
    + exists [], [n]. cbn. repeat split; auto; try discriminate. repeat match goal with |- (_, _) = (_, _) => f_equal end; lia.
    + change (free_loop (n :: next :: r) nc ec sc min) with
        (if min <=? n_key next then (n :: next :: r, nc, ec, sc)
         else free_loop (next :: r) (nc - 1) (ec - Z.of_nat (length (n_elts n))) (sc - (n_last n + 1 - n_key n)) min).
      destruct (min <=? n_key next) eqn:C.
      * exists [], (n :: next :: r). cbn [app length ecount scount Z.of_nat].
        split; [reflexivity|]. split; [discriminate|]. split; [change (Z.of_nat 0) with 0; rewrite !Z.sub_0_r; reflexivity|]. split; [|constructor].
        intros a b r' E'. injection E' as <- <- <-. lia.
      * inversion W as [|? ? Wn Wr]; subst. specialize (IH (nc - 1) (ec - Z.of_nat (length (n_elts n))) (sc - (n_last n + 1 - n_key n)) Wr).
        destruct IH as (dropped & kept & E & NE & F & K & L). exists (n :: dropped), kept. split; [cbn [app]; rewrite <- E; reflexivity|].
        split; [intros _; apply NE; discriminate|]. split.
        { rewrite F. cbn [length ecount scount]. destruct Wn as (_ & _ & _ & WL). repeat match goal with |- (_, _) = (_, _) => f_equal end; lia. }
        split; [exact K|]. intros LK. change (link n next /\ linked (next :: r)) in LK. destruct LK as [(L1 & _) L2].
        constructor; [lia|auto].
Qed.

Lemma linked_app_r a b : linked (a ++ b) -> linked b.
Proof.
  induction a as [|x a IH]; [auto|]. intros H. apply IH. cbn [app] in H. destruct (a ++ b) as [|y r] eqn:E; [exact Logic.I|].
  apply H.
Qed.

Lemma free_nodes_ok l min : wf l ->
  wf (free_nodes l min) /\
  exists dropped kept, l_nodes l = dropped ++ kept /\ (l_nodes l <> [] -> kept <> []) /\ l_nodes (free_nodes l min) = kept /\
    (forall a b r, kept = a :: b :: r -> min <= n_key b) /\ Forall (fun n => n_last n < min) dropped.
Proof.
  intros (W1 & W2 & W3 & W4 & W5 & W6). unfold free_nodes.
  destruct (free_loop_ok min (l_nodes l) (l_node_count l) (l_elt_count l) (l_seg_count l) W1) as (dr & ke & E & NE & F & K & L).
  rewrite F. split.
  - unfold wf. cbn [l_nodes l_node_count l_elt_count l_seg_count l_last_time]. rewrite E in W1, W2, W4, W5, W6.
    rewrite app_length in W4. rewrite ecount_app in W5. rewrite scount_app in W6.
    apply Forall_app in W1 as [_ W1]. apply linked_app_r in W2. repeat split; auto; try lia.
    intros p x Ek. apply (W3 (dr ++ p) x). rewrite E, Ek, app_assoc. reflexivity.
  - exists dr, ke. cbn [l_nodes]. auto 6.
Qed.

(* --- the index of the segments --- *)
Lemma run_bounds n i t d s : In s (run n i t d) -> i <= s_index s < i + Z.of_nat n.
Proof.
  revert i t. induction n as [|n IH]; intros i t H; [destruct H|]. destruct H as [<-|H]; [cbn; lia|].
  apply IH in H. lia.
Qed.
Lemma expand_bounds a i t s : Forall okelt a -> In s (expand a i t) -> i <= s_index s < i + cnt a.
Proof.
  intros O. revert i t. induction O as [|e a [O _] Oa IH]; intros i t H; [destruct H|].
  cbn [expand cnt] in *. apply in_app_or in H as [H|H].
  - apply run_bounds in H. pose proof (cnt_nonneg _ Oa). lia.
  - apply IH in H. lia.
Qed.
Lemma node_bounds n s : wf_node n -> In s (node_segs n) -> n_key n <= s_index s <= n_last n.
Proof. intros (_ & _ & O & L) H. apply expand_bounds in H; [lia|auto]. Qed.

Lemma node_segs_last n : wf_node n -> exists s p, node_segs n = p ++ [s] /\ s_index s = n_last n /\ s_end s = n_end n.
Proof.
  intros W. pose proof W as (NE & _). destruct (unsnoc (n_elts n)) as [[p e]|] eqn:E; [|apply unsnoc_none in E; contradiction].
  apply unsnoc_some in E. pose proof (node_last _ _ _ W E) as (O1 & [O2 O3] & K1 & K2 & K3). destruct e as [c d]; cbn [e_cnt e_dur] in *.
  replace c with ((c - 1) + 1) in K3 by lia. rewrite expand_grow, app_assoc in K3 by lia.
  do 2 eexists. split; [exact K3|]. unfold s_end. cbn [s_index s_time s_dur]. lia.
Qed.
