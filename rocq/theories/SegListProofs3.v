From Coq Require Import List ZArith Bool Lia ZifyBool ZifyNat.
From Verif Require Import SegListModel SegListSpec SegListProofs SegListProofs2.
Import ListNotations.
Local Open Scope Z_scope.

(* --- writing --- *)
Definition upto (max : Z) (s : seg) : bool := s_index s <=? max.

Lemma filter_all {A} f (l : list A) : (forall x, In x l -> f x = true) -> filter f l = l.
Proof.
  induction l as [|x l IH]; intros H; [reflexivity|]. cbn. rewrite (H x (or_introl eq_refl)), IH; [reflexivity|]. intros y Hy; apply H; right; exact Hy.
Qed.
Lemma filter_none {A} f (l : list A) : (forall x, In x l -> f x = false) -> filter f l = [].
Proof.
  induction l as [|x l IH]; intros H; [reflexivity|]. cbn. rewrite (H x (or_introl eq_refl)), IH; [reflexivity|]. intros y Hy; apply H; right; exact Hy.
Qed.

Lemma write_part_ok max rest : forall e idx t, okelt e -> Forall okelt rest -> idx <= max ->
  expand (write_part e rest idx (max + 1)) idx t = filter (upto max) (expand (e :: rest) idx t) /\
  Forall okelt (write_part e rest idx (max + 1)) /\ write_part e rest idx (max + 1) <> [] /\
  (idx + cnt (e :: rest) <= max + 1 -> cnt (write_part e rest idx (max + 1)) = cnt (e :: rest) /\ dsum (write_part e rest idx (max + 1)) = dsum (e :: rest)).
Proof.
  induction rest as [|c r IH]; intros e idx t [O1 O2] O I; unfold write_part; fold write_part.
  - destruct (max + 1 <=? idx + e_cnt e) eqn:C.
    + split; [|split; [repeat constructor; cbn; lia|split; [discriminate|]]].
      * cbn [expand e_cnt e_dur]. rewrite !app_nil_r.
        replace (Z.to_nat (e_cnt e)) with (Z.to_nat (max + 1 - idx) + Z.to_nat (e_cnt e - (max + 1 - idx)))%nat by lia.
        rewrite run_app, filter_app, filter_all, filter_none; [symmetry; apply app_nil_r| |].
        -- intros x Hx. apply run_bounds in Hx. unfold upto. lia.
        -- intros x Hx. apply run_bounds in Hx. unfold upto. lia.
      * cbn [cnt dsum e_cnt e_dur]. intros H. replace (max + 1 - idx) with (e_cnt e) by lia. lia.
    + split; [|split; [repeat constructor; cbn; lia|split; [discriminate|]]].
      * rewrite filter_all; [reflexivity|]. intros x Hx. apply expand_bounds in Hx; [|repeat constructor; auto]. cbn [cnt] in Hx. unfold upto. lia.
      * intros _. split; reflexivity.
  - inversion O as [|? ? Oc Or]; subst. destruct (max + 1 <=? idx + e_cnt e) eqn:C.
    + split; [|split; [repeat constructor; cbn; lia|split; [discriminate|]]].
      * change (expand (e :: c :: r) idx t) with (run (Z.to_nat (e_cnt e)) idx t (e_dur e) ++ expand (c :: r) (idx + e_cnt e) (t + e_cnt e * e_dur e)).
        cbn [expand e_cnt e_dur]. rewrite app_nil_r, filter_app.
        rewrite (filter_none _ (_ ++ _)).
        -- rewrite app_nil_r. replace (Z.to_nat (e_cnt e)) with (Z.to_nat (max + 1 - idx) + Z.to_nat (e_cnt e - (max + 1 - idx)))%nat by lia.
           rewrite run_app, filter_app, filter_all, filter_none; [symmetry; apply app_nil_r| |].
           ++ intros x Hx. apply run_bounds in Hx. unfold upto. lia.
           ++ intros x Hx. apply run_bounds in Hx. unfold upto. lia.
        -- intros x Hx. change (In x (expand (c :: r) (idx + e_cnt e) (t + e_cnt e * e_dur e))) in Hx. apply expand_bounds in Hx; [|auto]. unfold upto. lia.
      * cbn [cnt]. destruct Oc. pose proof (cnt_nonneg _ Or). intros HH. lia.
    + destruct (IH c (idx + e_cnt e) (t + e_cnt e * e_dur e) Oc Or ltac:(lia)) as (A1 & A2 & A3 & A4).
      split; [|split; [constructor; [split; auto|exact A2]|split; [discriminate|]]].
      * change (expand (e :: c :: r) idx t) with (run (Z.to_nat (e_cnt e)) idx t (e_dur e) ++ expand (c :: r) (idx + e_cnt e) (t + e_cnt e * e_dur e)).
        cbn [expand]. rewrite A1, filter_app. f_equal. symmetry. apply filter_all. intros x Hx. apply run_bounds in Hx. unfold upto. lia.
      * intros H. change (cnt (e :: c :: r)) with (e_cnt e + cnt (c :: r)) in *. change (dsum (e :: c :: r)) with (e_cnt e * e_dur e + dsum (c :: r)).
        specialize (A4 ltac:(lia)) as [A4 A5]. cbn [cnt dsum]. cbn [cnt dsum] in A4, A5. lia.
Qed.

Definition block_ok (b : block) : Prop := Forall okelt (b_elts b) /\ b_elts b <> [].
Definition blocks_segs (bs : list block) : list seg := flat_map block_segs bs.

Lemma write_loop_ok max nodes : forall period cur, Forall wf_node nodes -> linked nodes -> block_ok cur ->
  (forall n r, nodes = n :: r -> n_key n <= max -> n_period n = period -> n_key n = b_index cur + cnt (b_elts cur) /\ n_time n = b_time cur + dsum (b_elts cur)) ->
  blocks_segs (write_loop nodes max period cur) = block_segs cur ++ filter (upto max) (segs_of nodes) /\
  Forall block_ok (write_loop nodes max period cur).
Proof.
  induction nodes as [|n nodes IH]; intros period cur W L OK H.
  - cbn. rewrite !app_nil_r. split; [reflexivity|]. constructor; auto.
  - cbn [write_loop]. inversion W as [|? ? Wn Wr]; subst. pose proof Wn as (NE & _ & O & LL).
    assert (GT : max < n_last n -> filter (upto max) (segs_of nodes) = []).
    { intros G. apply filter_none. intros x Hx. apply in_segs_nodes in Hx as (i & m & Hm & Hx).
      pose proof (nodes_lt (n :: nodes) 0 (S i) n m W L eq_refl Hm ltac:(lia)).
      apply node_bounds in Hx; [unfold upto; lia|]. eapply Forall_forall; [exact Wr|eapply nth_error_In; eauto]. }
    change (segs_of (n :: nodes)) with (node_segs n ++ segs_of nodes). rewrite filter_app.
    destruct (max <? n_key n) eqn:C1.
    + pose proof (node_key_le _ Wn). rewrite GT by lia. rewrite filter_none.
      * cbn. rewrite !app_nil_r. split; [reflexivity|constructor; auto].
      * intros x Hx. apply node_bounds in Hx; [unfold upto; lia|auto].
    + specialize (H n nodes eq_refl ltac:(lia)).
      set (same := n_period n =? period). set (cur2 := if same then cur else mk_block (n_time n) (n_key n) []).
      assert (CU : n_key n = b_index cur2 + cnt (b_elts cur2) /\ n_time n = b_time cur2 + dsum (b_elts cur2)).
      { subst cur2. destruct same eqn:Es; [apply H; subst same; lia|]. cbn. lia. }
      assert (OU : Forall okelt (b_elts cur2)) by (subst cur2; destruct same; [apply OK|constructor]).
      assert (SU : blocks_segs (if same then [] else [cur]) ++ block_segs cur2 = block_segs cur).
      { subst cur2. destruct same; [reflexivity|]. cbn. rewrite !app_nil_r. reflexivity. }
      assert (OH : Forall block_ok (if same then [] else [cur])) by (destruct same; constructor; auto).
      assert (AP : forall bs, blocks_segs ((if same then [] else [cur]) ++ bs) = blocks_segs (if same then [] else [cur]) ++ blocks_segs bs) by (intros; apply flat_map_app).
      destruct (max <? n_last n) eqn:C2.
      * rewrite GT by lia. destruct (n_elts n) as [|e es] eqn:Ee; [contradiction|]. inversion O as [|? ? Oe Oes]; subst.
        destruct (write_part_ok max es e (n_key n) (n_time n) Oe Oes ltac:(lia)) as (P1 & P2 & P3 & _).
        rewrite AP. split.
        -- rewrite <- SU, <- app_assoc. f_equal. unfold blocks_segs. cbn [flat_map]. unfold block_segs at 1. cbn [b_elts b_index b_time].
           rewrite expand_app, !app_nil_r. f_equal. destruct CU as [<- <-]. rewrite P1. unfold node_segs. rewrite Ee. reflexivity.
        -- apply Forall_app. split; auto. constructor; [|constructor]. split; cbn; [apply okelt_app; auto|]. intros Q. apply app_eq_nil in Q as [_ Q]. auto.
      * rewrite (filter_all _ (node_segs n)) by (intros x Hx; apply node_bounds in Hx; [unfold upto; lia|auto]).
        destruct (IH (n_period n) (mk_block (b_time cur2) (b_index cur2) (b_elts cur2 ++ n_elts n))) as [I1 I2].
        -- exact Wr.
        -- exact (linked_app_r [n] nodes L).
        -- split; cbn; [apply okelt_app; auto|]. intros Q. apply app_eq_nil in Q as [_ Q]. auto.
        -- intros m r E Hk Hp. subst nodes. destruct L as [(_ & _ & LK) _]. cbn [b_index b_time b_elts]. rewrite cnt_app, dsum_app.
           destruct (LK (eq_sym Hp)) as [K1 K2]. unfold n_end in K2. lia.
        -- rewrite AP. split.
           ++ rewrite I1, <- SU, <- !app_assoc. f_equal. unfold block_segs at 1. cbn [b_elts b_index b_time]. rewrite expand_app, <- app_assoc.
              destruct CU as [<- <-]. reflexivity.
           ++ apply Forall_app. auto.
Qed.

Lemma find_left_struct elts : Forall okelt elts -> forall ei left idx t, 0 <= left < cnt elts ->
  exists k e off pre tm, find_left elts ei left t = Some ((ei + k)%nat, off, tm) /\ nth_error elts k = Some e /\ 0 <= off < e_cnt e /\
    expand elts idx t = pre ++ expand (mk_elt (e_cnt e - off) (e_dur e) :: skipn (S k) elts) (idx + left) tm /\
    (forall x, In x pre -> s_index x < idx + left) /\
    idx + cnt elts = idx + left + cnt (mk_elt (e_cnt e - off) (e_dur e) :: skipn (S k) elts) /\
    t + dsum elts = tm + dsum (mk_elt (e_cnt e - off) (e_dur e) :: skipn (S k) elts).
Proof.
  induction 1 as [|e elts [O O'] Oe IH]; intros ei left idx t B; cbn [cnt] in B; [lia|]. cbn [find_left].
  destruct (left <? e_cnt e) eqn:C.
  - exists 0%nat, e, left, (run (Z.to_nat left) idx t (e_dur e)), (t + left * e_dur e). split; [do 3 f_equal; lia|]. split; [reflexivity|]. split; [lia|].
    split; [|split].
    + cbn [expand skipn e_cnt e_dur]. rewrite app_assoc. f_equal.
      * replace (Z.to_nat (e_cnt e)) with (Z.to_nat left + Z.to_nat (e_cnt e - left))%nat by lia. rewrite run_app, Z2Nat.id by lia. reflexivity.
      * f_equal; nia.
    + intros x Hx. apply run_bounds in Hx. lia.
    + cbn [skipn cnt dsum e_cnt e_dur]. nia.
  - destruct (IH (S ei) (left - e_cnt e) (idx + e_cnt e) (t + e_cnt e * e_dur e) ltac:(lia)) as (k & e2 & off & pre & tm & F & N & B2 & X & D & C1 & C2).
    exists (S k), e2, off, (run (Z.to_nat (e_cnt e)) idx t (e_dur e) ++ pre), tm.
    split; [rewrite F; do 3 f_equal; lia|]. split; [exact N|]. split; [exact B2|].
    replace (idx + e_cnt e + (left - e_cnt e)) with (idx + left) in * by lia. split; [|split].
    + cbn [expand] in X |- *. cbn [skipn] in X |- *. rewrite X, <- app_assoc. reflexivity.
    + intros x Hx. apply in_app_or in Hx as [Hx|Hx]; [apply run_bounds in Hx; lia|auto].
    + cbn [cnt dsum skipn] in *. lia.
Qed.

Lemma skipn_okelt k elts : Forall okelt elts -> Forall okelt (skipn k elts).
Proof. intros H. rewrite <- (firstn_skipn k elts) in H. apply okelt_app in H. apply H. Qed.

Lemma in_range_upto min max s : min <= s_index s -> in_range min max s = upto max s.
Proof. unfold in_range, upto. intros H. lia. Qed.

Lemma filter_in_range min max l : (forall x, In x l -> min <= s_index x) -> filter (in_range min max) l = filter (upto max) l.
Proof.
  induction l as [|x l IH]; intros H; [reflexivity|]. cbn. rewrite in_range_upto by (apply H; left; reflexivity). rewrite IH; [reflexivity|].
  intros y Hy; apply H; right; exact Hy.
Qed.

Lemma linked_skipn k l : linked l -> linked (skipn k l).
Proof. intros H. rewrite <- (firstn_skipn k l) in H. exact (linked_app_r _ _ H). Qed.
Lemma wf_skipn k l : Forall wf_node l -> Forall wf_node (skipn k l).
Proof. intros H. rewrite <- (firstn_skipn k l) in H. apply Forall_app in H. apply H. Qed.

Lemma firstn_last nodes i s index : Forall wf_node nodes -> (forall j m, (j < i)%nat -> nth_error nodes j = Some m -> n_last m < index) ->
  In s (segs_of (firstn i nodes)) -> s_index s < index.
Proof.
  intros W H Hs. apply in_segs_nodes in Hs as (j & m & Hm & Hs).
  assert (j < i)%nat by (assert (j < length (firstn i nodes))%nat by (apply nth_error_Some; congruence); rewrite firstn_length in *; lia).
  assert (Hm' : nth_error nodes j = Some m) by (rewrite <- (firstn_skipn i nodes); rewrite nth_error_app1; [exact Hm|apply nth_error_Some; congruence]).
  apply node_bounds in Hs; [|eapply Forall_forall; [exact W|eapply nth_error_In; eauto]]. specialize (H _ _ ltac:(eassumption) Hm'). lia.
Qed.

(* what the iterator of the first segment to write gives *)
Lemma iter_struct l t min : wf l -> tree_of l t ->
  match iter_init l t min false with
  | None => forall s, In s (segs l) -> s_index s < min
  | Some (it, tm) => exists n e p, nth_error (l_nodes l) (i_node it) = Some n /\ nth_error (n_elts n) (i_elt it) = Some e /\ 0 <= i_off it < e_cnt e /\
      node_segs n = p ++ expand (mk_elt (e_cnt e - i_off it) (e_dur e) :: skipn (S (i_elt it)) (n_elts n)) (Z.max min (n_key n)) tm /\
      (forall x, In x p -> s_index x < min) /\ (forall x, In x (segs_of (firstn (i_node it) (l_nodes l))) -> s_index x < min) /\
      min <= n_last n /\
      n_last n + 1 = Z.max min (n_key n) + cnt (mk_elt (e_cnt e - i_off it) (e_dur e) :: skipn (S (i_elt it)) (n_elts n)) /\
      n_end n = tm + dsum (mk_elt (e_cnt e - i_off it) (e_dur e) :: skipn (S (i_elt it)) (n_elts n))
  end.
Proof.
  intros W T. pose proof W as (W1 & W2 & _). pose proof (walk_top l t min W T) as K. unfold iter_init.
  destruct (walk_index (l_nodes l) t min) as [[i within]|].
  - destruct within.
    + destruct K as (n & Hn & K). rewrite Hn. assert (Wn : wf_node n) by (eapply Forall_forall; [exact W1|eapply nth_error_In; eauto]).
      pose proof Wn as (_ & _ & O & LL).
      destruct (find_left_struct (n_elts n) O 0 (min - n_key n) (n_key n) (n_time n) ltac:(lia)) as (k & e & off & p & tm & F & N & B & X & D & C1 & C2).
      rewrite F. cbn [Nat.add i_node i_elt i_off]. exists n, e, p. replace (n_key n + (min - n_key n)) with min in * by lia.
      replace (Z.max min (n_key n)) with min by lia. do 3 (split; [auto|]). split; [exact X|]. split; [exact D|].
      split; [|split; [lia|split; [lia|unfold n_end; lia]]].
      intros x Hx. eapply firstn_last; eauto. intros j m Hj Hm. pose proof (nodes_lt _ _ _ _ _ W1 W2 Hm Hn Hj). lia.
    + destruct K as (n & Hn & K1 & K2). rewrite Hn. cbn [i_node i_elt i_off].
      assert (Wn : wf_node n) by (eapply Forall_forall; [exact W1|eapply nth_error_In; eauto]). pose proof Wn as (NE & _ & O & LL).
      destruct (n_elts n) as [|e es] eqn:Ee; [contradiction|]. inversion O as [|? ? [O1 O2] _]; subst.
      exists n, e, []. split; [exact Hn|]. rewrite Ee. split; [reflexivity|]. split; [lia|]. replace (Z.max min (n_key n)) with (n_key n) by lia.
      replace (e_cnt e - 0) with (e_cnt e) by lia. cbn [skipn]. split; [unfold node_segs; rewrite Ee; destruct e; reflexivity|].
      split; [intros x []|]. split; [intros x Hx; eapply firstn_last; eauto|].
      pose proof (node_key_le _ Wn). split; [lia|]. unfold n_end. rewrite Ee. cbn [cnt dsum e_cnt e_dur] in *. lia.
  - intros s Hs. apply in_segs_nodes in Hs as (j & n & Hn & Hs). specialize (K _ _ Hn).
    apply node_bounds in Hs; [lia|eapply Forall_forall; [exact W1|eapply nth_error_In; eauto]].
Qed.

Lemma write_periods_ok l t min max : wf l -> tree_of l t -> min <= max ->
  blocks_segs (write_periods l t min max) = filter (in_range min max) (segs l) /\ Forall block_ok (write_periods l t min max).
Proof.
  intros W T M. pose proof W as (W1 & W2 & _). pose proof (iter_struct l t min W T) as K. unfold write_periods.
  destruct (iter_init l t min false) as [[it tm]|].
  - destruct K as (n & e & p & Hn & He & Bo & X & D1 & D2 & ML & C1 & C2). rewrite Hn, (skipn_nth _ _ _ He).
    assert (Wn : wf_node n) by (eapply Forall_forall; [exact W1|eapply nth_error_In; eauto]). pose proof Wn as (NE & _ & O & LL).
    assert (SG : filter (in_range min max) (segs l) =
      filter (upto max) (expand (mk_elt (e_cnt e - i_off it) (e_dur e) :: skipn (S (i_elt it)) (n_elts n)) (Z.max min (n_key n)) tm) ++
      filter (upto max) (segs_of (skipn (S (i_node it)) (l_nodes l)))).
    { unfold segs. rewrite (segs_of_nth _ _ _ Hn), X, !filter_app.
      rewrite (filter_none _ (segs_of (firstn _ _))) by (intros x Hx; apply D2 in Hx; unfold in_range; lia).
      rewrite (filter_none _ p) by (intros x Hx; apply D1 in Hx; unfold in_range; lia). cbn [app]. f_equal; apply filter_in_range.
      - intros x Hx. apply expand_bounds in Hx; [lia|]. constructor; [|apply skipn_okelt; auto]. split; cbn; [lia|].
        eapply Forall_forall in O; [|eapply nth_error_In; exact He]. apply O.
      - intros x Hx. apply in_segs_nodes in Hx as (j & m & Hm & Hx).
        assert (Hm' : nth_error (l_nodes l) (S (i_node it) + j) = Some m).
        { rewrite <- (firstn_skipn (S (i_node it)) (l_nodes l)). assert (i_node it < length (l_nodes l))%nat by (apply nth_error_Some; congruence).
          rewrite nth_error_app2; rewrite firstn_length_le by lia; [|lia]. rewrite Nat.add_comm, Nat.add_sub. exact Hm. }
        pose proof (nodes_lt _ _ _ _ _ W1 W2 Hn Hm' ltac:(lia)).
        apply node_bounds in Hx; [lia|]. eapply Forall_forall; [exact W1|eapply nth_error_In; eauto]. }
    assert (Oe : okelt (mk_elt (e_cnt e - i_off it) (e_dur e))).
    { split; cbn; [lia|]. eapply Forall_forall in O; [|eapply nth_error_In; exact He]. apply O. }
    replace (if min <? n_key n then n_key n else min) with (Z.max min (n_key n)) by (destruct (min <? n_key n) eqn:Q; lia).
    destruct ((min <? n_key n) && (max <? n_key n)) eqn:C.
    + apply andb_prop in C as [C3 C4]. split; [|constructor]. rewrite SG. change (blocks_segs []) with (@nil seg). symmetry. rewrite !filter_none; [reflexivity| |].
      * intros x Hx. apply in_segs_nodes in Hx as (j & m & Hm & Hx).
        assert (Hm' : nth_error (l_nodes l) (S (i_node it) + j) = Some m).
        { rewrite <- (firstn_skipn (S (i_node it)) (l_nodes l)). assert (i_node it < length (l_nodes l))%nat by (apply nth_error_Some; congruence).
          rewrite nth_error_app2; rewrite firstn_length_le by lia; [|lia]. rewrite Nat.add_comm, Nat.add_sub. exact Hm. }
        pose proof (nodes_lt _ _ _ _ _ W1 W2 Hn Hm' ltac:(lia)). pose proof (node_key_le _ Wn).
        apply node_bounds in Hx; [unfold upto; lia|]. eapply Forall_forall; [exact W1|eapply nth_error_In; eauto].
      * intros x Hx. apply expand_bounds in Hx; [unfold upto; lia|]. constructor; [auto|apply skipn_okelt; auto].
    + assert (IM : Z.max min (n_key n) <= max) by lia.
      destruct (write_part_ok max (skipn (S (i_elt it)) (n_elts n)) _ (Z.max min (n_key n)) tm Oe (skipn_okelt _ _ O) IM) as (P1 & P2 & P3 & P4).
      destruct (write_loop_ok max (skipn (S (i_node it)) (l_nodes l)) (n_period n)
        (mk_block tm (Z.max min (n_key n)) (write_part (mk_elt (e_cnt e - i_off it) (e_dur e)) (skipn (S (i_elt it)) (n_elts n)) (Z.max min (n_key n)) (max + 1))))
        as [Q1 Q2].
      * apply wf_skipn; auto.
      * apply linked_skipn; auto.
      * split; auto.
      * intros m r E Hk Hp. cbn [b_index b_time b_elts].
        assert (LK : linked (n :: m :: r)). { rewrite <- E, <- (skipn_nth _ _ _ Hn). apply linked_skipn; auto. }
        destruct LK as [(K0 & _ & LK) _]. destruct (LK (eq_sym Hp)) as [K1 K2].
        destruct P4 as [P4 P5]; [lia|]. rewrite P4, P5. unfold n_end in *. lia.
      * split; [|exact Q2]. rewrite Q1, SG. unfold block_segs. cbn [b_index b_time b_elts]. rewrite P1. reflexivity.
  - split; [|constructor]. symmetry. cbn. apply filter_none. intros x Hx. apply K in Hx. unfold in_range. lia.
Qed.

(* --- reading --- *)
Lemma read_elts_sound elts : forall idx t max1 i2 t2, Forall (fun e => 0 <= e_dur e) elts -> read_elts elts idx t max1 = Some (i2, t2) ->
  Forall okelt elts /\ i2 = idx + cnt elts /\ t2 = t + dsum elts.
Proof.
  induction elts as [|e r IH]; intros idx t max1 i2 t2 O H.
  - injection H as <- <-. cbn. split; [constructor|lia].
  - cbn [read_elts] in H. destruct (e_cnt e <=? 0) eqn:C1; [discriminate|]. destruct (max1 - idx <? e_cnt e) eqn:C2; [discriminate|].
    inversion O as [|? ? O1 O2]; subst. apply IH in H as (A & B & C); auto. split; [constructor; auto; split; lia|]. cbn [cnt dsum]. lia.
Qed.
Lemma read_elts_complete elts : forall idx t max1, Forall okelt elts -> idx + cnt elts <= max1 -> read_elts elts idx t max1 = Some (idx + cnt elts, t + dsum elts).
Proof.
  induction elts as [|e r IH]; intros idx t max1 O H; cbn [cnt dsum read_elts] in *.
  - do 2 f_equal; lia.
  - inversion O as [|? ? [O1 O2] O3]; subst. pose proof (cnt_nonneg _ O3). replace (e_cnt e <=? 0) with false by lia.
    replace (max1 - idx <? e_cnt e) with false by lia. rewrite IH by (auto; lia). do 2 f_equal; lia.
Qed.

Lemma linked_app a b : linked a -> linked b -> (forall q y z r, a = q ++ [y] -> b = z :: r -> link y z) -> linked (a ++ b).
Proof.
  induction a as [|x a IH]; intros A B H; [exact B|]. destruct a as [|y a].
  - cbn. destruct b as [|z b]; [exact Logic.I|]. split; [apply (H [] x z b eq_refl eq_refl)|exact B].
  - destruct A as [A1 A2]. change (link x y /\ linked ((y :: a) ++ b)). split; auto. apply IH; auto.
    intros q w z r E1 E2. apply (H (x :: q) w z r); auto. cbn. rewrite E1. reflexivity.
Qed.

Lemma read_nodes_sound f : forall elts idx t p max1 ns i2 t2, Forall (fun e => 0 <= e_dur e) elts ->
  read_nodes f elts idx t p max1 = Some (ns, i2, t2) ->
  Forall okelt elts /\ segs_of ns = expand elts idx t /\ i2 = idx + cnt elts /\ t2 = t + dsum elts /\
  Forall wf_node ns /\ linked ns /\ (elts <> [] -> ns <> []) /\ (elts = [] -> ns = []) /\
  (forall z r, ns = z :: r -> n_key z = idx /\ n_time z = t /\ n_period z = p) /\
  (forall q z, ns = q ++ [z] -> n_end z = t2) /\ ecount ns = Z.of_nat (length elts) /\ scount ns = cnt elts.
Proof.
  induction f as [|f IH]; intros elts idx t p max1 ns i2 t2 O H.
  - destruct elts as [|e r]; [|discriminate]. injection H as <- <- <-. cbn [cnt dsum expand segs_of flat_map ecount scount length].
    split; [constructor|]. split; [reflexivity|]. split; [lia|]. split; [lia|]. split; [constructor|]. split; [exact Logic.I|].
    split; [auto|]. split; [auto|]. split; [discriminate|]. split; [intros q z Q; destruct q; discriminate|]. lia.
  - destruct elts as [|e r].
    + injection H as <- <- <-. cbn [cnt dsum expand segs_of flat_map ecount scount length].
      split; [constructor|]. split; [reflexivity|]. split; [lia|]. split; [lia|]. split; [constructor|]. split; [exact Logic.I|].
      split; [auto|]. split; [auto|]. split; [discriminate|]. split; [intros q z Q; destruct q; discriminate|]. lia.
    + remember (e :: r) as elts eqn:Eel. assert (NE : elts <> []) by (subst; discriminate).
      assert (H' : match read_elts (firstn NODE_ELTS elts) idx t max1 with
                   | None => None
                   | Some (index', time') =>
                       match read_nodes f (skipn NODE_ELTS elts) index' time' p max1 with
                       | None => None
                       | Some (ns, i2, t2) => Some (mk_node idx t (index' - 1) p (firstn NODE_ELTS elts) :: ns, i2, t2)
                       end
                   end = Some (ns, i2, t2)) by (rewrite Eel in H |- *; exact H). clear H. rename H' into H.
      rewrite <- (firstn_skipn NODE_ELTS elts) in O. apply Forall_app in O as [Oa Ob].
      destruct (read_elts (firstn NODE_ELTS elts) idx t max1) as [[i1 t1]|] eqn:R1; [|discriminate].
      destruct (read_nodes f (skipn NODE_ELTS elts) i1 t1 p max1) as [[[ns' i2'] t2']|] eqn:R2; [|discriminate].
      assert (En : ns = mk_node idx t (i1 - 1) p (firstn NODE_ELTS elts) :: ns') by congruence.
      assert (Ei : i2 = i2') by congruence. assert (Et : t2 = t2') by congruence. clear H. subst ns i2 t2.
      apply read_elts_sound in R1 as (A1 & A2 & A3); auto.
      apply IH in R2 as (B1 & B2 & B3 & B4 & B5 & B6 & B7 & B7' & B8 & B9 & B10 & B11); auto.
      assert (NEf : firstn NODE_ELTS elts <> []) by (rewrite Eel; discriminate).
      pose proof (firstn_skipn NODE_ELTS elts) as FS.
      assert (CN : cnt elts = cnt (firstn NODE_ELTS elts) + cnt (skipn NODE_ELTS elts)) by (rewrite <- FS at 1; apply cnt_app).
      assert (DN : dsum elts = dsum (firstn NODE_ELTS elts) + dsum (skipn NODE_ELTS elts)) by (rewrite <- FS at 1; apply dsum_app).
      assert (LN : length elts = (length (firstn NODE_ELTS elts) + length (skipn NODE_ELTS elts))%nat) by (rewrite <- FS at 1; apply app_length).
      assert (XN : expand elts idx t = expand (firstn NODE_ELTS elts) idx t ++ expand (skipn NODE_ELTS elts) i1 t1) by (rewrite <- FS at 1; rewrite expand_app, A2, A3; reflexivity).
      pose proof (firstn_le_length NODE_ELTS elts) as FL.
      set (es := firstn NODE_ELTS elts) in *. set (tl := skipn NODE_ELTS elts) in *. clearbody es tl.
      split; [rewrite <- FS; apply okelt_app; auto|]. split; [rewrite XN, <- B2; reflexivity|]. split; [lia|]. split; [lia|].
      split; [constructor; auto; unfold wf_node; cbn [n_elts n_last n_key]; split; [exact NEf|split; [exact FL|split; [exact A1|lia]]]|].
      split.
      { destruct ns' as [|z r']; [exact Logic.I|]. split; [|exact B6]. destruct (B8 z r' eq_refl) as (K1 & K2 & K3).
        unfold link, n_end. cbn [n_last n_period n_time n_elts]. lia. }
      split; [discriminate|]. split; [intros Q; contradiction|].
      split; [intros z r' Q; injection Q as <- _; auto|]. split.
      { intros q z Q. destruct q as [|x q].
        - cbn in Q. injection Q as <- Q. unfold n_end. cbn [n_time n_elts].
          assert (ZT : dsum tl = 0) by (destruct tl; [reflexivity|exfalso; apply B7; [discriminate|exact Q]]). lia.
        - cbn in Q. injection Q as _ Q. exact (B9 q z Q). }
      cbn [ecount scount n_elts]. lia.
Qed.

Lemma read_nodes_complete f : forall elts idx t p max1, Forall okelt elts -> idx + cnt elts <= max1 -> (length elts <= f)%nat ->
  read_nodes f elts idx t p max1 <> None.
Proof.
  induction f as [|f IH]; intros elts idx t p max1 O H L.
  - destruct elts; [discriminate|cbn in L; lia].
  - destruct elts as [|e r]; [discriminate|].
    assert (LS : (length (skipn NODE_ELTS (e :: r)) <= f)%nat) by (rewrite skipn_length; unfold NODE_ELTS; cbn [length] in *; lia).
    unfold read_nodes; fold read_nodes. rewrite <- (firstn_skipn NODE_ELTS (e :: r)) in O, H. apply okelt_app in O as [Oa Ob]. rewrite cnt_app in H.
    pose proof (cnt_nonneg _ Ob). rewrite read_elts_complete by (auto; lia).
    specialize (IH (skipn NODE_ELTS (e :: r)) (idx + cnt (firstn NODE_ELTS (e :: r))) (t + dsum (firstn NODE_ELTS (e :: r))) p max1 Ob ltac:(lia) LS).
    destruct (read_nodes f (skipn NODE_ELTS (e :: r)) (idx + cnt (firstn NODE_ELTS (e :: r))) (t + dsum (firstn NODE_ELTS (e :: r))) p max1) as [[[? ?] ?]|]; [discriminate|contradiction].
Qed.

(* joining the nodes that were read *)
Lemma wf_join nodes ns nc ec sc lt :
  Forall wf_node nodes -> linked nodes -> Forall wf_node ns -> linked ns ->
  (forall q y z r, nodes = q ++ [y] -> ns = z :: r -> link y z) ->
  nc = Z.of_nat (length nodes) + Z.of_nat (length ns) -> ec = ecount nodes + ecount ns -> sc = scount nodes + scount ns ->
  (ns = [] -> forall q y, nodes = q ++ [y] -> lt = n_end y) -> (forall q z, ns = q ++ [z] -> lt = n_end z) ->
  wf (mk_slist (nodes ++ ns) nc ec sc lt).
Proof.
  intros A B C D E F G H I J. unfold wf. cbn [l_nodes l_node_count l_elt_count l_seg_count l_last_time].
  split; [apply Forall_app; auto|]. split; [apply linked_app; auto|]. split.
  - intros p x Q. destruct (unsnoc ns) as [[q z]|] eqn:U.
    + apply unsnoc_some in U. rewrite U, app_assoc in Q. apply snoc_inj in Q as [_ <-]. exact (J _ _ U).
    + apply unsnoc_none in U. rewrite U, app_nil_r in Q. exact (I U _ _ Q).
  - rewrite app_length, ecount_app, scount_app. lia.
Qed.

Lemma read_period_sound l first min max b l' first' : wf l -> Forall (fun e => 0 <= e_dur e) (b_elts b) ->
  (forall q y, l_nodes l = q ++ [y] -> n_last y < b_index b) -> read_period l first min max b = Some (l', first') ->
  wf l' /\ segs l' = segs l ++ block_segs b.
Proof.
  intros W O LI H. unfold read_period in H. destruct ((b_index b <? min) || (max <? b_index b)) eqn:C0; [discriminate|].
  unfold block_segs. destruct (b_elts b) as [|cur rest] eqn:Eb.
  { injection H as <- <-. split; auto. cbn. symmetry. apply app_nil_r. }
  pose proof W as (W1 & W2 & W3 & W4 & W5 & W6). set (elts := cur :: rest) in *.
  destruct (unsnoc (l_nodes l)) as [[pre last]|] eqn:U.
  - apply unsnoc_some in U. pose proof (wf_last _ _ _ W U) as (Wx & Wp & Lp & Ll & LT). specialize (LI _ _ U).
    destruct (first && (min <=? n_last last)); [discriminate|]. destruct (b_time b <? l_last_time l) eqn:C1; [discriminate|].
    destruct ((b_time b =? l_last_time l) && (b_index b =? n_last last + 1)) eqn:C2.
    + destruct (unsnoc (n_elts last)) as [[epre d]|] eqn:U2; [|discriminate]. apply unsnoc_some in U2.
      pose proof (node_last _ _ _ Wx U2) as (O1 & [O2 O3] & K1 & K2 & K3).
      rewrite U in W4, W5, W6. rewrite app_length in W4. rewrite ecount_app in W5. rewrite scount_app in W6. cbn [length ecount scount] in W4, W5, W6.
      (* the last node after the merge of the first element *)
      assert (M : exists les todo i1 t1 ec done, (if e_dur d =? e_dur cur then
                           match read_elts [cur] (b_index b) (b_time b) (max + 1) with
                           | None => None
                           | Some (i1, t1) => Some (epre ++ [mk_elt (e_cnt d + e_cnt cur) (e_dur d)], rest, i1, t1, -1)
                           end
                         else Some (n_elts last, elts, b_index b, b_time b, 0)) = Some (les, todo, i1, t1, ec) /\
                elts = done ++ todo /\ Forall okelt les /\ Forall okelt done /\ les <> [] /\ (length les <= NODE_ELTS)%nat /\ i1 = b_index b + cnt done /\ t1 = b_time b + dsum done /\
                Z.of_nat (length les) = Z.of_nat (length (n_elts last)) + Z.of_nat (length done) + ec /\
                cnt les = cnt (n_elts last) + cnt done /\ dsum les = dsum (n_elts last) + dsum done /\
                expand les (n_key last) (n_time last) = node_segs last ++ expand done (b_index b) (b_time b)).
      { destruct (e_dur d =? e_dur cur) eqn:C3.
        - destruct (read_elts [cur] (b_index b) (b_time b) (max + 1)) as [[i1 t1]|] eqn:R; [|discriminate].
          apply read_elts_sound in R as (R1 & R2 & R3); [|inversion O; subst; repeat constructor; auto]. inversion R1 as [|? ? [R4 R5] _]; subst.
          do 6 eexists. split; [reflexivity|]. split; [exact (eq_refl : elts = [cur] ++ rest)|].
          split; [apply okelt_app; split; auto; repeat constructor; cbn; lia|]. split; [auto|]. split; [destruct epre; discriminate|].
          pose proof Wx as (_ & NL & _ & _). rewrite U2 in NL |- *. rewrite !app_length in *. cbn [length] in *. split; [lia|]. split; [reflexivity|]. split; [reflexivity|].
          split; [lia|]. rewrite !cnt_app, !dsum_app. cbn [cnt dsum e_cnt e_dur]. split; [lia|]. apply Z.eqb_eq in C3. split; [rewrite C3; lia|].
          rewrite expand_app, K3, <- app_assoc. f_equal. destruct d as [dc dd], cur as [cc cd]; cbn [e_cnt e_dur] in *. subst cd.
          rewrite expand_join by lia. f_equal. unfold n_end in *. f_equal; lia.
        - do 5 eexists. exists []. split; [reflexivity|]. cbn [cnt dsum expand length app]. pose proof Wx as (NE & NL & OX & _).
          split; [reflexivity|]. split; [exact OX|]. split; [constructor|]. split; [exact NE|]. split; [exact NL|]. split; [lia|]. split; [lia|]. split; [lia|].
          split; [lia|]. split; [lia|]. rewrite app_nil_r. reflexivity. }
      destruct M as (les & todo & i1 & t1 & ec & done & M0 & M1 & M2 & M2' & M3 & M3' & M4 & M5 & M6 & M7 & M8 & M9). rewrite M0 in H. clear M0.
      rewrite M1 in O. apply Forall_app in O as [_ O]. set (count := (NODE_ELTS - length les)%nat) in *.
      pose proof (firstn_skipn count todo) as FS. rewrite <- FS in O. apply Forall_app in O as [Oa Ob].
      destruct (read_elts (firstn count todo) i1 t1 (max + 1)) as [[i2 t2]|] eqn:R1; [|discriminate].
      apply read_elts_sound in R1 as (A1 & A2 & A3); auto.
      destruct (read_nodes (S (length rest)) (skipn count todo) i2 t2 (n_period last) (max + 1)) as [[[ns i3] t3]|] eqn:R2; [|discriminate].
      apply read_nodes_sound in R2 as (B1 & B2 & B3 & B4 & B5 & B6 & B7 & B7' & B8 & B9 & B10 & B11); auto.
      injection H as <- <-. set (x := mk_node (n_key last) (n_time last) (i2 - 1) (n_period last) (les ++ firstn count todo)).
      assert (CN : cnt elts = cnt done + cnt (firstn count todo) + cnt (skipn count todo)) by (rewrite M1, <- FS at 1; rewrite !cnt_app; lia).
      assert (LN : length elts = (length done + length (firstn count todo) + length (skipn count todo))%nat) by (rewrite M1, <- FS at 1; rewrite !app_length; lia).
      assert (XN : expand elts (b_index b) (b_time b) = expand done (b_index b) (b_time b) ++ expand (firstn count todo) i1 t1 ++ expand (skipn count todo) i2 t2).
      { rewrite M1, <- FS at 1. rewrite !expand_app, M4, M5, A2, A3, M4, M5. reflexivity. }
      pose proof Wx as (_ & _ & _ & WL).
      assert (Wx' : wf_node x).
      { unfold wf_node, x. cbn [n_elts n_last n_key]. split; [destruct les; [contradiction|discriminate]|].
        split; [rewrite app_length; pose proof (firstn_le_length count todo); lia|].
        split; [apply okelt_app; auto|]. rewrite cnt_app. lia. }
      assert (EX : n_end x = t2) by (unfold n_end, x in *; cbn [n_time n_elts]; rewrite dsum_app; lia).
      split.
      * apply wf_join; auto.
        -- apply Forall_app; auto.
        -- apply linked_snoc. split; auto.
        -- intros q y z r Q1 Q2. apply snoc_inj in Q1 as [_ <-]. destruct (B8 _ _ Q2) as (Z1 & Z2 & Z3). unfold link. rewrite EX.
           unfold x. cbn [n_last n_period]. lia.
        -- rewrite app_length. cbn [length]. lia.
        -- rewrite ecount_app. unfold x. cbn [ecount n_elts]. rewrite app_length. rewrite B10. change (Z.pos (Pos.of_succ_nat (length rest))) with (Z.of_nat (length elts)). lia.
        -- rewrite scount_app. unfold x. cbn [scount n_elts]. rewrite cnt_app, B11. lia.
        -- intros Q q y Q1. apply snoc_inj in Q1 as [_ <-]. rewrite EX, B4. rewrite Q in B7. destruct (skipn count todo); [cbn; lia|exfalso; apply B7; [discriminate|reflexivity]].
        -- intros q z Q. symmetry. exact (B9 _ _ Q).
      * unfold segs. cbn [l_nodes]. rewrite U, !segs_of_app, !segs_of_one, B2, XN. unfold node_segs at 1. unfold x. cbn [n_elts n_key n_time].
        rewrite expand_app, M9, <- !app_assoc. do 4 f_equal. f_equal; unfold n_end in *; lia.
    + destruct (read_nodes (S (length rest)) elts (b_index b) (b_time b) (n_period last + 1) (max + 1)) as [[[ns i3] t3]|] eqn:R2; [|discriminate].
      apply read_nodes_sound in R2 as (B1 & B2 & B3 & B4 & B5 & B6 & B7 & B7' & B8 & B9 & B10 & B11); auto. injection H as <- <-.
      split; [|unfold segs; cbn [l_nodes]; rewrite segs_of_app, B2; reflexivity].
      apply wf_join; auto.
      * intros q y z r Q1 Q2. rewrite U in Q1. apply snoc_inj in Q1 as [_ <-]. destruct (B8 _ _ Q2) as (Z1 & Z2 & Z3). unfold link. lia.
      * lia.
      * change (Z.pos (Pos.of_succ_nat (length rest))) with (Z.of_nat (length elts)). lia.
      * lia.
      * intros Q. exfalso. apply B7; [subst elts; discriminate|exact Q].
      * intros q z Q. symmetry. exact (B9 _ _ Q).
  - apply unsnoc_none in U.
    destruct (read_nodes (S (length rest)) elts (b_index b) (b_time b) 0 (max + 1)) as [[[ns i3] t3]|] eqn:R2; [|discriminate].
    apply read_nodes_sound in R2 as (B1 & B2 & B3 & B4 & B5 & B6 & B7 & B7' & B8 & B9 & B10 & B11); auto. injection H as <- <-.
    rewrite U in *. cbn [length ecount scount] in *. split; [|unfold segs; cbn [l_nodes]; rewrite U; cbn [app segs_of flat_map]; exact B2].
    apply (wf_join [] ns); auto; try lia.
    * intros q y z r Q. destruct q; discriminate.
    * rewrite W4. reflexivity.
    * cbn [ecount]. change (Z.pos (Pos.of_succ_nat (length rest))) with (Z.of_nat (length elts)). lia.
    * cbn [scount]. lia.
    * intros _ q y Q. destruct q; discriminate.
Qed.

Lemma read_period_complete l first min max b : wf l -> block_ok b -> min <= b_index b -> b_index b + cnt (b_elts b) <= max + 1 ->
  (forall q y, l_nodes l = q ++ [y] -> n_end y <= b_time b /\ (first = true -> n_last y < min)) ->
  exists l', read_period l first min max b = Some (l', false).
Proof.
  intros W [O NE] Bm BM L. unfold read_period. destruct (b_elts b) as [|cur rest] eqn:Eb; [contradiction|].
  assert (C1 : 1 <= cnt (cur :: rest)) by (inversion O as [|? ? [? ?] Or]; subst; pose proof (cnt_nonneg _ Or); cbn [cnt]; lia).
  replace ((b_index b <? min) || (max <? b_index b)) with false by lia.
  assert (FIN : forall p nodes new ec0, exists l', match read_nodes (S (length rest)) (cur :: rest) (b_index b) (b_time b) p (max + 1) with
      | Some (ns, i2, t2) => Some (mk_slist (nodes ++ ns) (l_node_count l + Z.of_nat (length ns)) (l_elt_count l + ec0 + new) (l_seg_count l + (i2 - b_index b)) t2, false)
      | None => None end = Some (l', false)).
  { intros p nodes new ec0. pose proof (read_nodes_complete (S (length rest)) (cur :: rest) (b_index b) (b_time b) p (max + 1) O BM (le_n _)) as R.
    destruct (read_nodes (S (length rest)) (cur :: rest) (b_index b) (b_time b) p (max + 1)) as [[[? ?] ?]|]; [eauto|contradiction]. }
  destruct (unsnoc (l_nodes l)) as [[pre last]|] eqn:U; [|apply FIN].
  apply unsnoc_some in U. pose proof (wf_last _ _ _ W U) as (Wx & Wp & Lp & Ll & LT). destruct (L _ _ U) as [L1 L2].
  replace (first && (min <=? n_last last)) with false by (destruct first; [specialize (L2 eq_refl); lia|reflexivity]).
  replace (b_time b <? l_last_time l) with false by lia.
  destruct ((b_time b =? l_last_time l) && (b_index b =? n_last last + 1)) eqn:C2; [|apply FIN]. clear FIN.
  pose proof Wx as (NEx & NL & Ox & _). destruct (unsnoc (n_elts last)) as [[epre d]|] eqn:U2; [|apply unsnoc_none in U2; contradiction].
  apply unsnoc_some in U2. inversion O as [|? ? Oc Or]; subst.
  assert (M : exists les todo i1 t1 ec, (if e_dur d =? e_dur cur then
                           match read_elts [cur] (b_index b) (b_time b) (max + 1) with
                           | None => None
                           | Some (i1, t1) => Some (epre ++ [mk_elt (e_cnt d + e_cnt cur) (e_dur d)], rest, i1, t1, -1)
                           end
                         else Some (n_elts last, cur :: rest, b_index b, b_time b, 0)) = Some (les, todo, i1, t1, ec) /\
            Forall okelt todo /\ i1 + cnt todo <= max + 1 /\ (length todo <= S (length rest))%nat).
  { destruct (e_dur d =? e_dur cur).
    - pose proof (cnt_nonneg _ Or). rewrite read_elts_complete by (cbn [cnt] in *; auto; lia). do 5 eexists. split; [reflexivity|]. split; [exact Or|]. cbn [cnt] in *. lia.
    - do 5 eexists. split; [reflexivity|]. split; [exact O|]. split; [exact BM|]. cbn; lia. }
  destruct M as (les & todo & i1 & t1 & ec & M0 & M1 & M2 & M3). rewrite M0. set (count := (NODE_ELTS - length les)%nat).
  rewrite <- (firstn_skipn count todo) in M1, M2. apply okelt_app in M1 as [Ma Mb]. rewrite cnt_app in M2. pose proof (cnt_nonneg _ Mb).
  rewrite read_elts_complete by (auto; lia).
  assert (LS : (length (skipn count todo) <= S (length rest))%nat) by (rewrite skipn_length; lia).
  pose proof (read_nodes_complete (S (length rest)) (skipn count todo) (i1 + cnt (firstn count todo)) (t1 + dsum (firstn count todo)) (n_period last) (max + 1) Mb ltac:(lia) LS) as R.
  destruct (read_nodes (S (length rest)) (skipn count todo) (i1 + cnt (firstn count todo)) (t1 + dsum (firstn count todo)) (n_period last) (max + 1)) as [[[? ?] ?]|]; [eauto|contradiction].
Qed.

(* reading the blocks that follow a list *)
Lemma last_node_seg l q y : wf l -> l_nodes l = q ++ [y] -> exists p s, segs l = p ++ [s] /\ s_index s = n_last y /\ s_end s = n_end y.
Proof.
  intros W E. pose proof (wf_last _ _ _ W E) as (Wy & _). destruct (node_segs_last y Wy) as (s & p & A & B & C).
  exists (segs_of q ++ p), s. split; [|auto]. unfold segs. rewrite E, segs_of_app, segs_of_one, A, app_assoc. reflexivity.
Qed.

Lemma block_first b : block_ok b -> exists s r, block_segs b = s :: r /\ s_index s = b_index b /\ s_time s = b_time b.
Proof.
  intros [O NE]. unfold block_segs. destruct (b_elts b) as [|e es]; [contradiction|]. inversion O as [|? ? [O1 _] _]; subst.
  cbn [expand]. replace (Z.to_nat (e_cnt e)) with (S (Z.to_nat (e_cnt e - 1))) by lia. cbn [run app]. do 2 eexists. split; [reflexivity|]. auto.
Qed.
Lemma block_last b : block_ok b -> exists s, In s (block_segs b) /\ s_index s + 1 = b_index b + cnt (b_elts b).
Proof.
  intros [O NE]. unfold block_segs. destruct (unsnoc (b_elts b)) as [[p e]|] eqn:E; [|apply unsnoc_none in E; contradiction].
  apply unsnoc_some in E. rewrite E in *. apply okelt_app in O as [O1 O2]. inversion O2 as [|? ? [O3 O4] _]; subst. destruct e as [c d]; cbn [e_cnt e_dur] in *.
  rewrite expand_app. replace c with (c - 1 + 1) by lia. rewrite expand_grow by lia. eexists. split; [apply in_or_app; right; apply in_or_app; right; left; reflexivity|].
  cbn [s_index]. rewrite cnt_app. cbn [cnt e_cnt]. lia.
Qed.
Lemma block_dur b s : block_ok b -> In s (block_segs b) -> 0 <= s_dur s.
Proof. intros [O _] H. apply (expand_times _ _ _ O) in H. lia. Qed.

Lemma read_periods_ok min max bs : forall l first, wf l -> Forall block_ok bs ->
  numbered (segs l ++ blocks_segs bs) -> chronological (segs l ++ blocks_segs bs) ->
  (forall s, In s (blocks_segs bs) -> min <= s_index s <= max) -> (first = true -> forall s, In s (segs l) -> s_index s < min) ->
  exists l', read_periods l first min max bs = Some l' /\ wf l' /\ segs l' = segs l ++ blocks_segs bs.
Proof.
  induction bs as [|b bs IH]; intros l first W O N C R F.
  - exists l. cbn. rewrite app_nil_r. auto.
  - inversion O as [|? ? Ob Obs]; subst. change (blocks_segs (b :: bs)) with (block_segs b ++ blocks_segs bs) in *.
    destruct (block_first b Ob) as (s & r & S1 & S2 & S3). destruct (block_last b Ob) as (s' & L1 & L2).
    assert (NI : forall q y, l_nodes l = q ++ [y] -> n_end y <= b_time b /\ n_last y < b_index b /\ (first = true -> n_last y < min)).
    { intros q y E. destruct (last_node_seg l q y W E) as (p & x & X1 & X2 & X3). rewrite X1, S1 in *. rewrite <- !app_assoc in *. cbn [app] in *.
      split; [|split].
      - rewrite <- X3, <- S3. eapply chronological_lt; [|exact C|left; reflexivity]. intros u Hu.
        change (x :: s :: r ++ blocks_segs bs) with ([x] ++ (s :: r) ++ blocks_segs bs) in Hu. rewrite app_assoc in Hu.
        apply in_app_or in Hu as [Hu|Hu].
        + eapply segs_of_dur; [apply W|]. change (In u (segs l)). rewrite X1. exact Hu.
        + apply in_app_or in Hu as [Hu|Hu]; [eapply block_dur; [exact Ob|rewrite S1; exact Hu]|].
          apply in_flat_map in Hu as (b2 & Hb & Hu). eapply block_dur; [|exact Hu]. eapply Forall_forall; eauto.
      - rewrite <- X2, <- S2. eapply numbered_lt; [exact N|left; reflexivity].
      - intros Ff. rewrite <- X2. apply F; auto. apply in_or_app. right. left. reflexivity. }
    destruct (read_period_complete l first min max b W Ob) as [l1 R1].
    + rewrite <- S2. apply R. rewrite S1. left. reflexivity.
    + specialize (R s' ltac:(apply in_or_app; auto)). lia.
    + intros q y E. destruct (NI q y E) as (N1 & N2 & N3). auto.
    + destruct (read_period_sound l first min max b l1 false W) as [W1 E1]; auto.
      { eapply Forall_impl; [|exact (proj1 Ob)]. intros e [_ He]; exact He. }
      { intros q y E. apply (NI q y E). }
      cbn [read_periods]. rewrite R1. destruct (IH l1 false W1 Obs) as (l' & Q1 & Q2 & Q3).
      * rewrite E1, <- app_assoc. exact N.
      * rewrite E1, <- app_assoc. exact C.
      * intros u Hu. apply R. apply in_or_app; auto.
      * discriminate.
      * exists l'. split; [exact Q1|]. split; [exact Q2|]. rewrite Q3, E1, <- app_assoc. reflexivity.
Qed.

(* --- histories --- *)
Lemma wf_empty : wf empty.
Proof.
  unfold wf, empty. cbn. split; [constructor|]. split; [exact Logic.I|]. split; [intros p x Q; destruct p; discriminate|auto].
Qed.

Lemma set_last_dur_app a b d : b <> [] -> set_last_dur (a ++ b) d = a ++ set_last_dur b d.
Proof.
  intros H. destruct (unsnoc b) as [[p x]|] eqn:U; [|apply unsnoc_none in U; contradiction]. apply unsnoc_some in U. subst b.
  rewrite app_assoc, !set_last_dur_snoc, <- app_assoc. reflexivity.
Qed.

Lemma history_ok l ps lo : history l ps lo ->
  wf l /\ exists dropped, ps = dropped ++ segs l /\ (forall s, In s dropped -> s_index s < lo) /\ (ps <> [] -> segs l <> []).
Proof.
  induction 1 as [|l ps lo alloc i t d l' H IH D I A|l ps lo d l' H IH D U|l ps lo min H IH|l ps lo first min max b l' first' H IH O I R].
  - split; [apply wf_empty|]. exists []. cbn. split; [reflexivity|]. split; [intros s []|auto].
  - destruct IH as (W & dr & E & L & NE). destruct (seg_add_ok l alloc i t d l' W D) as [W' E'].
    + intros q y Q. destruct (last_node_seg l q y W Q) as (p & s & S1 & S2 & _). rewrite <- S2. apply I. rewrite E, S1, !in_app_iff. cbn; auto.
    + exact A.
    + split; [exact W'|]. exists dr. rewrite E, E', <- app_assoc. split; [reflexivity|]. split; [exact L|]. intros _ Q. apply app_eq_nil in Q as [_ Q]. discriminate.
  - destruct IH as (W & dr & E & L & NE). destruct (update_last_ok l d l' W D U) as (W' & pre & s & S1 & S2 & S3).
    split; [exact W'|]. exists dr. rewrite E, set_last_dur_app by (rewrite S1; intros Q; apply app_eq_nil in Q as [_ Q]; discriminate).
    split; [rewrite S1, S3, set_last_dur_snoc; reflexivity|]. split; [exact L|]. intros _. rewrite S3. intros Q; apply app_eq_nil in Q as [_ Q]; discriminate.
  - destruct IH as (W & dr & E & L & NE). destruct (free_nodes_ok l min W) as (W' & dn & kn & N1 & N2 & N3 & N4 & N5).
    split; [exact W'|]. exists (dr ++ segs_of dn). unfold segs in *. rewrite N3. rewrite N1, segs_of_app in E. rewrite E, app_assoc. split; [reflexivity|].
    split.
    + intros s Hs. apply in_app_or in Hs as [Hs|Hs]; [apply L in Hs; lia|]. apply in_segs_nodes in Hs as (j & m & Hm & Hs).
      apply nth_error_In in Hm. destruct W as (W & _). rewrite N1 in W. apply Forall_app in W as [W _].
      apply node_bounds in Hs; [|eapply Forall_forall; eauto]. eapply Forall_forall in N5; [|exact Hm]. cbn in N5. lia.
    + intros Q. assert (P : l_nodes l <> []). { intros P. rewrite P in N1. symmetry in N1. apply app_eq_nil in N1 as [-> ->]. apply NE; [rewrite E; rewrite !app_assoc; exact Q|]. rewrite P. reflexivity. }
      specialize (N2 P). destruct kn as [|k kn]; [contradiction|]. destruct W' as (W' & _). rewrite N3 in W'. inversion W' as [|? ? Wk _]; subst.
      destruct (node_first k Wk) as (f & r & F & _). unfold segs_of. cbn [flat_map]. rewrite F. discriminate.
  - destruct IH as (W & dr & E & L & NE). destruct (read_period_sound l first min max b l' first' W O) as [W' E'].
    + intros q y Q. destruct (last_node_seg l q y W Q) as (p & s & S1 & S2 & _). rewrite <- S2. apply I. rewrite E, S1, !in_app_iff. cbn; auto.
    + exact R.
    + split; [exact W'|]. exists dr. rewrite E, E', <- app_assoc. split; [reflexivity|]. split; [exact L|].
      intros Q P. apply app_eq_nil in P as [P1 P2]. apply Q. rewrite P2, app_nil_r. destruct (segs l) eqn:SE; [|discriminate].
      destruct dr as [|x dr']; [reflexivity|]. exfalso. apply NE; [rewrite E; discriminate|reflexivity].
Qed.

(* --- the last segment can be updated --- *)
Lemma update_last_total l d pre s : wf l -> segs l = pre ++ [s] -> s_dur s = PENDING ->
  (forall pre2 s2, pre = pre2 ++ [s2] -> s_dur s2 <> PENDING) -> update_last l d <> None.
Proof.
  intros W E P NP. unfold update_last. destruct (unsnoc (l_nodes l)) as [[p n]|] eqn:U.
  - apply unsnoc_some in U. pose proof (wf_last _ _ _ W U) as (Wn & Wp & _). pose proof Wn as (NE & _).
    destruct (unsnoc (n_elts n)) as [[ep e]|] eqn:U2; [|apply unsnoc_none in U2; contradiction]. apply unsnoc_some in U2.
    pose proof (node_last _ _ _ Wn U2) as (O1 & [O2 O3] & K1 & K2 & K3).
    unfold segs in E. rewrite U, segs_of_app, segs_of_one, K3 in E. destruct e as [c ed]; cbn [e_cnt e_dur] in *.
    assert (C1 : c = 1 /\ ed = s_dur s).
    { replace c with (c - 1 + 1) in E by lia. rewrite expand_grow, !app_assoc in E by lia. apply snoc_inj in E as [E1 <-]. cbn [s_dur] in *.
      split; [|reflexivity]. destruct (Z.eq_dec c 1); [assumption|exfalso]. replace (c - 1) with (c - 2 + 1) in E1 by lia. rewrite expand_grow, !app_assoc in E1 by lia.
      apply (NP _ _ (eq_sym E1)). cbn. exact P. }
    destruct C1 as [-> ->]. rewrite P, Z.eqb_refl. unfold PENDING. rewrite Z.eqb_refl. cbn [negb].
    destruct (unsnoc ep) as [[ep2 e2]|]; [destruct (e_dur e2 =? d); discriminate|].
    destruct (unsnoc p) as [[p2 prev]|] eqn:U3; [|discriminate]. destruct (negb (n_period prev =? n_period n)); [discriminate|].
    apply unsnoc_some in U3. subst p. apply Forall_app in Wp as [_ Wp]. inversion Wp as [|? ? (NEp & _) _]; subst.
    destruct (unsnoc (n_elts prev)) as [[pp pe]|] eqn:U4; [|apply unsnoc_none in U4; contradiction]. destruct (e_dur pe =? d); discriminate.
  - apply unsnoc_none in U. unfold segs in E. rewrite U in E. destruct pre; discriminate.
Qed.

(* --- periods --- *)
Lemma run_contiguous n i t d : contiguous (run n i t d).
Proof.
  revert i t; induction n as [|n IH]; intros i t; [exact Logic.I|]. cbn [run]. specialize (IH (i + 1) (t + d)).
  destruct n as [|n]; [exact Logic.I|]. cbn [run] in *. split; [reflexivity|]. split; [reflexivity|exact IH].
Qed.
Lemma contiguous_app a b : contiguous a -> contiguous b ->
  (forall p x y r, a = p ++ [x] -> b = y :: r -> s_index y = s_index x + 1 /\ s_time y = s_end x) -> contiguous (a ++ b).
Proof.
  induction a as [|x a IH]; intros A B H; [exact B|]. destruct a as [|y a].
  - cbn. destruct b as [|z b]; [exact Logic.I|]. destruct (H [] x z b eq_refl eq_refl). auto.
  - destruct A as (A1 & A2 & A3). change (s_index y = s_index x + 1 /\ s_time y = s_end x /\ contiguous ((y :: a) ++ b)). split; auto. split; auto. apply IH; auto.
    intros p u v r E1 E2. apply (H (x :: p) u v r); auto. cbn. rewrite E1. reflexivity.
Qed.
Lemma contiguous_app_r a b : contiguous (a ++ b) -> contiguous b.
Proof. induction a as [|x a IH]; [auto|]. intros H. apply IH. cbn [app] in H. destruct (a ++ b); [exact Logic.I|]. apply H. Qed.
Lemma contiguous_app_l a b : contiguous (a ++ b) -> contiguous a.
Proof.
  induction a as [|x a IH]; [intros; exact Logic.I|]. intros H. destruct a as [|y a]; [exact Logic.I|].
  change (s_index y = s_index x + 1 /\ s_time y = s_end x /\ contiguous ((y :: a) ++ b)) in H. destruct H as (H1 & H2 & H3). split; auto.
Qed.

Lemma run_last n i t d p x : run n i t d = p ++ [x] -> s_index x + 1 = i + Z.of_nat n /\ s_end x = t + Z.of_nat n * d.
Proof.
  intros E. destruct n as [|n]; [destruct p; discriminate|]. replace (S n) with (n + 1)%nat in * by lia. rewrite run_app in E.
  cbn [run] in E. apply snoc_inj in E as [_ <-]. unfold s_end. cbn [s_index s_time s_dur]. lia.
Qed.
Lemma expand_first e r i t y q : okelt e -> expand (e :: r) i t = y :: q -> s_index y = i /\ s_time y = t.
Proof.
  intros [O _]. cbn [expand]. replace (Z.to_nat (e_cnt e)) with (S (Z.to_nat (e_cnt e - 1))) by lia. cbn [run app]. intros H. injection H as <- _. auto.
Qed.
Lemma expand_contiguous a i t : Forall okelt a -> contiguous (expand a i t).
Proof.
  intros O. revert i t. induction O as [|e a [O _] Oa IH]; intros i t; [exact Logic.I|]. cbn [expand]. apply contiguous_app; auto.
  - apply run_contiguous.
  - intros p x y r E1 E2. apply run_last in E1 as [E1 E3]. destruct a as [|e2 a]; [discriminate|]. inversion Oa as [|? ? O2 _]; subst.
    apply expand_first in E2 as [E2 E4]; [|auto]. rewrite Z2Nat.id in * by lia. lia.
Qed.

Lemma nodes_contiguous n nodes p : Forall wf_node (n :: nodes) -> linked (n :: nodes) -> Forall (fun m => n_period m = p) (n :: nodes) ->
  contiguous (segs_of (n :: nodes)).
Proof.
  revert n. induction nodes as [|m nodes IH]; intros n W L P.
  - unfold segs_of. cbn. rewrite app_nil_r. inversion W as [|? ? (_ & _ & O & _) _]; subst. apply expand_contiguous; auto.
  - inversion W as [|? ? Wn Wr]; subst. destruct L as [LK L]. inversion P as [|? ? P1 P2]; subst. inversion P2 as [|? ? P3 _]; subst.
    change (segs_of (n :: m :: nodes)) with (node_segs n ++ segs_of (m :: nodes)). apply contiguous_app.
    + apply expand_contiguous. apply Wn.
    + apply IH; auto.
    + intros q x y r E1 E2. destruct (node_segs_last n Wn) as (s & q2 & F1 & F2 & F3). rewrite F1 in E1. apply snoc_inj in E1 as [_ <-].
      inversion Wr as [|? ? Wm _]; subst. destruct (node_first m Wm) as (f & r2 & G1 & G2 & G3). change (segs_of (m :: nodes)) with (node_segs m ++ segs_of nodes) in E2.
      rewrite G1 in E2. cbn in E2. injection E2 as <- _. destruct LK as (_ & _ & LK). destruct (LK ltac:(congruence)) as [K1 K2]. lia.
Qed.

(* the nodes between two of the same period are in it too *)
Lemma same_period a x b y c : Forall wf_node (a ++ x :: b ++ y :: c) -> linked (a ++ x :: b ++ y :: c) -> n_period x = n_period y ->
  Forall (fun m => n_period m = n_period x) (x :: b ++ [y]).
Proof.
  intros W L E. constructor; [reflexivity|]. apply Forall_app. split; [|constructor; auto]. apply Forall_forall. intros m Hm.
  apply in_split in Hm as (u & v & ->). rewrite <- app_assoc in W, L. cbn [app] in W, L.
  pose proof (linked_lt a x u m (v ++ y :: c) W L) as [_ P1].
  assert (E1 : a ++ x :: u ++ m :: v ++ y :: c = (a ++ x :: u) ++ m :: v ++ y :: c) by (rewrite <- app_assoc; reflexivity). rewrite E1 in W, L.
  pose proof (linked_lt _ m v y c W L) as [_ P2]. lia.
Qed.

Lemma numbered_tail l p s0 q s1 : numbered l -> l = p ++ s0 :: q -> In s1 l -> s_index s0 < s_index s1 -> exists v w, q = v ++ s1 :: w.
Proof.
  intros N E I L. subst l. apply in_app_or in I as [I|I].
  - exfalso. apply in_split in I as (u & v & ->). rewrite <- app_assoc in N. cbn [app] in N.
    pose proof (numbered_lt u s1 (v ++ s0 :: q) s0 N ltac:(apply in_elt)). lia.
  - destruct I as [->|I]; [lia|]. apply in_split in I. destruct I as (v & w & ->). eauto.
Qed.

Lemma period_nodes_contiguous l i j x y s0 s1 p0 mid q : wf l -> nth_error (l_nodes l) i = Some x -> nth_error (l_nodes l) j = Some y ->
  n_period x = n_period y -> In s0 (node_segs x) -> In s1 (node_segs y) -> segs l = p0 ++ s0 :: mid ++ s1 :: q -> contiguous (s0 :: mid ++ [s1]).
Proof.
  intros W Hi Hj E I0 I1 SE. pose proof W as (W1 & W2 & _).
  assert (Wx : wf_node x) by (eapply Forall_forall; [exact W1|eapply nth_error_In; eauto]).
  assert (Wy : wf_node y) by (eapply Forall_forall; [exact W1|eapply nth_error_In; eauto]).
  pose proof (segs_of_numbered _ W1 W2) as NU. fold (segs l) in NU.
  assert (LT : s_index s0 < s_index s1) by (rewrite SE in NU; eapply numbered_lt; [exact NU|apply in_elt]).
  assert (LE : (i <= j)%nat).
  { destruct (Nat.le_gt_cases i j) as [H|H]; [exact H|exfalso]. pose proof (nodes_lt _ _ _ _ _ W1 W2 Hj Hi H).
    apply node_bounds in I0; auto. apply node_bounds in I1; auto. lia. }
  assert (M : exists A M C, l_nodes l = A ++ M ++ C /\ contiguous (segs_of M) /\ In s0 (segs_of M) /\ In s1 (segs_of M)).
  { destruct (Nat.eq_dec i j) as [->|NE].
    - assert (y = x) by congruence. subst y. apply nth_error_split in Hi as (a & r & H & _). exists a, [x], r. split; [exact H|].
      rewrite segs_of_one. split; [apply expand_contiguous; apply Wx|auto].
    - destruct (nth_split2 _ _ _ _ _ Hi Hj ltac:(lia)) as (a & b & c & H). exists a, (x :: b ++ [y]), c.
      split; [rewrite H; cbn; rewrite <- app_assoc; reflexivity|]. rewrite H in W1, W2. split.
      + apply nodes_contiguous with (p := n_period x).
        * apply Forall_app in W1 as [_ W1]. change (x :: b ++ y :: c) with ((x :: b) ++ [y] ++ c) in W1. rewrite app_assoc in W1. apply Forall_app in W1. apply W1.
        * apply linked_app_r in W2. change (x :: b ++ y :: c) with ((x :: b) ++ [y] ++ c) in W2. rewrite app_assoc in W2. apply linked_app_l in W2. exact W2.
        * apply same_period with (a := a) (c := c); auto.
      + change (x :: b ++ [y]) with ((x :: b) ++ [y]). rewrite segs_of_app, segs_of_one. change (segs_of (x :: b)) with (node_segs x ++ segs_of b).
        rewrite !in_app_iff. auto. }
  destruct M as (A & M & C & HM & CM & M0 & M1). apply in_split in M0 as (u & r & EM).
  assert (NM : numbered (segs_of M)).
  { apply segs_of_numbered.
    - rewrite HM in W1. apply Forall_app in W1 as [_ W1]. apply Forall_app in W1. apply W1.
    - rewrite HM in W2. apply linked_app_r in W2. apply linked_app_l in W2. exact W2. }
  destruct (numbered_tail _ _ _ _ s1 NM EM M1 LT) as (v & w & ->).
  assert (SE2 : segs l = (segs_of A ++ u) ++ s0 :: v ++ s1 :: w ++ segs_of C).
  { unfold segs. rewrite HM, !segs_of_app, EM, <- !app_assoc. cbn [app]. rewrite <- !app_assoc. reflexivity. }
  destruct (numbered_split_unique _ _ _ _ _ _ _ NU SE SE2 eq_refl) as (_ & _ & Q).
  assert (N2 : numbered (mid ++ s1 :: q)).
  { rewrite SE in NU. clear - NU. assert (G : forall a b, numbered (a ++ b) -> numbered b).
    { induction a as [|z a IH]; intros b H; [exact H|]. apply IH. cbn [app] in H. destruct (a ++ b); [exact Logic.I|]. apply H. }
    apply (G (p0 ++ [s0])). rewrite <- app_assoc. exact NU. }
  destruct (numbered_split_unique _ _ _ _ _ _ _ N2 eq_refl Q eq_refl) as (-> & _ & _).
  rewrite EM in CM. apply contiguous_app_r in CM. change (s0 :: v ++ s1 :: w) with ((s0 :: v) ++ [s1] ++ w) in CM. rewrite app_assoc in CM.
  apply contiguous_app_l in CM. exact CM.
Qed.

(* the node of the iterator of a segment *)
Lemma iter_init_node l t s strict it tm : wf l -> tree_of l t -> In s (segs l) -> iter_init l t (s_index s) strict = Some (it, tm) ->
  exists n, nth_error (l_nodes l) (i_node it) = Some n /\ In s (node_segs n) /\ exists e, nth_error (n_elts n) (i_elt it) = Some e /\ 0 <= i_off it < e_cnt e.
Proof.
  intros W T I H. pose proof W as (W1 & W2 & _). pose proof (walk_top l t (s_index s) W T) as K.
  apply in_segs_nodes in I as (i0 & n0 & H0 & S0). assert (Wn0 : wf_node n0) by (eapply Forall_forall; [exact W1|eapply nth_error_In; eauto]).
  pose proof (node_bounds _ _ Wn0 S0) as B0. unfold iter_init in H.
  destruct (walk_index (l_nodes l) t (s_index s)) as [[i within]|]; [|discriminate]. destruct within; [|destruct K as (n & Hn & K1 & K2)].
  - destruct K as (n & Hn & K). assert (Wn : wf_node n) by (eapply Forall_forall; [exact W1|eapply nth_error_In; eauto]). rewrite Hn in H.
    pose proof Wn as (_ & _ & O & LL).
    destruct (find_left_ok (n_elts n) O 0 (s_index s - n_key n) (n_key n) (n_time n) ltac:(lia)) as (k & e & off & p & q & tm' & F & N & B & _).
    rewrite F in H. cbn [Nat.add] in H. injection H as <- <-. cbn [i_node i_elt i_off].
    assert (i0 = i).
    { destruct (Nat.lt_trichotomy i0 i) as [Hl|[Hl|Hl]]; [|exact Hl|].
      - pose proof (nodes_lt _ _ _ _ _ W1 W2 H0 Hn Hl). lia.
      - pose proof (nodes_lt _ _ _ _ _ W1 W2 Hn H0 Hl). lia. }
    subst i0. replace n0 with n in * by congruence. exists n. split; [exact Hn|]. split; [exact S0|]. eauto.
  - exfalso. destruct (Nat.lt_ge_cases i0 i) as [Hl|Hl].
    + specialize (K2 _ _ Hl H0). lia.
    + destruct (Nat.eq_dec i0 i) as [->|NE]; [replace n0 with n in * by congruence; lia|].
      pose proof (nodes_lt _ _ _ _ _ W1 W2 Hn H0 ltac:(lia)). assert (wf_node n) by (eapply Forall_forall; [exact W1|eapply nth_error_In; eauto]).
      pose proof (node_key_le n). lia.
Qed.

Lemma period_end_ok l t s0 tm it i1 e : wf l -> tree_of l t -> In s0 (segs l) -> iter_init l t (s_index s0) true = Some (it, tm) ->
  period_end_time l t it i1 = Some e ->
  exists s1, In s1 (segs l) /\ s_index s1 = i1 /\ e = s_end s1 /\
    forall p mid q, segs l = p ++ s0 :: mid ++ s1 :: q -> contiguous (s0 :: mid ++ [s1]).
Proof.
  intros W T I0 A H. unfold period_end_time in H. destruct (iter_init l t i1 true) as [[it1 t1]|] eqn:B; [|discriminate].
  destruct (in_dec Z.eq_dec i1 (map s_index (segs l))) as [I1|N1].
  2:{ destruct (iter_init_missing l t i1 W T N1) as [M _]. congruence. }
  apply in_map_iff in I1 as (s1 & <- & I1). exists s1. split; [exact I1|]. split; [reflexivity|].
  pose proof I1 as I1'. apply in_split in I1' as (u & v & SE). destruct (iter_init_found l t u s1 v true W T SE) as (it1' & B1 & B2).
  rewrite B1 in B. injection B as <- <-. destruct (get_one_ok _ _ _ _ W B2) as (it2 & G1 & G2). rewrite G1 in H.
  destruct (iter_init_node _ _ _ _ _ _ W T I0 A) as (n0 & N0 & IN0 & _).
  destruct (iter_init_node _ _ _ _ _ _ W T I1 B1) as (n1 & N1 & IN1 & e1 & E1 & O1).
  assert (i_node it2 = i_node it1').
  { unfold get_one, move_next in G1. rewrite N1, E1 in G1. replace (i_off it1' <? e_cnt e1) with true in G1 by lia.
    destruct (elt_at l it1'); [|discriminate]. injection G1 as _ <-. reflexivity. }
  rewrite H0, N0, N1 in H. destruct (n_period n0 =? n_period n1) eqn:C; [|discriminate]. injection H as <-. split; [reflexivity|].
  intros p mid q SE2. eapply period_nodes_contiguous; [exact W|exact N0|exact N1| |exact IN0|exact IN1|exact SE2]. lia.
Qed.
