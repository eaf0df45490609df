(* Iterators of the segment list stay valid when the list changes. *)
From Coq Require Import List ZArith Bool Lia ZifyBool ZifyNat.
From Verif Require Import SegListModel SegListSpec SegListProofs SegListProofs2 SegListProofs3 TimelineModel.
Import ListNotations.
Local Open Scope Z_scope.

(* all the durations of a list *)
Definition total (l : slist) : list Z := flat_map (fun n => durs (n_elts n)) (l_nodes l).
Lemma total_segs l : total l = map s_dur (segs l).
Proof. unfold total, segs. rewrite map_segs_of. reflexivity. Qed.

Lemma durs_app a b : durs (a ++ b) = durs a ++ durs b.
Proof. unfold durs. apply flat_map_app. Qed.

Lemma repeat_split (d : Z) c o : 0 <= o <= c -> repeat d (Z.to_nat c) = repeat d (Z.to_nat o) ++ repeat d (Z.to_nat (c - o)).
Proof. intros H. rewrite <- repeat_app. f_equal. lia. Qed.

Lemma skipn_mid {A} (a : list A) x b : skipn (S (length a)) (a ++ x :: b) = b.
Proof. induction a as [|y a IH]; [reflexivity|exact IH]. Qed.

(* what is before an iterator *)
Lemma rest_parts l it r : rest l it = Some r ->
  exists N1 n N2 E1 e E2, l_nodes l = N1 ++ n :: N2 /\ length N1 = i_node it /\ n_elts n = E1 ++ e :: E2 /\ length E1 = i_elt it /\
    0 <= i_off it <= e_cnt e /\ r = repeat (e_dur e) (Z.to_nat (e_cnt e - i_off it)) ++ durs E2 ++ flat_map (fun n => durs (n_elts n)) N2.
Proof.
  unfold rest. destruct (nth_error (l_nodes l) (i_node it)) as [n|] eqn:N; [|discriminate].
  destruct (nth_error (n_elts n) (i_elt it)) as [e|] eqn:E; [|discriminate].
  destruct ((0 <=? i_off it) && (i_off it <=? e_cnt e)) eqn:C; [|discriminate]. intros H. apply some_inj in H.
  destruct (nth_error_split _ _ N) as (N1 & N2 & EN & LN). destruct (nth_error_split _ _ E) as (E1 & E2 & EE & LE).
  exists N1, n, N2, E1, e, E2. split; [exact EN|]. split; [exact LN|]. split; [exact EE|]. split; [exact LE|]. split; [lia|].
  rewrite <- H, EN, EE, <- LN, <- LE. f_equal.
  rewrite !skipn_mid. reflexivity.
Qed.

Lemma parts_rest l it N1 n N2 E1 e E2 : l_nodes l = N1 ++ n :: N2 -> length N1 = i_node it -> n_elts n = E1 ++ e :: E2 -> length E1 = i_elt it ->
    0 <= i_off it <= e_cnt e ->
  rest l it = Some (repeat (e_dur e) (Z.to_nat (e_cnt e - i_off it)) ++ durs E2 ++ flat_map (fun n => durs (n_elts n)) N2).
Proof.
  intros EN LN EE LE B. unfold rest. rewrite EN, nth_error_app2, <- LN, Nat.sub_diag by lia. cbn [nth_error].
  rewrite EE, nth_error_app2, <- LE, Nat.sub_diag by lia. cbn [nth_error].
  replace ((0 <=? i_off it) && (i_off it <=? e_cnt e)) with true by lia.
  rewrite !skipn_mid. reflexivity.
Qed.

Definition before (N1 : list node) (E1 : list elt) (d o : Z) : list Z :=
  flat_map (fun n => durs (n_elts n)) N1 ++ durs E1 ++ repeat d (Z.to_nat o).

Lemma total_before l (it : iter) N1 n N2 E1 e E2 : l_nodes l = N1 ++ n :: N2 -> n_elts n = E1 ++ e :: E2 -> 0 <= i_off it <= e_cnt e ->
  total l = before N1 E1 (e_dur e) (i_off it) ++ repeat (e_dur e) (Z.to_nat (e_cnt e - i_off it)) ++ durs E2 ++ flat_map (fun n => durs (n_elts n)) N2.
Proof.
  intros EN EE B. unfold total, before. rewrite EN, flat_map_app. cbn [flat_map]. rewrite EE, durs_app. cbn [durs flat_map]. fold (durs E2).
  rewrite (repeat_split _ _ _ B), <- !app_assoc. reflexivity.
Qed.

(* a change at or after the element of an iterator *)
Lemma app_cons_cases {A} (a : list A) x b c y d : a ++ x :: b = c ++ y :: d -> (length a < length c)%nat \/ (a = c /\ x = y /\ b = d) \/ (length c < length a)%nat.
Proof.
  revert c. induction a as [|u a IH]; intros c H.
  - destruct c as [|v c]; [right; left; cbn in H; injection H as <- <-; auto|left; cbn; lia].
  - destruct c as [|v c]; [right; right; cbn; lia|]. cbn in H. injection H as <- H. destruct (IH _ H) as [K|[(-> & -> & ->)|K]]; cbn; auto; lia.
Qed.
Lemma app_cons_lt {A} (a : list A) x b c y d : a ++ x :: b = c ++ y :: d -> (length a < length c)%nat ->
  exists m, c = a ++ x :: m /\ b = m ++ y :: d.
Proof.
  revert c. induction a as [|u a IH]; intros c H L.
  - destruct c as [|v c]; [cbn in L; lia|]. cbn in H. injection H as <- ->. exists c. auto.
  - destruct c as [|v c]; [cbn in L; lia|]. cbn in H. injection H as <- H. destruct (IH _ H ltac:(cbn in L; lia)) as (m & -> & ->). exists m. auto.
Qed.

Lemma rest_change l l' it r A x X x' X' B y Y y' Y' :
  rest l it = Some r -> l_nodes l = A ++ x :: X -> l_nodes l' = A ++ x' :: X' ->
  n_elts x = B ++ y :: Y -> n_elts x' = B ++ y' :: Y' -> e_dur y' = e_dur y -> e_cnt y <= e_cnt y' ->
  (i_node it < length A \/ (i_node it = length A /\ i_elt it <= length B))%nat ->
  exists b r', total l = b ++ r /\ rest l' it = Some r' /\ total l' = b ++ r'.
Proof.
  intros R EL EL' EX EX' ED EC P. destruct (rest_parts _ _ _ R) as (N1 & n & N2 & E1 & e & E2 & PN & PL & PE & PEL & PB & ->).
  pose proof PN as Q. rewrite EL in Q. exists (before N1 E1 (e_dur e) (i_off it)).
  destruct P as [P|[P1 P2]].
  - symmetry in Q. destruct (app_cons_lt _ _ _ _ _ _ Q ltac:(lia)) as (m & -> & ->). rewrite <- app_assoc in EL'. cbn [app] in EL'.
    eexists. split; [eapply total_before; eauto|]. split; [eapply parts_rest; eauto|]. eapply total_before; eauto.
  - destruct (app_cons_cases _ _ _ _ _ _ Q) as [K|[(-> & -> & ->)|K]]; [lia| |lia].
    pose proof PE as Q2. rewrite EX in Q2. destruct (Nat.eq_dec (i_elt it) (length B)) as [Z|Z].
    + destruct (app_cons_cases _ _ _ _ _ _ Q2) as [K|[(-> & -> & ->)|K]]; [lia| |lia].
      eexists. split; [eapply total_before; eauto|]. rewrite <- ED. split; [eapply parts_rest; eauto; lia|eapply total_before; eauto; lia].
    + symmetry in Q2. destruct (app_cons_lt _ _ _ _ _ _ Q2 ltac:(lia)) as (m & -> & ->). rewrite <- app_assoc in EX'. cbn [app] in EX'.
      eexists. split; [eapply total_before; eauto|]. split; [eapply parts_rest; eauto|eapply total_before; eauto].
Qed.

Lemma rest_pos l it r : rest l it = Some r -> (i_node it < length (l_nodes l))%nat.
Proof. intros R. destruct (rest_parts _ _ _ R) as (N1 & n & N2 & _ & _ & _ & -> & <- & _). rewrite app_length. cbn. lia. Qed.

(* the position of an iterator relative to the last element *)
Lemma rest_last_pos l it r A x B y : rest l it = Some r -> l_nodes l = A ++ [x] -> n_elts x = B ++ [y] ->
  (i_node it < length A \/ (i_node it = length A /\ i_elt it <= length B))%nat.
Proof.
  intros R EL EX. destruct (rest_parts _ _ _ R) as (N1 & n & N2 & E1 & e & E2 & PN & PL & PE & PEL & _).
  rewrite EL in PN. destruct (app_cons_cases _ _ _ _ _ _ PN) as [K|[(-> & -> & <-)|K]].
  - exfalso. apply (f_equal (@length _)) in PN. rewrite !app_length in PN. cbn in PN. lia.
  - right. split; [lia|]. rewrite EX in PE. apply (f_equal (@length _)) in PE. rewrite !app_length in PE. cbn in PE. lia.
  - left. lia.
Qed.

Lemma rest_add l alloc i t d l' it r : wf l -> 0 <= d -> (forall q y, l_nodes l = q ++ [y] -> n_last y < i) ->
  seg_add l alloc i t d = Some l' -> rest l it = Some r -> exists b, total l = b ++ r /\ rest l' it = Some (r ++ [d]).
Proof.
  intros W D L H R. pose proof (seg_add_ok _ _ _ _ _ _ W D L H) as [_ S].
  assert (K : exists b r', total l = b ++ r /\ rest l' it = Some r' /\ total l' = b ++ r').
  { unfold seg_add in H. destruct (unsnoc (l_nodes l)) as [[pre last]|] eqn:E.
    - apply unsnoc_some in E. pose proof (wf_last _ _ _ W E) as ((NE & _) & _).
      assert (AN : forall p, add_node l alloc p i t d = Some l' -> exists b r', total l = b ++ r /\ rest l' it = Some r' /\ total l' = b ++ r').
      { intros p U. unfold add_node in U. destruct alloc; [|discriminate]. apply some_inj in U. destruct (unsnoc (n_elts last)) as [[ep e]|] eqn:E2.
        - apply unsnoc_some in E2. eapply (rest_change l l' it r pre last [] last _ ep e [] e []); eauto; try lia.
          + rewrite <- U. cbn [l_nodes]. rewrite E, <- app_assoc. reflexivity.
          + eapply rest_last_pos; eauto.
        - apply unsnoc_none in E2. contradiction. }
      destruct ((t =? l_last_time l) && (i =? n_last last + 1)); [|eauto].
      destruct (unsnoc (n_elts last)) as [[ep e]|] eqn:E2; [|discriminate]. apply unsnoc_some in E2.
      destruct (e_dur e =? d) eqn:C; [|destruct (Nat.ltb (length (n_elts last)) NODE_ELTS); [|eauto]].
      + apply some_inj in H. eapply (rest_change l l' it r pre last [] _ [] ep e [] _ []);
          [exact R|exact E|rewrite <- H; reflexivity|exact E2|reflexivity|reflexivity|cbn [e_cnt]; lia|eapply rest_last_pos; eauto].
      + apply some_inj in H. eapply (rest_change l l' it r pre last [] _ [] ep e [] e);
          [exact R|exact E|rewrite <- H; reflexivity|exact E2|cbn [n_elts]; rewrite E2, <- app_assoc; reflexivity|reflexivity|lia|eapply rest_last_pos; eauto].
    - apply unsnoc_none in E. apply rest_pos in R. rewrite E in R. cbn in R. lia. }
  destruct K as (b & r' & K1 & K2 & K3). exists b. split; [exact K1|]. rewrite K2. f_equal.
  rewrite !total_segs in *. rewrite S, map_app, K1, <- app_assoc in K3. apply app_inv_head in K3. symmetry. exact K3.
Qed.

(* the last segment has an element of its own: an iterator that is followed by more is before it *)
Lemma rest_before_last l it d d' r A x B y : rest l it = Some (d :: d' :: r) -> l_nodes l = A ++ [x] -> n_elts x = B ++ [y] -> e_cnt y = 1 -> Forall okelt (n_elts x) ->
  (i_node it < length A \/ (i_node it = length A /\ i_elt it < length B))%nat /\
  (i_node it < length A -> length B = 0%nat -> A = [] \/ exists A2 w, A = A2 ++ [w] /\ (n_elts w <> [] -> (i_node it < length A2 \/ (i_node it = length A2 /\ i_elt it <= length (n_elts w) - 1))))%nat.
Proof.
  intros R EL EX C _. destruct (rest_last_pos _ _ _ _ _ _ _ R EL EX) as [P|[P1 P2]].
  - split; [auto|]. intros _ _. destruct (unsnoc A) as [[A2 w]|] eqn:U; [|left; apply unsnoc_none; auto]. apply unsnoc_some in U. right. exists A2, w.
    split; [exact U|]. intros NE. subst A. rewrite app_length in P. cbn in P.
    destruct (Nat.eq_dec (i_node it) (length A2)) as [Q|Q]; [|left; lia]. right. split; [exact Q|].
    destruct (rest_parts _ _ _ R) as (N1 & n & N2 & E1 & e & E2 & PN & PL & PE & PEL & _).
    rewrite EL, <- app_assoc in PN. cbn [app] in PN. destruct (app_cons_cases _ _ _ _ _ _ PN) as [K|[(-> & -> & _)|K]]; [lia| |lia].
    rewrite PE, app_length. cbn. lia.
  - split; [|intros; lia]. destruct (Nat.eq_dec (i_elt it) (length B)) as [Q|Q]; [|right; lia]. exfalso.
    destruct (rest_parts _ _ _ R) as (N1 & n & N2 & E1 & e & E2 & PN & PL & PE & PEL & PB & PR).
    rewrite EL in PN. destruct (app_cons_cases _ _ _ _ _ _ PN) as [K|[(-> & -> & <-)|K]]; [lia| |lia].
    rewrite EX in PE. destruct (app_cons_cases _ _ _ _ _ _ PE) as [K|[(-> & -> & <-)|K]]; [lia| |lia].
    cbn [durs flat_map] in PR. rewrite !app_nil_r in PR. apply (f_equal (@length _)) in PR. rewrite repeat_length in PR. cbn [length] in PR. lia.
Qed.

Lemma rest_update l d l' it x y r : wf l -> 0 <= d -> update_last l d = Some l' -> rest l it = Some (x :: y :: r) ->
  exists b r', total l = b ++ x :: y :: r /\ rest l' it = Some r' /\ total l' = b ++ r'.
Proof.
  intros W D H R. unfold update_last in H. destruct (unsnoc (l_nodes l)) as [[pre last]|] eqn:E; [|discriminate]. apply unsnoc_some in E.
  pose proof (wf_last _ _ _ W E) as (Wx & Wp & _). destruct (unsnoc (n_elts last)) as [[epre e]|] eqn:E2; [|discriminate]. apply unsnoc_some in E2.
  destruct (e_cnt e =? 1) eqn:C1; [|discriminate]. destruct (e_dur e =? PENDING) eqn:C2; [|discriminate]. cbn [negb] in H. apply Z.eqb_eq in C1.
  destruct (rest_before_last _ _ _ _ _ _ _ _ _ R E E2 C1 ltac:(apply Wx)) as [P P0].
  destruct (unsnoc epre) as [[epre2 e2]|] eqn:E3.
  - apply unsnoc_some in E3. subst epre. rewrite app_length in P. cbn [length] in P.
    assert (P' : (i_node it < length pre \/ (i_node it = length pre /\ i_elt it <= length epre2))%nat) by lia.
    rewrite <- app_assoc in E2. cbn [app] in E2.
    destruct (e_dur e2 =? d); apply some_inj in H.
    + eapply (rest_change l l' it _ pre last [] _ [] epre2 e2 [e] _ []);
        [exact R|exact E|rewrite <- H; reflexivity|exact E2|reflexivity|reflexivity|cbn; lia|exact P'].
    + eapply (rest_change l l' it _ pre last [] _ [] epre2 e2 [e] e2 _);
        [exact R|exact E|rewrite <- H; reflexivity|exact E2|cbn [n_elts]; rewrite <- app_assoc; reflexivity|reflexivity|lia|exact P'].
  - apply unsnoc_none in E3. subst epre. cbn [length app] in *. assert (Pn : (i_node it < length pre)%nat) by lia.
    destruct (P0 Pn eq_refl) as [->|(pre2 & prev & -> & P1)]; [cbn in Pn; lia|]. rewrite unsnoc_snoc in H.
    apply Forall_app in Wp as [_ Wp]. inversion Wp as [|? ? (NE & _) _]; subst. specialize (P1 NE).
    rewrite <- app_assoc in E. cbn [app] in E.
    destruct (unsnoc (n_elts prev)) as [[pepre pe]|] eqn:E5; [|apply unsnoc_none in E5; contradiction]. apply unsnoc_some in E5.
    rewrite E5, app_length in P1. cbn [length] in P1. replace (length pepre + 1 - 1)%nat with (length pepre) in P1 by lia.
    assert (NEW : Some (mk_slist ((pre2 ++ [prev]) ++ [mk_node (n_key last) (n_time last) (n_last last) (n_period last) ([] ++ [mk_elt 1 d])])
              (l_node_count l) (l_elt_count l) (l_seg_count l) (l_last_time l + d)) = Some l' ->
            exists b r', total l = b ++ x :: y :: r /\ rest l' it = Some r' /\ total l' = b ++ r').
    { intros U. apply some_inj in U. eapply (rest_change l l' it _ pre2 prev [last] prev _ pepre pe [] pe []);
        [exact R|exact E|rewrite <- U; cbn [l_nodes]; rewrite <- app_assoc; reflexivity|exact E5|exact E5|reflexivity|lia|exact P1]. }
    destruct (negb (n_period prev =? n_period last)); [exact (NEW H)|]. destruct (e_dur pe =? d); [|exact (NEW H)].
    apply some_inj in H. eapply (rest_change l l' it _ pre2 prev [last] _ [] pepre pe [] _ []);
      [exact R|exact E|rewrite <- H; reflexivity|exact E5|reflexivity|reflexivity|cbn; lia|exact P1].
Qed.

(* --- what an iterator of the channel stands for: the segments from some point on --- *)
Definition iat (c : chlist) (it : iter) (post : list seg) : Prop :=
  exists r pre, to_rel (cl_base c) it = Some r /\ segs (cl_list c) = pre ++ post /\ rest (cl_list c) r = Some (map s_dur post).

Lemma to_rel_abs b it : to_rel b (to_abs b it) = Some it.
Proof.
  unfold to_rel, to_abs. cbn [i_node i_elt i_off]. replace (Nat.ltb (i_node it + b) b) with false by lia.
  replace (i_node it + b - b)%nat with (i_node it) by lia. destruct it. reflexivity.
Qed.

Lemma iat_get_one c it s post : wf (cl_list c) -> iat c it (s :: post) ->
  exists it', cl_get_one c it = Some (s_dur s, it') /\ iat c it' post.
Proof.
  intros W (r & pre & A & B & C). destruct (get_one_ok _ _ _ _ W C) as (r' & G & R). unfold cl_get_one. rewrite A, G.
  eexists. split; [reflexivity|]. exists r', (pre ++ [s]). rewrite to_rel_abs, <- app_assoc. auto.
Qed.
Lemma iat_peek c it s post : wf (cl_list c) -> iat c it (s :: post) ->
  exists it', cl_peek c it = Some (s_dur s, it') /\ iat c it' (s :: post).
Proof.
  intros W (r & pre & A & B & C). destruct (peek_ok _ _ _ _ W C) as (r' & G & R). unfold cl_peek. rewrite A, G.
  eexists. split; [reflexivity|]. exists r', pre. rewrite to_rel_abs. auto.
Qed.
Lemma iat_last c pre s : wf (cl_list c) -> segs (cl_list c) = pre ++ [s] -> exists it, cl_last c = Some it /\ iat c it [s].
Proof.
  intros W E. destruct (iter_last_ok _ _ _ W E) as (it & A & B). unfold cl_last. rewrite A. eexists. split; [reflexivity|].
  exists it, pre. rewrite to_rel_abs. auto.
Qed.

Lemma app_len_inj {A} (a b c d : list A) : a ++ b = c ++ d -> length b = length d -> a = c /\ b = d.
Proof.
  revert c. induction a as [|x a IH]; intros c H L.
  - destruct c as [|y c]; [auto|]. exfalso. apply (f_equal (@length _)) in H. rewrite !app_length in H. cbn in H. lia.
  - destruct c as [|y c]; [exfalso; apply (f_equal (@length _)) in H; rewrite !app_length in H; cbn in H; lia|].
    cbn in H. injection H as <- H. destruct (IH _ H L) as [-> ->]. auto.
Qed.

Lemma iat_unique c it p q : iat c it p -> iat c it q -> p = q.
Proof.
  intros (r & a & A & B & C) (r' & a' & A' & B' & C'). rewrite A in A'. injection A' as <-. rewrite C in C'. injection C' as C'.
  rewrite B in B'. apply (f_equal (@length _)) in C'. rewrite !map_length in C'. apply app_len_inj in B'; [|exact C']. apply B'.
Qed.

Lemma iat_add c alloc i t d l' it post : wf (cl_list c) -> 0 <= d -> (forall s, In s (segs (cl_list c)) -> s_index s < i) ->
  seg_add (cl_list c) alloc i t d = Some l' -> iat c it post -> iat (mk_cl l' (cl_base c)) it (post ++ [mk_seg i t d]).
Proof.
  intros W D L H (r & pre & A & B & C).
  assert (L' : forall q y, l_nodes (cl_list c) = q ++ [y] -> n_last y < i).
  { intros q y E. destruct (last_node_seg _ _ _ W E) as (p & s & E1 & E2 & _). rewrite <- E2. apply L. rewrite E1. apply in_or_app. right. left. reflexivity. }
  destruct (rest_add _ _ _ _ _ _ _ _ W D L' H C) as (b & K1 & K2). destruct (seg_add_ok _ _ _ _ _ _ W D L' H) as [_ S].
  exists r, pre. cbn [cl_base cl_list]. split; [exact A|]. split; [rewrite S, B, app_assoc; reflexivity|]. rewrite K2, map_app. reflexivity.
Qed.

Lemma iat_update c d l' it post s s' : wf (cl_list c) -> 0 <= d -> update_last (cl_list c) d = Some l' -> iat c it (post ++ [s; s']) ->
  iat (mk_cl l' (cl_base c)) it (post ++ [s; mk_seg (s_index s') (s_time s') d]).
Proof.
  intros W D H (r & pre & A & B & C). destruct (update_last_ok _ _ _ W D H) as (_ & pre' & s2 & S1 & S2 & S3).
  assert (Q : exists a b rr, map s_dur (post ++ [s; s']) = a :: b :: rr).
  { destruct post as [|u [|v post]]; cbn; eauto. }
  destruct Q as (a & b & rr & Q). rewrite Q in C. destruct (rest_update _ _ _ _ _ _ _ W D H C) as (bb & r' & K1 & K2 & K3).
  rewrite <- Q in K1. assert (E2 : pre ++ post ++ [s] = pre' /\ s' = s2).
  { rewrite S1 in B. replace (pre ++ post ++ [s; s']) with ((pre ++ post ++ [s]) ++ [s']) in B by (rewrite <- !app_assoc; reflexivity).
    apply snoc_inj in B as [-> ->]. auto. }
  destruct E2 as [E2 <-].
  exists r, pre. cbn [cl_base cl_list]. split; [exact A|]. split.
  { rewrite S3, <- E2, <- !app_assoc. reflexivity. }
  rewrite K2. f_equal. rewrite !total_segs in *. rewrite B, map_app in K1. apply app_len_inj in K1 as [K1 _]; [|reflexivity].
  rewrite S3, <- E2, <- !app_assoc, map_app, K1 in K3. apply app_inv_head in K3. rewrite <- K3. reflexivity.
Qed.

Lemma segs_numbered l : wf l -> numbered (segs l).
Proof. intros (W1 & W2 & _). apply segs_of_numbered; auto. Qed.

Lemma iat_free c min it s post : wf (cl_list c) -> iat c it (s :: post) -> min <= s_index s -> iat (cl_free c min) it (s :: post).
Proof.
  intros W (r & pre & A & B & C) M. destruct (free_nodes_ok (cl_list c) min W) as (W' & dn & kn & N1 & N2 & N3 & N4 & N5).
  unfold to_rel in A. destruct (Nat.ltb (i_node it) (cl_base c)) eqn:LB; [discriminate|]. injection A as <-.
  set (r := mk_iter (i_node it - cl_base c) (i_elt it) (i_off it)) in *.
  destruct (rest_parts _ _ _ C) as (Na & n & Nb & E1 & e & E2 & PN & PL & PE & PEL & PB & PR).
  assert (LEN : length (map s_dur (s :: post)) = length (s :: post)) by apply map_length.
  destruct (Nat.lt_ge_cases (i_node r) (length dn)) as [K|K].
  - (* the node of the iterator is freed: then its next segment is freed *)
    exfalso. rewrite N1 in PN. assert (PNl : (length Na < length dn)%nat) by lia.
    assert (exists k kr, kn = k :: kr) as (k & kr & ->).
    { destruct kn as [|k kr]; [|eauto]. exfalso. apply N2; [|reflexivity]. rewrite N1, app_nil_r. intros ->. cbn in K. lia. }
    symmetry in PN. destruct (app_cons_lt _ _ _ _ _ _ PN PNl) as (m & Q1 & Q2).
    (* the first segment of the kept nodes is in post *)
    destruct (node_first k) as (f & fr & F1 & F2 & _).
    { destruct W as (W1 & _). rewrite N1 in W1. apply Forall_app in W1 as [_ W1]. inversion W1; auto. }
    assert (LQ : (length (segs_of (k :: kr)) <= length (s :: post))%nat).
    { rewrite <- LEN, PR, !app_length. assert (X : length (segs_of (k :: kr)) = length (flat_map (fun n => durs (n_elts n)) (k :: kr))) by (rewrite <- map_segs_of, map_length; reflexivity).
      rewrite X, Q2, flat_map_app, app_length. lia. }
    unfold segs in B. rewrite N1, segs_of_app in B.
    assert (exists q, s :: post = q ++ segs_of (k :: kr)) as (q & Q).
    { exists (firstn (length (s :: post) - length (segs_of (k :: kr))) (s :: post)).
      assert (Y : skipn (length (s :: post) - length (segs_of (k :: kr))) (s :: post) = segs_of (k :: kr)).
      { assert (Z : skipn (length pre + (length (s :: post) - length (segs_of (k :: kr)))) (pre ++ s :: post) = segs_of (k :: kr)).
        { rewrite <- B, skipn_app, skipn_all2; [|apply (f_equal (@length _)) in B; rewrite !app_length in B; lia].
          apply (f_equal (@length _)) in B. rewrite !app_length in B.
          replace (length pre + (length (s :: post) - length (segs_of (k :: kr))) - length (segs_of dn))%nat with 0%nat by lia. reflexivity. }
        rewrite skipn_app, skipn_all2 in Z by lia. replace (length pre + (length (s :: post) - length (segs_of (k :: kr))) - length pre)%nat
          with (length (s :: post) - length (segs_of (k :: kr)))%nat in Z by lia. exact Z. }
      rewrite <- Y at 2. symmetry. apply firstn_skipn. }
    (* so s is not after f, and f is before min *)
    pose proof (segs_numbered _ W) as NU. unfold segs in NU. rewrite N1, segs_of_app in NU.
    assert (SF : s_index s <= s_index f).
    { destruct q as [|q0 q].
      - cbn [app] in Q. cbn [segs_of flat_map] in Q. rewrite F1 in Q. cbn in Q. injection Q as <- _. lia.
      - cbn [app] in Q. injection Q as <- Q. rewrite B in NU. apply Z.lt_le_incl. eapply numbered_lt; [exact NU|]. rewrite Q. apply in_or_app. right.
        cbn [segs_of flat_map]. rewrite F1. left. reflexivity. }
    (* the key of the first kept node is below min, because the node before was freed *)
    assert (KM : n_key k < min).
    { clear - N1 N3 K W. unfold free_nodes in N3. revert N3. generalize (l_node_count (cl_list c)) (l_elt_count (cl_list c)) (l_seg_count (cl_list c)).
      rewrite N1. clear W N1. intros a b d. destruct dn as [|x dn]; [cbn in K; lia|]. clear K.
      revert a b d x. induction dn as [|y dn IH]; intros a b d x H.
      - cbn [app free_loop] in H. destruct (min <=? n_key k) eqn:Q; [|lia]. cbn [l_nodes] in H. apply (f_equal (@length _)) in H. cbn in H. lia.
      - change ((x :: y :: dn) ++ k :: kr) with (x :: (y :: dn) ++ k :: kr) in H. change (free_loop (x :: (y :: dn) ++ k :: kr) a b d min) with
          (if min <=? n_key y then (x :: (y :: dn) ++ k :: kr, a, b, d) else free_loop ((y :: dn) ++ k :: kr) (a - 1) (b - Z.of_nat (length (n_elts x))) (d - (n_last x + 1 - n_key x)) min) in H.
        destruct (min <=? n_key y).
        + cbn [l_nodes] in H. apply (f_equal (@length _)) in H. cbn in H. rewrite app_length in H. cbn in H. lia.
        + eapply IH. exact H. }
    lia.
  - (* the node is kept *)
    assert (LD : (length (l_nodes (cl_list c)) - length (l_nodes (free_nodes (cl_list c) min)) = length dn)%nat).
    { rewrite N3, N1, app_length. lia. }
    unfold r in K. cbn [i_node] in K. exists (mk_iter (i_node it - (cl_base c + length dn)) (i_elt it) (i_off it)). unfold cl_free. cbn [cl_base cl_list]. rewrite LD.
    assert (SP : exists pre', pre = segs_of dn ++ pre').
    { rewrite N1 in PN. assert (exists u, Na = dn ++ u) as (u & ->).
      { exists (skipn (length dn) Na). rewrite <- (firstn_skipn (length dn) Na) at 1. f_equal.
        apply (f_equal (firstn (length dn))) in PN. rewrite firstn_app, Nat.sub_diag, firstn_all, app_nil_r in PN.
        rewrite firstn_app in PN. replace (length dn - length Na)%nat with 0%nat in PN by (unfold r in PL; cbn in PL; lia). cbn in PN. rewrite app_nil_r in PN. auto. }
      exists (skipn (length (segs_of dn)) pre). unfold segs in B. rewrite N1, segs_of_app in B.
      assert (LL : (length (segs_of dn) <= length pre)%nat).
      { assert (X : (length (segs_of dn) + length (segs_of kn) = length pre + length (s :: post))%nat) by (rewrite <- !app_length, B; reflexivity).
        rewrite <- LEN, PR in X. rewrite <- app_assoc in PN. apply app_inv_head in PN. rewrite PN, segs_of_app in X. cbn [segs_of flat_map] in X.
        fold (segs_of Nb) in X. rewrite !app_length in X.
        assert (Y : length (flat_map (fun n => durs (n_elts n)) Nb) = length (segs_of Nb)) by (rewrite <- map_segs_of, map_length; reflexivity).
        assert (Z : length (node_segs n) = (length (durs E1) + (Z.to_nat (e_cnt e) + length (durs E2)))%nat).
        { rewrite <- (map_length s_dur). unfold node_segs. rewrite map_expand, PE, durs_app. cbn [durs flat_map]. fold (durs E2). rewrite !app_length, repeat_length. reflexivity. }
        rewrite repeat_length in X. lia. }
      rewrite <- (firstn_skipn (length (segs_of dn)) pre) at 1. f_equal. apply (f_equal (firstn (length (segs_of dn)))) in B.
      rewrite firstn_app, Nat.sub_diag, firstn_all, app_nil_r in B. rewrite firstn_app in B.
      replace (length (segs_of dn) - length pre)%nat with 0%nat in B by lia. cbn in B. rewrite app_nil_r in B. auto. }
    destruct SP as (pre' & ->). exists pre'. split; [unfold to_rel; replace (Nat.ltb (i_node it) (cl_base c + length dn)) with false by lia; reflexivity|].
    split.
    { unfold segs in *. rewrite N3. rewrite N1, segs_of_app, <- app_assoc in B. apply app_inv_head in B. exact B. }
    rewrite <- C. unfold rest, r. cbn [i_node i_elt i_off]. rewrite N3, N1.
    rewrite nth_error_app2 by lia. replace (i_node it - cl_base c - length dn)%nat with (i_node it - (cl_base c + length dn))%nat by lia.
    assert (SK : skipn (S (i_node it - (cl_base c + length dn))) kn = skipn (S (i_node it - cl_base c)) (dn ++ kn)).
    { rewrite skipn_app, (skipn_all2 dn) by lia. cbn [app]. f_equal. lia. }
    rewrite SK. reflexivity.
Qed.
