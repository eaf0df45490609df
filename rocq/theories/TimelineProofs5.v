(* Adding a segment to a timeline. *)
From Coq Require Import List ZArith Bool Lia ZifyBool ZifyNat.
From Verif Require Import SegListModel SegListSpec SegListProofs SegListProofs2 SegListProofs3 TimelineModel TimelineSpec TimelineProofs TimelineProofs2 TimelineProofs3 TimelineProofs4.
Import ListNotations.
Local Open Scope Z_scope.

Lemma grow_snoc V v s : grow (V ++ [v]) s = V ++ [mk_pv (v_start v) (v_corr v) (v_segs v ++ [s])].
Proof. induction V as [|w V IH]; [reflexivity|]. cbn [app grow]. rewrite IH. destruct V; reflexivity. Qed.
Lemma flat_snoc V v : flat (V ++ [v]) = flat V ++ v_segs v.
Proof. rewrite flat_app, flat_cons. cbn [flat flat_map]. rewrite app_nil_r. reflexivity. Qed.

Lemma put_flat V s newp corr : (newp = false -> V <> []) -> flat (put V s newp corr) = flat V ++ [s].
Proof.
  unfold put. destruct newp; intros H; [rewrite flat_snoc; reflexivity|]. specialize (H eq_refl). destruct (unsnoc V) as [[V0 v]|] eqn:E.
  - apply unsnoc_some in E as ->. rewrite grow_snoc, !flat_snoc. cbn [v_segs]. rewrite app_assoc. reflexivity.
  - apply unsnoc_none in E. contradiction.
Qed.

(* the manifest: a new period *)
Definition mput (MV : list pview) (s : seg) (newp : bool) (corr : Z) : list pview := match MV with [] => [mk_pv (s_time s) corr [s]] | _ => put MV s newp corr end.

Lemma pers_snoc c ps V p v : pers c ps V -> prel c p v -> pers c (ps ++ [p]) (V ++ [v]).
Proof. intros A B. apply Forall2_app; [exact A|constructor; [exact B|constructor]]. Qed.
Lemma head_id_snoc ps p : ps <> [] -> head_id (ps ++ [p]) = head_id ps.
Proof. destruct ps; [contradiction|reflexivity]. Qed.

Lemma first_pok c it s id corr : iat c it [s] -> pok c (mk_period id (s_index s) it (s_time s) corr (0 + s_dur s) (0 + 1)) [s].
Proof. intros A. split; [exists []; exact A|]. cbn. split; [auto|]. split; lia. Qed.

Lemma m_first_ok c ps V m it s now corr P1 p v V1 pre : cl_last c = Some it -> iat c it [s] -> mok c ps V m [] ->
  ps = P1 ++ [p] -> V = V1 ++ [v] -> length P1 = length V1 -> v_segs v = pre ++ [s] ->
  forall ps0 V0, mok c ps0 V0 m [] ->
  exists m1, m_add_first_period c m (s_time s) (s_index s) = Some m1 /\ mok c ps V (m_add_segment m1 now (s_dur s)) [mk_pv (s_time s) corr [s]] /\
    m_conf m1 = m_conf m /\ m_target m1 = m_target m /\ m_target_segs m1 = m_target_segs m /\ m_seq m1 = m_seq m /\ m_durs m1 = m_durs m /\ m_pindex m1 = m_pindex m.
Proof.
  intros CL A (M1 & M2 & M3 & _) EP EV L E _ _ _. unfold m_add_first_period. rewrite CL. eexists. split; [reflexivity|].
  split; [|repeat split].
  split; [cbn; cbn in M1; lia|]. split; [cbn; cbn in M2; lia|]. split; [reflexivity|].
  exists P1, p, [], V1, v, pre. cbn [v_segs v_start]. split; [exact EP|]. split; [exact EV|]. split; [exact L|]. split; [exact E|]. split; [discriminate|].
  split; [|split; reflexivity]. cbn -[Z.add]. apply first_pok. exact A.
Qed.

Lemma m_new_ok c ps V m MV p it s now corr mcorr : cl_last c = Some it -> iat c it [s] -> pers c ps V -> mok c ps V m MV ->
  p_time p = s_time s -> p_key p = s_index s ->
  exists m1, m_add_period c m p = Some m1 /\
    mok c (ps ++ [period_add p (s_dur s)]) (V ++ [mk_pv (s_time s) corr [s]]) (m_add_segment m1 now (s_dur s)) (match MV with [] => [mk_pv (s_time s) mcorr [s]] | _ => MV ++ [mk_pv (s_time s) corr [s]] end) /\
    m_conf m1 = m_conf m /\ m_target m1 = m_target m /\ m_target_segs m1 = m_target_segs m /\ m_seq m1 = m_seq m /\ m_durs m1 = m_durs m /\ m_pindex m1 = m_pindex m.
Proof.
  intros CL A P M ET EK. unfold m_add_period. pose proof M as (M1 & M2 & M3 & MM). destruct MV as [|mv V2].
  - rewrite M3. change (len [] =? 0) with true. cbn iota. rewrite ET, EK.
    eapply m_first_ok; [exact CL|exact A| |reflexivity|reflexivity| | |exact M].
    + split; [exact M1|]. split; [exact M2|]. split; [exact M3|exact Logic.I].
    + apply Forall2_length in P. exact P.
    + instantiate (1 := []). reflexivity.
  - rewrite len_cons in M3. pose proof (len_nonneg V2). replace (m_pcount m =? 0) with false by lia. eexists. split; [reflexivity|]. split; [|repeat split].
    destruct MM as (P1 & q & P2 & V1 & v & pre & EP & EV & L & E & NE & K & NX & S).
    unfold m_add_segment. cbn [m_pcount]. replace (m_pcount m + 1 =? 1) with false by lia.
    split; [cbn [m_count]; rewrite flat_snoc, len_app, M1; reflexivity|]. split; [cbn [m_dur]; rewrite flat_snoc, sum_app, M2; cbn; lia|].
    split; [cbn [m_pcount]; rewrite len_app, len_cons; change (len [mk_pv (s_time s) corr [s]]) with 1; lia|].
    cbn [app]. exists P1, q, (P2 ++ [period_add p (s_dur s)]), V1, v, pre. cbn [m_first m_next m_init_time].
    split; [rewrite EP, <- app_assoc; reflexivity|]. split; [rewrite EV, <- app_assoc; reflexivity|]. repeat (split; [assumption|]). split; [|exact S].
    assert (L2 : length P2 = length V2) by (rewrite EP, EV in P; apply Forall2_length in P; rewrite !app_length in P; cbn in P; lia).
    destruct (m_pcount m =? 1) eqn:C.
    + assert (V2 = []) as -> by (apply len_zero; lia). destruct P2; [reflexivity|cbn in L2; lia].
    + rewrite head_id_snoc; [exact NX|]. intros ->. destruct V2; [rewrite M3 in C; cbn in C; discriminate|cbn in L2; lia].
Qed.

(* a segment that continues a period *)
Lemma pok_extend c p ss s now_segs : segs (cl_list c) = now_segs ++ [s] -> numbered (segs (cl_list c)) -> pok c p ss -> ss <> [] -> s_time s = p_time p + p_dur p -> s_index s = p_key p + p_count p ->
  pok c (period_add p (s_dur s)) (ss ++ [s]).
Proof.
  intros E N ((post & A) & K & D & C) NE T I. split.
  - cbn [period_add p_iter].
    (* only s can follow *)
    assert (post = [s]) as ->.
    { pose proof A as (_ & pre & _ & E2 & _). assert (PN : post <> []).
      { intros ->. rewrite app_nil_r in E2. rewrite E in E2. destruct (unsnoc ss) as [[ss0 x]|] eqn:U; [|apply unsnoc_none in U; contradiction]. apply unsnoc_some in U. subst ss.
        rewrite app_assoc in E2. apply snoc_inj in E2 as [_ <-]. assert (B : In s (ss0 ++ [s])) by (apply in_or_app; right; left; reflexivity).
        pose proof (pok_next c p (ss0 ++ [s]) s) as Q. 
        assert (PK : pok c p (ss0 ++ [s])) by (split; [exists []; exact A|split; [exact K|split; assumption]]). specialize (Q PK B). lia. }
      destruct (unsnoc post) as [[q x]|] eqn:U; [|apply unsnoc_none in U; contradiction]. apply unsnoc_some in U. subst post.
      assert (x = s /\ now_segs = pre ++ ss ++ q) as [-> EQ].
      { rewrite E in E2. rewrite !app_assoc in E2. apply snoc_inj in E2 as [-> ->]. split; [reflexivity|rewrite app_assoc; reflexivity]. }
      destruct q as [|y q]; [reflexivity|]. exfalso.
      destruct (unsnoc ss) as [[ss0 z]|] eqn:U; [|apply unsnoc_none in U; contradiction]. apply unsnoc_some in U. subst ss.
      rewrite E, EQ in N. replace ((pre ++ (ss0 ++ [z]) ++ y :: q) ++ [s]) with ((pre ++ ss0) ++ z :: y :: q ++ [s]) in N by (rewrite <- ?app_assoc; cbn [app]; rewrite <- ?app_assoc; reflexivity).
      assert (N1 : s_index z < s_index y) by (eapply numbered_lt; [exact N|left; reflexivity]).
      replace ((pre ++ ss0) ++ z :: y :: q ++ [s]) with ((pre ++ ss0 ++ [z]) ++ y :: q ++ [s]) in N by (rewrite <- !app_assoc; reflexivity).
      assert (N2 : s_index y < s_index s) by (eapply numbered_lt; [exact N|apply in_or_app; right; left; reflexivity]).
      apply consec_app in K as [_ (K & _)]. rewrite len_app in C. change (len [z]) with 1 in C. lia. }
    exists []. rewrite app_nil_r. exact A.
  - cbn [period_add p_key p_time p_dur p_count]. split; [|rewrite sum_app, len_app, D, C; cbn; split; [lia|reflexivity]].
    apply consec_app. split; [exact K|]. cbn [consecutive]. rewrite <- C, <- D. auto.
Qed.

Lemma m_ext_ok c P V0 p v m MV s now it corr now_segs : cl_last c = Some it -> iat c it [s] -> segs (cl_list c) = now_segs ++ [s] -> numbered (segs (cl_list c)) ->
  pers c (P ++ [p]) (V0 ++ [v]) -> mok c (P ++ [p]) (V0 ++ [v]) m MV -> s_time s = p_time p + p_dur p -> s_index s = p_key p + p_count p ->
  exists m1, (if m_pcount m =? 0 then m_add_first_period c m (s_time s) (s_index s) else Some m) = Some m1 /\
    mok c (P ++ [period_add p (s_dur s)]) (V0 ++ [mk_pv (v_start v) (v_corr v) (v_segs v ++ [s])]) (m_add_segment m1 now (s_dur s)) (mput MV s false corr) /\
    m_conf m1 = m_conf m /\ m_target m1 = m_target m /\ m_target_segs m1 = m_target_segs m /\ m_seq m1 = m_seq m /\ m_durs m1 = m_durs m /\ m_pindex m1 = m_pindex m.
Proof.
  intros CL A EN N P0 M T I. pose proof M as (M1 & M2 & M3 & MM). pose proof (Forall2_length _ _ _ P0) as LL. rewrite !app_length in LL. cbn in LL.
  destruct MV as [|mv V2].
  - rewrite M3. change (len [] =? 0) with true. cbn iota. unfold mput.
    eapply m_first_ok; [exact CL|exact A| |reflexivity|reflexivity|lia| |exact M].
    + split; [exact M1|]. split; [exact M2|]. split; [exact M3|exact Logic.I].
    + reflexivity.
  - rewrite len_cons in M3. pose proof (len_nonneg V2). replace (m_pcount m =? 0) with false by lia. eexists. split; [reflexivity|]. split; [|repeat split].
    destruct MM as (P1 & q & P2 & V1 & u & pre & EP & EV & L & E & NE & K & NX & S). unfold mput, put, m_add_segment.
    destruct (unsnoc V2) as [[V2' w]|] eqn:U.
    + apply unsnoc_some in U. subst V2. replace (m_pcount m =? 1) with false by (rewrite len_app in M3; change (len [w]) with 1 in M3; pose proof (len_nonneg V2'); lia).
      change (grow (mv :: V2' ++ [w]) s) with (grow ((mv :: V2') ++ [w]) s). rewrite grow_snoc.
      replace (V1 ++ u :: V2' ++ [w]) with ((V1 ++ u :: V2') ++ [w]) in EV by (rewrite <- app_assoc; reflexivity). apply snoc_inj in EV as [-> ->].
      assert (exists P2', P2 = P2' ++ [p] /\ P = P1 ++ q :: P2') as (P2' & -> & ->).
      { destruct (unsnoc P2) as [[P2' p2]|] eqn:U2.
        - apply unsnoc_some in U2. subst P2. replace (P1 ++ q :: P2' ++ [p2]) with ((P1 ++ q :: P2') ++ [p2]) in EP by (rewrite <- app_assoc; reflexivity).
          apply snoc_inj in EP as [-> ->]. eauto.
        - apply unsnoc_none in U2. subst P2. apply snoc_inj in EP as [-> ->]. rewrite app_length in LL. cbn in LL. lia. }
      change (mv :: V2' ++ [w]) with ((mv :: V2') ++ [w]) in M1, M2. rewrite !flat_snoc in *. 
      split; [cbn [m_count]; rewrite M1, !flat_snoc; cbn [v_segs]; rewrite !len_app; change (len [s]) with 1; lia|].
      split; [cbn [m_dur]; rewrite M2, !flat_snoc; cbn [v_segs]; rewrite !sum_app; cbn [sum_dur]; lia|].
      split; [cbn [m_pcount]; rewrite M3; unfold len; cbn [app length]; rewrite !app_length; cbn [length]; lia|].
      cbn [app]. exists P1, q, (P2' ++ [period_add p (s_dur s)]), V1, u, pre. cbn [m_first m_next m_init_time].
      split; [rewrite <- app_assoc; reflexivity|]. split; [rewrite <- app_assoc; reflexivity|]. repeat (split; [assumption|]). split; [|exact S].
      rewrite NX. destruct P2'; reflexivity.
    + apply unsnoc_none in U. subst V2. rewrite len_nil in M3. replace (m_pcount m =? 1) with true by lia. apply snoc_inj in EV as [-> ->].
      assert (P2 = [] /\ P = P1 /\ p = q) as (-> & -> & ->).
      { destruct (unsnoc P2) as [[P2' p2]|] eqn:U2.
        - apply unsnoc_some in U2. subst P2. replace (P1 ++ q :: P2' ++ [p2]) with ((P1 ++ q :: P2') ++ [p2]) in EP by (rewrite <- app_assoc; reflexivity).
          apply snoc_inj in EP as [-> ->]. rewrite app_length in LL. cbn in LL. lia.
        - apply unsnoc_none in U2. subst P2. apply snoc_inj in EP as [-> ->]. auto. }
      cbn [grow]. rewrite flat_cons in M1, M2. cbn [flat flat_map] in M1, M2. rewrite app_nil_r in M1, M2.
      split; [cbn [m_count]; rewrite flat_cons; cbn [v_segs flat flat_map]; rewrite app_nil_r, len_app, M1; reflexivity|].
      split; [cbn [m_dur]; rewrite flat_cons; cbn [v_segs flat flat_map]; rewrite app_nil_r, sum_app, M2; cbn; lia|].
      split; [cbn [m_pcount]; rewrite M3; reflexivity|].
      exists P1, (period_add q (s_dur s)), [], V1, (mk_pv (v_start u) (v_corr u) (v_segs u ++ [s])), pre. cbn [m_first m_next m_init_time v_segs v_start].
      split; [reflexivity|]. split; [reflexivity|]. split; [exact L|]. split; [rewrite E, <- app_assoc; reflexivity|].
      split; [intros Q; apply app_eq_nil in Q as [_ Q]; discriminate|]. split; [|auto].
      (* the manifest ends where the timeline ends *)
      apply Forall2_split in P0 as [_ P0]; [|exact L]. inversion P0 as [|? ? ? ? (R & _) _]; subst.
      eapply pok_extend; eauto.
      * destruct R as (_ & R2 & R3 & R4). destruct K as (_ & K2 & K3 & K4). rewrite E in R2, R3, R4. apply consec_app in R2 as [_ R2]. rewrite K3, R3 in *.
        rewrite sum_app in T. destruct (v_segs mv) as [|a ms]; [contradiction|]. destruct R2 as (_ & R2 & _). destruct K2 as (_ & K2 & _). lia.
      * destruct R as (_ & R2 & R3 & R4). destruct K as (_ & K2 & K3 & K4). rewrite E in R2, R3, R4. apply consec_app in R2 as [_ R2]. rewrite K4, R4 in *.
        rewrite len_app in I. destruct (v_segs mv) as [|a ms]; [contradiction|]. destruct R2 as (R2 & _). destruct K2 as (K2 & _). lia.
Qed.
