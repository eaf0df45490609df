(* Index files: a state that is written and read again. *)
From Coq Require Import ZArith List Bool Lia ZifyBool Arith.
From Verif Require Import Bytes GapModel GapSpec GapProofs GapProofs2 GapProofs3.
Import ListNotations.
Open Scope Z_scope.

Lemma run_last c h : forall x g, c_gaps c = true -> Forall op_ok h -> made (last_opt x) (h ++ g) = made (last_opt x) h ++ made (last_opt (run c x h)) g.
Proof.
  induction h as [|o h IH]; intros x g G O; [reflexivity|]. inversion O as [|? ? O1 O2]; subst. change (run c x (o :: h)) with (run c (step c x o) h). cbn [app made]. destruct o as [i b|m]; cbn [step].
  - assert (last_opt (created c x i b) = if match last_opt x with Some k => k <? i | None => true end then Some i else last_opt x) as L.
    { destruct O1 as [Oi _]. unfold created, last_opt. rewrite G. rewrite andb_false_r. cbn [negb]. rewrite andb_false_r. assert (i =? INVALID = false) as QI by (unfold INVALID; lia). destruct (x_index x =? INVALID) eqn:Q.
      - cbn [negb]. rewrite andb_false_r. cbv zeta. destruct (_ && _); cbn [x_index]; rewrite QI; reflexivity.
      - cbn [negb]. rewrite andb_true_r. destruct (x_index x <? i) eqn:Q2.
        + assert (i <=? x_index x = false) as -> by lia. cbv zeta. destruct (_ && _); cbn [x_index]; rewrite QI; reflexivity.
        + assert (i <=? x_index x = true) as -> by lia. rewrite Q. reflexivity. }
    pose proof (IH (created c x i b) g G O2) as E. rewrite L in E. destruct (match last_opt x with Some k => k <? i | None => true end); [cbn [app]; rewrite E; reflexivity | exact E].
  - assert (last_opt (freed x m) = last_opt x) as L by (unfold freed, last_opt; destruct (m <? x_minfree x); reflexivity). pose proof (IH (freed x m) g G O2) as E. rewrite L in E. exact E.
Qed.
Lemma made_after k h : forall last, Forall (op_after k) h -> Forall (fun e => k < fst e) (made last h).
Proof.
  induction h as [|o h IH]; intros last O; [constructor|]. inversion O as [|? ? O1 O2]; subst. cbn [made]. destruct o as [i b|m]; [|apply IH, O2]. destruct (match last with Some k0 => k0 <? i | None => true end); [constructor; [exact O1|]|]; apply IH, O2.
Qed.
Lemma freed_after k h : 0 <= k -> Forall (op_after k) h -> freed_to h <= k.
Proof. intros K. induction h as [|o h IH]; intros O; [exact K|]. inversion O as [|? ? O1 O2]; subst. specialize (IH O2). cbn [freed_to]. destruct o as [i b|m]; [exact IH|]. cbn in O1. lia. Qed.
(* what comes later does not change what is known *)
Lemma run_stable c k h : forall x K F, c_gaps c = true -> conf_ok c -> Forall op_ok h -> Forall (op_after k) h -> 0 <= F -> rec_inv c x K F ->
  rate_at 0 (flat (x_nodes (run c x h))) k = rate_at 0 (flat (x_nodes x)) k.
Proof.
  induction h as [|o h IH]; intros x K F G C O A HF R; [reflexivity|]. inversion O as [|? ? O1 O2]; inversion A as [|? ? A1 A2]; subst. change (run c x (o :: h)) with (run c (step c x o) h). destruct o as [i b|m]; cbn [step op_ok op_after] in *.
  - destruct O1 as [Oi Ob]. pose proof (created_inv c x K F i b G C ltac:(unfold INVALID; lia) Ob R) as R1. rewrite (IH _ _ F G C O2 A2 HF R1).
    unfold created. destruct (_ && _); [reflexivity|]. destruct (_ && _); [reflexivity|]. cbv zeta. destruct (_ && _); [reflexivity|]. destruct (_ && _); [reflexivity|]. cbn [x_nodes]. rewrite (proj1 (push_spec _ _)), rate_app. apply rate_after. constructor; [cbn [fst]; lia | constructor].
  - pose proof (freed_inv c x K F m R) as R1. rewrite (IH _ _ (Z.max m F) G C O2 A2 ltac:(lia) R1). unfold freed. destruct (m <? x_minfree x); [reflexivity|]. cbn [x_nodes]. apply (free_spec (x_nodes x) m (proj1 R)). exact A1.
Qed.

Lemma tl_kept some min l : Forall (fun e => min <= fst e) (tl l) -> Forall (fun e => min <= fst e) (tl (kept some min l)).
Proof. destruct l as [|e r]; [tauto|]. cbn [tl kept]. intros H. destruct (_ && _); [|exact H]. destruct r; [constructor|]. inversion H; assumption. Qed.

(* what a track knows after a restart *)
Definition small (e : elt) : Prop := 0 <= fst e /\ 0 <= snd e /\ snd e * 100 < 2 ^ 32.
Definition known (y : ctx) : Prop := x_index y = INVALID /\ x_rate y = 100 * snd (last (flat (x_nodes y)) (0, 0)) /\ Forall small (flat (x_nodes y)).

Lemma block_step y x t k max : wf (x_nodes y) -> Forall (fun e => fst e <= k) (flat (x_nodes y)) -> wf (x_nodes x) -> Forall (fun e => 0 <= fst e) (flat (x_nodes x)) -> tree_of t x ->
  -1 <= k < max -> max < 2 ^ 32 - 1 -> (rate_at 0 (flat (x_nodes y)) k = rate_at 0 (flat (x_nodes x)) k \/ x_nodes y = []) ->
  exists y', read_index y (k + 1) max (match write_index x t (k + 1) max with Some l => l | None => [] end) = Some y' /\ wf (x_nodes y') /\ x_init y' = x_init y
    /\ Forall (fun e => fst e <= max) (flat (x_nodes y')) /\ (forall i, k < i <= max -> rate_at 0 (flat (x_nodes y')) i = rate_at 0 (flat (x_nodes x)) i)
    /\ (rate_at 0 (flat (x_nodes y)) k = rate_at 0 (flat (x_nodes x)) k -> forall i, i <= k -> rate_at 0 (flat (x_nodes y')) i = rate_at 0 (flat (x_nodes y)) i)
    /\ (known y -> Forall small (flat (x_nodes x)) -> known y').
Proof.
  intros WY LY WX PX T Hk HM AG. set (l := match write_index x t (k + 1) max with Some l => l | None => [] end).
  assert (l = upto max (skip_to (k + 1) (flat (x_nodes x)))) as EL. { unfold l. pose proof (write_spec x t (k + 1) max WX T) as W. destruct (write_index x t (k + 1) max); [exact W|]. rewrite W. reflexivity. }
  clearbody l. destruct (skip_facts (k + 1) (flat (x_nodes x)) (proj2 WX)) as (p & P1 & P2 & P3). set (s := skip_to (k + 1) (flat (x_nodes x))) in *.
  pose proof (proj2 WX) as IX. rewrite P1 in IX. apply inc_app in IX. destruct IX as (Ip & Is & Ips). clearbody s. rewrite P1 in *. clear P1.
  assert (inc l) as Il by (rewrite EL; apply upto_inc, Is). assert (Forall (fun e => fst e <= max) l) as Lmax by (rewrite EL; apply upto_le).
  assert (Forall (fun e => 0 <= fst e) l) as Lpos. { rewrite EL, Forall_forall. intros e E. apply upto_in in E. rewrite Forall_forall in PX. apply PX, in_app_iff. right. exact E. }
  assert (Forall (fun e => k + 1 < fst e) (tl l)) as Ltl. { rewrite EL. destruct s as [|e r]; [constructor|]. cbn [upto]. destruct (fst e <=? max); [|constructor]. cbn [tl]. rewrite Forall_forall. intros f F. apply upto_in in F. destruct P3 as [P3 _]. rewrite Forall_forall in P3. apply P3, F. }
  destruct (read_spec y (k + 1) max l WY) as (y' & R1 & R2 & R3 & R5 & R6 & R4); try assumption; try lia.
  { rewrite Forall_forall in *. intros e E. specialize (LY e E). lia. } { rewrite Forall_forall in *. intros e E. specialize (Lmax e E). specialize (Lpos e E). lia. } { rewrite Forall_forall in *. intros e E. specialize (Ltl e E). lia. }
  exists y'. split; [exact R1|].
  assert (known y -> Forall small (p ++ s) -> known y') as KN.
  { intros (K1 & K2 & K3) SM. assert (Forall small (flat (x_nodes y'))) as SY.
    { rewrite R4. apply Forall_app. split; [exact K3|]. apply Forall_app in SM. destruct SM as [_ SM]. rewrite Forall_forall in *. intros e He. apply SM. apply (upto_in max). rewrite <- EL. destruct l as [|z l]; [exact He|]. cbn [kept] in He. destruct (_ && _); [right; exact He | exact He]. }
    split; [rewrite R5; exact K1|]. split; [|exact SY]. destruct R6 as [->|R6]; [exact K2|]. rewrite R6. rewrite Z.mul_comm. unfold u32. apply Z.mod_small.
    destruct (flat (x_nodes y')) as [|z q]; [cbn; lia|]. rewrite Forall_forall in SY. destruct (SY _ (last_in (z :: q) (0, 0) ltac:(discriminate))) as (_ & S1 & S2). lia. }
  match goal with |- ?A /\ ?B /\ ?C /\ ?D /\ ?E /\ ?F => assert (A /\ B /\ C /\ D /\ E) as FIN; [clear KN R5 R6|tauto] end.
  (* the rates of the block *)
  assert (forall i, i <= max -> rate_at 0 (p ++ s) i = rate_at (rate_at 0 p i) l i) as RX. { intros i Hi. rewrite rate_app, EL, upto_rate by assumption. reflexivity. }
  set (some := match x_nodes y with [] => false | _ => true end) in *. assert (some = false -> flat (x_nodes y) = []) as SF by (unfold some; destruct (x_nodes y); [reflexivity | discriminate]).
  assert (some = true -> rate_at 0 (flat (x_nodes y)) k = rate_at 0 (p ++ s) k) as ST. { intros S1. destruct AG as [AG|AG]; [exact AG|]. unfold some in S1. rewrite AG in S1. discriminate S1. }
  rewrite R4. rewrite (RX k ltac:(lia)) in *.
  destruct l as [|e r].
  { (* nothing to read *)
    cbn [kept]. rewrite app_nil_r. split; [split; [exact R2 | rewrite R4; cbn [kept]; rewrite app_nil_r; exact (proj2 WY)]|]. split; [exact R3|]. split; [rewrite Forall_forall in *; intros f F; specialize (LY f F); lia|]. split; [|reflexivity].
    intros i Hi. rewrite (RX i ltac:(lia)). cbn [rate_at fold_left] in *.
    assert (p = []) as ->. { destruct s as [|e r]; [destruct p; [reflexivity | discriminate P3]|]. cbn [upto] in EL. destruct (fst e <=? max) eqn:Q; [discriminate EL|]. destruct p as [|z p]; [reflexivity|]. destruct P3 as [_ P3]. specialize (P3 ltac:(discriminate)). lia. }
    cbn [rate_at fold_left]. rewrite rate_before by (rewrite Forall_forall in *; intros f F; specialize (LY f F); lia).
    destruct some eqn:S1; [|rewrite (SF eq_refl); reflexivity]. specialize (ST eq_refl). cbn [rate_at fold_left] in ST. rewrite rate_before in ST by exact LY. exact ST. }
  cbn [tl] in Ltl. inversion Lmax as [|? ? Le Lr]; subst. inversion Lpos as [|? ? Lpe Lpr]; subst.
  assert (p = [] \/ fst e <= k + 1) as PE. { destruct s as [|e' r']; [discriminate EL|]. cbn [upto] in EL. destruct (fst e' <=? max); [|discriminate EL]. injection EL as -> _. destruct p; [left; reflexivity|]. right. apply P3. discriminate. }
  assert (forall v i, k < i <= max -> rate_at (rate_at 0 p i) (e :: r) i = rate_at v (e :: r) i \/ (p = [] /\ k + 1 < fst e)) as RV.
  { intros v i Hi. destruct (Z.le_gt_cases (fst e) (k + 1)) as [H|H]; [left; apply rate_hd; lia|]. right. destruct PE as [->|PE]; [split; [reflexivity | lia] | lia]. }
  assert (forall v i, i <= k -> rate_at v r i = v) as RR. { intros v i Hi. apply rate_after. rewrite Forall_forall in *. intros f F. specialize (Ltl f F). lia. }
  assert (Forall (fun f => fst f < fst e) (flat (x_nodes y)) \/ fst e <= k) as OR. { destruct (Z.le_gt_cases (fst e) k); [right; assumption|]. left. rewrite Forall_forall in *. intros f F. specialize (LY f F). lia. }
  cbn [kept] in *. destruct (fst e <? k + 1) eqn:Q; [destruct some eqn:S1|]; cbn [andb] in *.
  - (* the first is known *)
    split; [split; [exact R2|]; rewrite R4; apply inc_app; split; [exact (proj2 WY)|]; split; [exact (proj2 Il)|]; rewrite Forall_forall in *; intros f F; rewrite Forall_forall; intros g Hg; specialize (LY f F); specialize (Ltl g Hg); lia|].
    split; [exact R3|]. split; [apply Forall_app; split; [rewrite Forall_forall in *; intros f F; specialize (LY f F); lia | exact Lr]|]. specialize (ST eq_refl). rewrite rate_cons in ST. assert (fst e <=? k = true) as QK by lia. rewrite QK, RR in ST by lia. split.
    + intros i Hi. rewrite (RX i ltac:(lia)), rate_app, rate_cons. assert (fst e <=? i = true) as -> by lia. rewrite <- ST. f_equal. rewrite rate_before, (rate_before 0 _ k); [reflexivity | exact LY|]. rewrite Forall_forall in *; intros f F; specialize (LY f F); lia.
    + intros _ i Hi. rewrite rate_app. apply RR. exact Hi.
  - (* the first file *)
    rewrite (SF eq_refl) in *. cbn [app] in *. split; [split; [exact R2 | rewrite R4; exact Il]|]. split; [exact R3|]. split; [exact Lmax|]. split.
    + intros i Hi. rewrite (RX i ltac:(lia)). destruct (RV 0 i Hi) as [E|E]; [symmetry; exact E | lia].
    + intros E i Hi. change (rate_at 0 [] k) with 0 in E. rewrite rate_cons in E. assert (fst e <=? k = true) as QK by lia. rewrite QK, RR in E by lia. rewrite rate_cons, <- E. destruct (fst e <=? i); rewrite RR by exact Hi; reflexivity.
  - assert (Forall (fun f => fst f < fst e) (flat (x_nodes y))) as OL by (destruct OR as [OR|OR]; [exact OR | lia]).
    split; [split; [exact R2|]; rewrite R4; apply inc_app; split; [exact (proj2 WY)|]; split; [exact Il|]; rewrite Forall_forall in *; intros f F; rewrite Forall_forall; intros g [<-|Hg]; [apply OL, F|]; specialize (LY f F); specialize (Ltl g Hg); lia|].
    split; [exact R3|]. split; [apply Forall_app; split; [rewrite Forall_forall in *; intros f F; specialize (LY f F); lia | exact Lmax]|]. split.
    + intros i Hi. rewrite (RX i ltac:(lia)), rate_app. destruct (RV (rate_at 0 (flat (x_nodes y)) i) i Hi) as [E|[-> E]]; [symmetry; exact E|]. f_equal. change (rate_at 0 [] i) with 0. change (rate_at 0 [] k) with 0 in ST. rewrite rate_before by (rewrite Forall_forall in *; intros f F; specialize (LY f F); lia).
      destruct some eqn:S1; [|rewrite (SF eq_refl); reflexivity]. specialize (ST eq_refl). rewrite (rate_after 0 (e :: r) k) in ST; [rewrite rate_before in ST by exact LY; exact ST|]. constructor; [lia|]. rewrite Forall_forall in *. intros f F. specialize (Ltl f F). lia.
    + intros _ i Hi. rewrite rate_app. apply rate_after. constructor; [lia|]. rewrite Forall_forall in *. intros f F. specialize (Ltl f F). lia.
Qed.

(* segments of less than 42.9 Mbit/s *)
Lemma run_small c h : forall x K F, c_gaps c = true -> conf_ok c -> Forall op_ok h -> 0 <= F -> rec_inv c x K F -> Forall op_small h -> Forall small (flat (x_nodes x)) -> Forall small (flat (x_nodes (run c x h))).
Proof.
  induction h as [|o h IH]; intros x K F G C O HF R SH S; [exact S|]. inversion O as [|? ? O1 O2]; inversion SH as [|? ? A1 A2]; subst. change (run c x (o :: h)) with (run c (step c x o) h). destruct o as [i b|m]; cbn [step op_ok op_small] in *.
  - destruct O1 as [Oi Ob]. pose proof (created_inv c x K F i b G C ltac:(unfold INVALID; lia) Ob R) as R1. apply (IH _ _ F G C O2 HF R1 A2).
    unfold created. destruct (_ && _); [exact S|]. destruct (_ && _); [exact S|]. cbv zeta. destruct (_ && _); [exact S|]. destruct (_ && _); [exact S|]. cbn [x_nodes]. rewrite (proj1 (push_spec _ _)). apply Forall_app. split; [exact S|]. constructor; [|constructor]. unfold small. cbn [fst snd]. unfold NO_BITRATE. destruct (b =? 0); [lia|]. destruct (c_bitrate c); lia.
  - pose proof (freed_inv c x K F m R) as R1. apply (IH _ _ (Z.max m F) G C O2 ltac:(lia) R1 A2). unfold freed. destruct (m <? x_minfree x); [exact S|]. cbn [x_nodes]. destruct (free_spec (x_nodes x) m (proj1 R)) as (_ & _ & (p & P) & _). rewrite P in S. apply Forall_app in S. tauto.
Qed.

Lemma later_files c m0 fs : forall x K F y k, c_gaps c = true -> conf_ok c -> rec_inv c x K F -> 0 <= F <= k -> m0 <= k -> later_ok c x k fs ->
  wf (x_nodes y) -> x_init y = 0 -> Forall (fun e => fst e <= k) (flat (x_nodes y)) -> (forall i, m0 <= i <= k -> stands_for c (rate_at 0 K i) (rate_at 0 (flat (x_nodes y)) i)) ->
  rate_at 0 (flat (x_nodes y)) k = rate_at 0 (flat (x_nodes x)) k ->
  exists y', restore y (save c x (k + 1) fs) = Some y' /\ wf (x_nodes y') /\ x_init y' = 0 /\ Forall (fun e => fst e <= last_saved k fs) (flat (x_nodes y'))
    /\ (Forall op_small (history fs) -> Forall small (flat (x_nodes x)) -> known y -> known y')
    /\ forall i, m0 <= i <= last_saved k fs -> stands_for c (rate_at 0 (K ++ made (last_opt x) (history fs)) i) (rate_at 0 (flat (x_nodes y')) i).
Proof.
  induction fs as [|((h, max), t) fs IH]; intros x K F y k G C R HF Hm L WY Y0 LY S E.
  - exists y. split; [reflexivity|]. split; [exact WY|]. split; [exact Y0|]. split; [exact LY|]. split; [tauto|]. cbn [history map concat made last_saved fold_left]. rewrite app_nil_r. exact S.
  - cbn [later_ok] in L. destruct L as (O & A & B & T & L). cbn [save restore]. cbv zeta. pose proof (run_inv c h x K F G C O ltac:(lia) R) as R1. pose proof (run_stable c k h x K F G C O A ltac:(lia) R) as ST. pose proof (freed_after k h ltac:(lia) A) as FA.
    assert (rate_at 0 (flat (x_nodes y)) k = rate_at 0 (flat (x_nodes (run c x h))) k \/ x_nodes y = []) as AG by (left; rewrite ST; exact E).
    destruct (block_step y (run c x h) t k max WY LY (proj1 R1)) as (y1 & B1 & B2 & B3 & B4 & B5 & B6 & B7); try assumption; try lia.
    { destruct R1 as (_ & _ & _ & _ & _ & _ & R1 & _). rewrite Forall_forall in *. intros e He. specialize (R1 e He). lia. }
    rewrite B1. specialize (B6 ltac:(rewrite ST; exact E)). destruct (IH (run c x h) (K ++ made (last_opt x) h) (Z.max F (freed_to h)) y1 max G C R1) as (y' & X1 & X2 & X3 & X5 & X6 & X4); try assumption; try lia.
    { intros i Hi. destruct (Z.le_gt_cases i k) as [H|H].
      - rewrite (B6 i H), rate_app, (rate_after _ (made (last_opt x) h)); [apply S; lia|]. pose proof (made_after k h (last_opt x) A) as MA. rewrite Forall_forall in *. intros e He. specialize (MA e He). lia.
      - rewrite (B5 i ltac:(lia)). destruct R1 as (_ & _ & _ & _ & _ & _ & _ & R1). apply R1. lia. }
    { apply B5. lia. }
    exists y'. split; [exact X1|]. split; [exact X2|]. split; [exact X3|]. split; [exact X5|]. split. { change (history ((h, max, t) :: fs)) with (h ++ history fs). intros SH SX KY. apply Forall_app in SH. destruct SH as [SH1 SH2]. pose proof (run_small c h x K F G C O ltac:(lia) R SH1 SX) as SR. apply X6; [exact SH2 | exact SR | apply B7; assumption]. }
    intros i Hi. change (history ((h, max, t) :: fs)) with (h ++ history fs). rewrite (run_last c h x (history fs) G O), app_assoc. apply X4. exact Hi.
Qed.

Lemma all_files c m fs : fs <> [] -> c_gaps c = true -> conf_ok c -> saves_ok c m fs ->
  exists y, restore (init c) (save c (init c) m fs) = Some y /\ wf (x_nodes y) /\ x_init y = 0 /\ Forall (fun e => fst e <= last_saved 0 fs) (flat (x_nodes y))
    /\ (Forall op_small (history fs) -> known y)
    /\ forall i, m <= i <= last_saved 0 fs -> stands_for c (rate_at 0 (made None (history fs)) i) (rate_at 0 (flat (x_nodes y)) i).
Proof.
  intros NE G C S. destruct fs as [|((h, max), t) fs]; [congruence|]. destruct S as (O & Pm & (Fm & Hm) & HM & T & L). pose proof (init_inv c G) as R0. pose proof (run_inv c h (init c) [] 0 G C O ltac:(lia) R0) as R1. cbn [app] in R1.
  assert (last_opt (init c) = None) as LI by (unfold init, last_opt; rewrite G; reflexivity). rewrite LI in R1.
  assert (x_nodes (init c) = []) as NI by (unfold init; rewrite G; reflexivity). assert (x_init (init c) = 0) as II by (unfold init; rewrite G; reflexivity).
  cbn [save restore]. cbv zeta. destruct (block_step (init c) (run c (init c) h) t (m - 1) max) as (y1 & B1 & B2 & B3 & B4 & B5 & B6 & B7); try assumption; try lia.
  { rewrite NI. split; [constructor | exact I]. } { rewrite NI. constructor. } { exact (proj1 R1). } { destruct R1 as (_ & _ & _ & _ & _ & _ & R1 & _). rewrite Forall_forall in *. intros e He. specialize (R1 e He). lia. } { right. exact NI. }
  replace (m - 1 + 1) with m in B1 by lia. rewrite B1.
  destruct (later_files c m fs (run c (init c) h) (made None h) (Z.max 0 (freed_to h)) y1 max G C R1) as (y' & X1 & X2 & X3 & X5 & X6 & X4); try assumption; try lia.
  { intros i Hi. rewrite (B5 i ltac:(lia)). destruct R1 as (_ & _ & _ & _ & _ & _ & _ & R1). apply R1. lia. } { apply B5. lia. }
  exists y'. split; [exact X1|]. split; [exact X2|]. split; [exact X3|]. split; [exact X5|]. split. { change (history ((h, max, t) :: fs)) with (h ++ history fs). intros SH. apply Forall_app in SH. destruct SH as [SH1 SH2]. pose proof (run_small c h (init c) [] 0 G C O ltac:(lia) R0 SH1 ltac:(rewrite NI; constructor)) as SR. apply X6; [exact SH2 | exact SR | apply B7; [|exact SR]]. unfold known. rewrite NI. split; [unfold init; rewrite G; reflexivity|]. split; [unfold init; rewrite G; reflexivity | constructor]. }
  intros i Hi. change (history ((h, max, t) :: fs)) with (h ++ history fs). pose proof (run_last c h (init c) (history fs) G O) as RL. rewrite LI in RL. rewrite RL. apply X4. exact Hi.
Qed.

(* ----- after the restart *)
Definition with_index (x : ctx) (k : Z) : ctx := Ctx (x_nodes x) (x_rate x) (x_init x) k (x_minfree x).
Lemma run_with_index c k h : forall x, c_gaps c = true -> Forall op_ok h -> Forall (op_new k) h -> x_index x = INVALID -> 0 <= k < INVALID ->
  x_nodes (run c x h) = x_nodes (run c (with_index x k) h) /\ x_init (run c x h) = x_init (run c (with_index x k) h).
Proof.
  induction h as [|o h IH]; intros x G O N XI Hk; [split; reflexivity|]. inversion O as [|? ? O1 O2]; inversion N as [|? ? N1 N2]; subst. change (run c x (o :: h)) with (run c (step c x o) h). change (run c (with_index x k) (o :: h)) with (run c (step c (with_index x k) o) h). destruct o as [i b|m]; cbn [step op_ok op_new] in *.
  - assert (created c x i b = created c (with_index x k) i b) as ->; [|split; reflexivity]. unfold created, with_index. cbn [x_nodes x_rate x_init x_index x_minfree]. rewrite XI. change (INVALID =? INVALID) with true. cbn [negb]. rewrite andb_false_r. assert (i <=? k = false) as -> by lia. cbn [andb]. rewrite G. rewrite !andb_false_r. reflexivity.
  - assert (freed (with_index x k) m = with_index (freed x m) k) as ->. { unfold freed, with_index. cbn [x_nodes x_rate x_init x_index x_minfree]. destruct (m <? x_minfree x); reflexivity. } apply IH; try assumption. unfold freed. destruct (m <? x_minfree x); exact XI.
Qed.
Lemma until_rate v k l i : i <= k -> rate_at v (until k l) i = rate_at v l i.
Proof. intros H. revert v. induction l as [|e l IH]; intros v; [reflexivity|]. unfold until. cbn [filter]. fold (until k l). destruct (fst e <=? k) eqn:Q; rewrite ?rate_cons, IH; [reflexivity|]. assert (fst e <=? i = false) as -> by lia. reflexivity. Qed.
Lemma made_pos h : forall last, Forall op_ok h -> Forall (fun e => 0 <= fst e) (made last h).
Proof. induction h as [|o h IH]; intros last O; [constructor|]. inversion O as [|? ? O1 O2]; subst. cbn [made]. destruct o as [i b|m]; [|apply IH, O2]. destruct (match last with Some k0 => k0 <? i | None => true end); [constructor; [cbn in *; lia|]|]; apply IH, O2. Qed.
Lemma later_bounds c fs : forall x k, 0 <= k < 2 ^ 32 - 1 -> later_ok c x k fs -> k <= last_saved k fs < 2 ^ 32 - 1 /\ Forall op_ok (history fs).
Proof.
  induction fs as [|((h, max), t) fs IH]; intros x k Hk L; [cbn; split; [lia | constructor]|]. destruct L as (O & _ & B & _ & L). destruct (IH _ max ltac:(lia) L) as [L1 L2]. change (last_saved k ((h, max, t) :: fs)) with (last_saved max fs). change (history ((h, max, t) :: fs)) with (h ++ history fs). split; [lia | apply Forall_app; split; assumption].
Qed.
Lemma restart_inv c m fs y : fs <> [] -> c_gaps c = true -> conf_ok c -> saves_ok c m fs -> Forall op_small (history fs) -> restore (init c) (save c (init c) m fs) = Some y ->
  0 <= last_saved 0 fs < INVALID /\ x_index y = INVALID /\ 0 <= m /\ rec_inv c (with_index y (last_saved 0 fs)) (until (last_saved 0 fs) (made None (history fs))) m.
Proof.
  intros NE G C S SM E. destruct (all_files c m fs NE G C S) as (y0 & Y1 & Y2 & Y3 & Y5 & Y6 & Y4). rewrite E in Y1. injection Y1 as <-. destruct (Y6 SM) as (K1 & K2 & K3).
  assert (0 <= m <= last_saved 0 fs /\ last_saved 0 fs < INVALID /\ Forall op_ok (history fs)) as (B1 & B2 & B3).
  { destruct fs as [|((h, max), t) fs]; [congruence|]. destruct S as (O & Pm & (Fm & Hm) & HM & T & L). destruct (later_bounds c fs _ max ltac:(lia) L) as [L1 L2]. change (last_saved 0 ((h, max, t) :: fs)) with (last_saved max fs). change (history ((h, max, t) :: fs)) with (h ++ history fs). unfold INVALID. split; [lia|]. split; [lia|]. apply Forall_app. split; assumption. }
  set (k := last_saved 0 fs) in *. split; [lia|]. split; [exact K1|]. split; [lia|]. pose proof (made_pos (history fs) None B3) as MP. set (K := made None (history fs)) in *. clearbody k K.
  assert (Forall (fun e => 0 <= fst e <= k) (until k K)) as UK. { rewrite Forall_forall in *. intros e He. apply filter_In in He. destruct He as [H1 H2]. specialize (MP e H1). lia. }
  unfold rec_inv, with_index. cbn [x_nodes x_rate x_init x_index]. split; [exact Y2|]. split; [exact Y3|]. split; [exact K2|]. split; [right; lia|]. split; [intros X; lia|]. split; [exact UK|]. split.
  { rewrite Forall_forall in *. intros e He. specialize (Y5 e He). destruct (K3 e He) as (S1 & S2 & S3). lia. }
  intros i Hi. assert (stands_for c (rate_at 0 (until k K) (Z.min i k)) (rate_at 0 (flat (x_nodes y)) (Z.min i k))) as SF. { rewrite until_rate by lia. apply Y4. lia. }
  destruct (Z.le_gt_cases i k) as [H|H]; [rewrite Z.min_l in SF by lia; exact SF|]. rewrite Z.min_r in SF by lia. rewrite (rate_before 0 (until k K) i), (rate_before 0 (flat (x_nodes y)) i); [rewrite (rate_before 0 (until k K) k), (rate_before 0 (flat (x_nodes y)) k) in SF; [exact SF | exact Y5|]| |]; rewrite Forall_forall in *; intros e He; try (specialize (Y5 e He)); try (specialize (UK e He)); lia.
Qed.
