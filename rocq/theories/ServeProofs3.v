(* A manifest that is served without its first segments. *)
From Coq Require Import List ZArith Bool Lia ZifyBool ZifyNat.
From Verif Require Import SegListModel SegListSpec SegListProofs SegListProofs2 SegListProofs3 TimelineModel TimelineSpec TimelineProofs TimelineProofs2 TimelineProofs4
  TimelineProofs11 TimelineProofs13 TimelineProofs14 ServeModel ServeSpec ServeProofs ServeProofs2.
Import ListNotations.
Local Open Scope Z_scope.

Lemma write_periods_eq fuel c ps max pend p q nx : p_key p = p_key q -> p_iter p = p_iter q -> p_time p = p_time q -> p_count p = p_count q ->
  write_periods fuel c ps max pend p nx = write_periods fuel c ps max pend q nx.
Proof. intros A B C D. destruct fuel as [|f]; [reflexivity|]. cbn [write_periods]. rewrite A, B, C, D. reflexivity. Qed.

Lemma split_whole (M1' : list (list seg)) : forall pre ss W M1 M2, Forall (fun m => m <> []) (M1 ++ M2) -> M1 ++ M2 = M1' ++ (pre ++ ss) :: W -> ss <> [] -> length (concat M1) = (length (concat M1') + length pre)%nat -> pre = [] /\ M1 = M1'.
Proof.
  induction M1' as [|a M1' IH]; intros pre ss W M1 M2 F E NE L; destruct M1 as [|m M1]; cbn [app concat length] in *.
  - destruct pre; [auto|cbn in L; lia].
  - injection E as -> _. rewrite !app_length in L. destruct ss; [contradiction|]. cbn [length] in L. lia.
  - subst M2. inversion F; subst. destruct a; [contradiction|]. cbn in L. lia.
  - injection E as -> E. inversion F; subst. rewrite !app_length in L. destruct (IH pre ss W M1 M2 ltac:(assumption) E NE ltac:(lia)) as [-> ->]. auto.
Qed.

Lemma concat_v V : concat (map v_segs V) = flat V.
Proof. unfold flat. rewrite flat_map_concat_map. reflexivity. Qed.

(* the place where the output starts, in the manifest *)
Lemma place mx out V MV vm V1m V2m pre V1 v V2 a x b : V = V1m ++ vm :: V2m -> v_segs vm = pre ++ v_segs MV -> V = V1 ++ v :: V2 -> v_segs v = a ++ x :: b ->
  (forall s, In s (flat V) -> 0 <= s_dur s) -> dur_below mx (b ++ flat V2) < out -> out < dur_below mx (v_segs MV ++ flat V2m) ->
  (exists m, V1 = V1m ++ vm :: m /\ V2m = m ++ v :: V2) \/ (exists a', V1 = V1m /\ vm = v /\ V2m = V2 /\ a = pre ++ a' /\ v_segs MV = a' ++ x :: b).
Proof.
  intros E1 EM E2 EX ND B1 B2. assert (E := E1). rewrite E2 in E. symmetry in E.
  assert (SUF : forall pf l, b ++ flat V2 = pf ++ l -> dur_below mx l <= dur_below mx (b ++ flat V2)).
  { intros pf l Q. rewrite Q, below_app. pose proof (below_bounds mx pf). assert (0 <= dur_below mx pf <= sum_dur pf); [|lia]. apply H. intros s I. apply ND. rewrite E2, flat_app, flat_cons, EX. apply in_or_app. right. rewrite <- app_assoc. apply in_or_app. right. right. rewrite Q. apply in_or_app. left. exact I. }
  destruct (app_cons_cases _ _ _ _ _ _ E) as [L|[(EA & EB & EC)|L]].
  - left. destruct (app_cons_lt _ _ _ _ _ _ E L) as (m & A & B). exists m. auto.
  - subst V1m vm V2m. right. rewrite EX in EM. destruct (Nat.le_gt_cases (length pre) (length a)) as [LE|GT].
    + exists (skipn (length pre) a). assert (Q := f_equal (firstn (length pre)) EM). rewrite !firstn_app in Q. replace (length pre - length a)%nat with O in Q by lia. rewrite Nat.sub_diag in Q. cbn [firstn] in Q. rewrite !app_nil_r, firstn_all in Q.
      assert (EA : a = pre ++ skipn (length pre) a) by (rewrite <- Q at 1; symmetry; apply firstn_skipn). do 3 (split; [reflexivity|]). split; [exact EA|]. rewrite EA, <- app_assoc in EM. apply app_inv_head in EM. symmetry. exact EM.
    + exfalso. assert (Q := f_equal (skipn (length a + 1)) EM). rewrite !skipn_app in Q. rewrite !skipn_all2 in Q by lia. replace (length a + 1 - length a)%nat with 1%nat in Q by lia. cbn [skipn app] in Q.
      replace (length a + 1 - length pre)%nat with 0%nat in Q by lia. cbn [skipn app] in Q.
      specialize (SUF (skipn (length a + 1) pre) (v_segs MV ++ flat V2) ltac:(rewrite Q, <- app_assoc; reflexivity)). lia.
  - exfalso. symmetry in E. destruct (app_cons_lt _ _ _ _ _ _ E L) as (m & A & B). specialize (SUF (b ++ flat m ++ pre) (v_segs MV ++ flat V2m) ltac:(rewrite B, flat_app, flat_cons, EM, <- !app_assoc; reflexivity)). lia.
Qed.

Lemma skipn_mid {A} (l : list A) : forall k l1 l2, length l1 = k -> l = l1 ++ l2 -> skipn k l = l2.
Proof. intros k l1 l2 <- ->. rewrite skipn_app, skipn_all, Nat.sub_diag. reflexivity. Qed.
Lemma len_length {A} (l : list A) n : len l = Z.of_nat n -> length l = n.
Proof. unfold len. lia. Qed.

Lemma skip_ok h t nt tk max pct hd V MV : let c := ch_list h in let out := output_duration (ch_scale h) pct (m_target (t_m t)) in let mx := effective h tk max in let M := map v_segs MV in
  wf (cl_list c) -> tree_of (cl_list c) nt -> chronological (segs (cl_list c)) -> st c t V MV -> MV <> [] ->
  if (0 <? out) && (out <? dur_below mx (concat M)) then
    exists k p nx fi fit fii last, skip_segments h t nt tk max pct hd = Some (Some (p, nx,
        mk_hd fi fit fii (hd_sequence hd) (hd_target hd) (hd_end hd) (hd_periods hd) (len M - len (leave_out k M)) (Z.of_nat k) last)) /\
      (k < length (concat M))%nat /\ dur_below mx (skipn (S k) (concat M)) < out <= dur_below mx (skipn k (concat M)) /\
      (forall pend, exists bs, write_periods (S (length (t_periods t))) c (t_periods t) max pend p nx = Some bs /\ map block_segs bs = served max pend (leave_out k M)) /\
      (let n := (length M - length (leave_out k M))%nat in
       (n = O -> fi = hd_first_index hd /\ fit = hd_init_time hd /\ fii = hd_init_index hd) /\
       (n <> O -> exists y ys, nth_error M n = Some (y :: ys) /\ fi = hd_first_index hd + Z.of_nat n /\ fit = s_time y /\ fii = s_index y)) /\
      (forall M1 M2, M = M1 ++ M2 -> M1 <> [] -> length (concat M1) = k -> exists q y, concat M1 = q ++ [y] /\ last = s_index y)
  else skip_segments h t nt tk max pct hd = Some None.
Proof.
  intros c out mx M W T CH S NE. assert (TK := proj1 S). assert (MK := proj2 S). destruct MV as [|mv V2m]; [contradiction|]. destruct MK as (MC & MDU & MP & Pm1 & pm & Pm2 & V1m & vm & pre & EPm & EVm & LPm & EVS & NEm & PKm & NXm & _).
  assert (KE : concat M = flat (mv :: V2m)) by apply concat_v. rewrite KE.
  assert (FE : flat V = (flat V1m ++ pre) ++ flat (mv :: V2m)) by (rewrite EVm, flat_app, !flat_cons, EVS, <- !app_assoc; reflexivity).
  pose proof (skip_find h t nt tk max pct hd V (flat V1m ++ pre) (flat (mv :: V2m)) W T CH TK FE MDU) as SF. cbv zeta in SF. fold c in SF. fold out in SF. fold mx in SF.
  destruct ((0 <? out) && (out <? dur_below mx (flat (mv :: V2m)))) eqn:CC; [|exact SF].
  destruct SF as (p & P1 & P2 & V1 & v & V2 & a & x & b & it & post & EP & EV & LP & EX & BD & IT & SS). assert (PV := tk_per _ _ _ TK). assert (NU := tk_num _ _ _ TK). assert (IDS := tk_ids _ _ _ TK).
  assert (PV' := PV). rewrite EP, EV in PV'. destruct (pers_split_at _ P1 (p :: P2) V1 (v :: V2) PV' LP) as [PV1 PVt]. assert (RP : prel c p v /\ pers c P2 V2) by (inversion PVt; auto). destruct RP as [RP PV2].
  assert (NM : Forall (fun m => m <> []) M).
  { unfold M. cbn [map]. constructor; [exact NEm|]. pose proof (pers_nonempty _ _ _ PV) as NN. rewrite EVm in NN. apply Forall_app in NN as [_ NN]. inversion NN; subst. apply Forall_map. assumption. }
  destruct RP as (PK & _ & _). assert (PKX := PK). destruct PKX as (_ & CO & DU & CN). rewrite EX in CO. apply consec_app in CO as [COA (XI & XT & COB)].
  (* what is written *)
  assert (WR : forall pend, exists bs, write_periods (Datatypes.S (length (t_periods t))) c (t_periods t) max pend (mk_period 0 (s_index x) it (s_time x) 0 0 (len (x :: b))) (head_id P2) = Some bs /\ map block_segs bs = served max pend ((x :: b) :: map v_segs V2)).
  { intros pend. assert (PN : pok c (mk_period 0 (s_index x) it (s_time x) 0 (sum_dur (x :: b)) (len (x :: b))) (x :: b)).
    { split; [exists post; exact IT|]. cbn [p_key p_time p_dur p_count]. split; [|split; reflexivity]. split; [reflexivity|]. split; [reflexivity|]. rewrite XI, XT. exact COB. }
    destruct (write_periods_ok c (t_periods t) max pend W IDS P2 (P1 ++ [p]) V2 (Datatypes.S (length (t_periods t))) _ (x :: b) ltac:(rewrite EP, <- app_assoc; reflexivity) PV2 PN ltac:(discriminate)) as (bs & E & Q).
    - rewrite EV, flat_app, flat_cons, EX, <- app_assoc in NU. do 2 apply numbered_app_r in NU. exact NU.
    - rewrite EP, app_length. cbn [length]. lia.
    - exists bs. split; [|exact Q]. rewrite <- E. apply write_periods_eq; reflexivity. }
  assert (COM : forall M1 pr q, M = M1 ++ (pr ++ x :: b) :: map v_segs V2 -> nth_error M (length M1) = Some (pr ++ x :: b) ->
     (M1 = [] -> a = q ++ pr) -> (M1 <> [] -> a = pr /\ exists u y, concat M1 = u ++ [y] /\ match rev P1 with [] => hd_last_skipped hd | q :: _ => p_key q + p_count q - 1 end = s_index y) ->
     exists k p0 nx fi fit fii last, skip_segments h t nt tk max pct hd = Some (Some (p0, nx,
        mk_hd fi fit fii (hd_sequence hd) (hd_target hd) (hd_end hd) (hd_periods hd) (len M - len (leave_out k M)) (Z.of_nat k) last)) /\
      (k < length (concat M))%nat /\ dur_below mx (skipn (Datatypes.S k) (concat M)) < out <= dur_below mx (skipn k (concat M)) /\
      (forall pend, exists bs, write_periods (Datatypes.S (length (t_periods t))) c (t_periods t) max pend p0 nx = Some bs /\ map block_segs bs = served max pend (leave_out k M)) /\
      (let n := (length M - length (leave_out k M))%nat in
       (n = O -> fi = hd_first_index hd /\ fit = hd_init_time hd /\ fii = hd_init_index hd) /\
       (n <> O -> exists y ys, nth_error M n = Some (y :: ys) /\ fi = hd_first_index hd + Z.of_nat n /\ fit = s_time y /\ fii = s_index y)) /\
      (forall M1 M2, M = M1 ++ M2 -> M1 <> [] -> length (concat M1) = k -> exists q y, concat M1 = q ++ [y] /\ last = s_index y)).
  { intros M1 pr q EM NTH A0 A1. assert (LO : leave_out (length (concat M1) + length pr) M = (x :: b) :: map v_segs V2) by (rewrite EM; apply leave_out_mid; discriminate).
    assert (KK : concat M = (concat M1 ++ pr) ++ x :: b ++ flat V2) by (rewrite EM, concat_app; cbn [concat]; rewrite concat_v, <- !app_assoc; reflexivity).
    assert (LM : len M = len M1 + 1 + len V2) by (rewrite EM, len_app, len_cons; unfold len; rewrite map_length; lia).
    assert (LL : len (leave_out (length (concat M1) + length pr) M) = 1 + len V2) by (rewrite LO, len_cons; unfold len; rewrite map_length; lia).
    assert (SPS : m_pcount (t_m t) - len V2 - 1 = len M1). { rewrite MP. assert (len (mv :: V2m) = len M) by (unfold M, len; rewrite map_length; reflexivity). lia. }
    assert (SK : m_count (t_m t) - len (flat V2) - len (x :: b) = Z.of_nat (length (concat M1) + length pr)). { rewrite MC, <- KE, KK. change (x :: b ++ flat V2) with ((x :: b) ++ flat V2). rewrite !len_app. unfold len. lia. }
    exists (length (concat M1) + length pr)%nat, (mk_period 0 (s_index x) it (s_time x) 0 0 (len (x :: b))), (head_id P2). do 4 eexists. split.
    { rewrite SS, SPS, SK, LL, LM. replace (len M1 + 1 + len V2 - (1 + len V2)) with (len M1) by lia. reflexivity. }
    split; [rewrite KK, !app_length; cbn [length]; lia|]. split.
    { rewrite (skipn_mid (concat M) (Datatypes.S _) (concat M1 ++ pr ++ [x]) (b ++ flat V2)); [|rewrite !app_length; cbn [length]; lia|rewrite KK, <- !app_assoc; reflexivity].
      rewrite (skipn_mid (concat M) _ (concat M1 ++ pr) (x :: b ++ flat V2)); [exact BD|rewrite app_length; reflexivity|exact KK]. }
    split; [intros pend; rewrite LO; apply WR|].
    assert (NN : (length M - length (leave_out (length (concat M1) + length pr) M))%nat = length M1) by (unfold len in LM, LL; lia). cbv zeta. rewrite NN. split; [split|].
    - intros Q. replace (len M1 =? 0) with true by (unfold len; lia). auto.
    - intros Q. replace (len M1 =? 0) with false by (unfold len; lia). destruct (A1 ltac:(intros ->; apply Q; reflexivity)) as (-> & _). rewrite NTH. assert (CO2 : consecutive (p_key p) (p_time p) (pr ++ x :: b)) by (rewrite <- EX; apply PK).
      destruct pr as [|y pr]; [exists x, b|exists y, (pr ++ x :: b)]; (split; [reflexivity|]); (split; [reflexivity|]); cbn [app] in CO2; destruct CO2 as (Y1 & Y2 & _); auto.
    - intros N1 N2 EN NN1 L1. destruct (split_whole M1 pr (x :: b) (map v_segs V2) N1 N2 ltac:(rewrite <- EN; exact NM) ltac:(rewrite <- EN; exact EM) ltac:(discriminate) L1) as [-> ->].
      destruct (A1 NN1) as (-> & u & y & EU & EL). exists u, y. split; [exact EU|]. replace (p_key p <? s_index x) with false by (rewrite XI; change (len (@nil seg)) with 0; lia). exact EL. }
  rewrite <- KE. destruct (place mx out _ mv vm V1m V2m pre V1 v V2 a x b EVm EVS EV EX) as [(m & EA & EB)|(a' & EA & EB & EC & ED & EE)].
  { intros s I. eapply pers_dur; [exact W|exact PV|exact I]. } { lia. } { rewrite flat_cons in CC. lia. }
  - apply (COM (v_segs mv :: map v_segs m) a []).
    + unfold M. cbn [map]. rewrite EB, map_app. cbn [map]. rewrite EX. reflexivity.
    + unfold M. cbn [map]. rewrite EB, map_app. cbn [map]. rewrite EX. cbn [length nth_error]. rewrite nth_error_app2 by lia. rewrite Nat.sub_diag. reflexivity.
    + discriminate.
    + intros _. split; [reflexivity|]. cbn [concat]. rewrite concat_v.
      (* the period before *)
      rewrite EA in PV1. destruct P1 as [|p1 P1 _] using rev_ind; [inversion PV1; subst; destruct V1m; discriminate|]. rewrite rev_app_distr. cbn [rev app].
      assert (LASTV : exists U w, V1m ++ vm :: m = U ++ [w] /\ exists u y, v_segs mv ++ flat m = u ++ [y] /\ exists u', v_segs w = u' ++ [y]).
      { destruct m as [|w m _] using rev_ind.
        - exists V1m, vm. split; [reflexivity|]. destruct (exists_last NEm) as (u & y & EY). exists u, y. change (flat []) with (@nil seg). rewrite app_nil_r. split; [exact EY|]. exists (pre ++ u). rewrite EVS, EY, app_assoc. reflexivity.
        - exists (V1m ++ vm :: m), w. split; [rewrite <- app_assoc; reflexivity|]. assert (NW : v_segs w <> []). { pose proof (pers_nonempty _ _ _ PV) as NN. rewrite EV, EA in NN. apply Forall_app in NN as [NN _]. apply Forall_app in NN as [_ NN]. inversion NN as [|? ? _ NN']; subst. apply Forall_app in NN' as [_ NN']. inversion NN'; subst. assumption. }
          destruct (exists_last NW) as (u & y & EY). exists (v_segs mv ++ flat m ++ u), y. rewrite flat_app, flat1, EY, <- !app_assoc. split; [reflexivity|]. exists u. reflexivity. }
      destruct LASTV as (U & w & EW & u & y & EY & u' & EY'). rewrite EW in PV1. destruct (pers_snoc_inv _ _ _ _ PV1) as (U0 & w0 & EU & _ & RW). apply app_inj_tail in EU as [_ <-]. exists u, y. split; [exact EY|].
      destruct RW as ((_ & CW & _ & NW) & NEW & _). destruct (consec_last_index _ _ _ CW NEW) as (qq & z & EZ & ZI). rewrite EY' in EZ. apply app_inj_tail in EZ as [_ <-]. rewrite NW. lia.
  - apply (COM [] a' pre).
    + unfold M. cbn [map app]. rewrite EE, EC. reflexivity.
    + unfold M. cbn [map length nth_error]. rewrite EE. reflexivity.
    + intros _. exact ED.
    + intros Q. contradiction.
Qed.
