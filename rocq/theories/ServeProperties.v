(* What the packager is told about a timeline. *)
From Coq Require Import List ZArith Bool Lia ZifyBool ZifyNat.
From Verif Require Import SegListModel SegListSpec SegListProofs SegListProofs2 SegListProofs3 TimelineModel TimelineSpec TimelineProofs TimelineProofs2 TimelineProofs3
  TimelineProofs4 TimelineProofs5 TimelineProofs9 TimelineProofs11 TimelineProofs12 TimelineProofs13 TimelineProofs14 TimelineProperties TimelineProperties2 ServeModel ServeSpec ServeProofs ServeProofs2 ServeProofs3.
Import ListNotations.
Local Open Scope Z_scope.

(* the last segment that is asked for is still open on the track *)
Definition open_on (h : channel) (tk : option track) (max : Z) : Prop := exists k, tk = Some k /\ tr_pending k = true /\ ch_next h + tr_index k <= max.

Lemma pending_open h tk max pend : (pend = true <-> open_on h tk max) -> pending_on h tk max = pend.
Proof.
  intros P. unfold pending_on, open_on in *. destruct tk as [k|].
  - destruct (tr_pending k) eqn:TP, (ch_next h + tr_index k <=? max) eqn:L, pend; cbn [andb] in *; try reflexivity; exfalso.
    + assert (false = true) by (apply P; exists k; split; [reflexivity|split; [exact TP|lia]]). discriminate.
    + destruct (proj1 P eq_refl) as (k' & E & _ & Q). injection E as <-. lia.
    + destruct (proj1 P eq_refl) as (k' & E & Q & _). injection E as <-. congruence.
    + destruct (proj1 P eq_refl) as (k' & E & Q & _). injection E as <-. congruence.
  - destruct pend; [|reflexivity]. destruct (proj1 P eq_refl) as (k & E & _). discriminate.
Qed.

Lemma end_list_some h t V tk max : tok (ch_list h) t V -> V <> [] -> exists e, serve_end_list h t tk max = Some e.
Proof.
  intros TK NE. unfold serve_end_list. destruct (mc_end (m_conf (t_m t))); [eexists; reflexivity| |].
  all: destruct (unsnoc (t_periods t)) as [[q p]|] eqn:U; [|exfalso; apply unsnoc_none in U; pose proof (tk_per _ _ _ TK) as PV; rewrite U in PV; inversion PV; subst; contradiction].
  all: repeat match goal with |- context [if ?b then _ else _] => destruct b end; eexists; reflexivity.
Qed.

Lemma first_ok h t V MV max pend : wf (cl_list (ch_list h)) -> st (ch_list h) t V MV -> MV <> [] ->
  exists bs, write_periods (S (length (t_periods t))) (ch_list h) (t_periods t) max pend (m_first (t_m t)) (m_next (t_m t)) = Some bs /\ map block_segs bs = served max pend (map v_segs MV).
Proof.
  intros W [TK MK] NE. destruct MV as [|mv V2]; [contradiction|]. destruct MK as (_ & _ & _ & P1 & p & P2 & V1 & v & pre & EP & EV & LP & ES & NM & PK & NX & _). pose proof (tk_per _ _ _ TK) as PV. pose proof (tk_num _ _ _ TK) as NU.
  rewrite EP, EV in PV. destruct (pers_split_at _ P1 (p :: P2) V1 (v :: V2) PV LP) as [_ PV1]. rewrite NX. cbn [map].
  apply (write_periods_ok (ch_list h) (t_periods t) max pend W (tk_ids _ _ _ TK) P2 (P1 ++ [p]) V2 (S (length (t_periods t))) (m_first (t_m t)) (v_segs mv)).
  - rewrite EP, <- app_assoc. reflexivity.
  - inversion PV1. assumption.
  - exact PK.
  - exact NM.
  - rewrite EV, flat_app, flat_cons, ES, <- app_assoc in NU. do 2 apply numbered_app_r in NU. exact NU.
  - rewrite EP, app_length. cbn [length]. lia.
Qed.

(* --- C57: the periods of the manifest are written, up to the last segment that is asked for --- *)
Theorem C57_served : forall h id t M nt tk max pend skip seg_dur, reach any h -> find_tl id (ch_tls h) = Some t -> m_view (ch_list h) t = Some M -> M <> [] -> (pend = true <-> open_on h tk max) ->
  skip = None \/ serve_end_list h t tk max = Some true ->
  exists hd bs, serve h t nt tk max skip seg_dur = Some (hd, bs) /\ map block_segs bs = served max pend M /\
    hd_periods hd = len bs /\ hd_skipped_periods hd = 0 /\ hd_skipped_segs hd = 0 /\ hd_first_index hd = m_pindex (t_m t) /\
    (forall x r, concat M = x :: r -> index_to_sequence t (s_index x) = (u32 (hd_sequence hd), true)).
Proof.
  intros h id t M nt tk max pend skip sd H F TM NE PE SK. pose proof (reach_inv _ _ H) as CV. destruct (seen h id t CV F) as (_ & _ & V & MV & S & _ & TV & TM0). rewrite TM in TM0. injection TM0 as ->.
  assert (NV : MV <> []) by (intros ->; apply NE; reflexivity). assert (NVV : V <> []). { intros ->. destruct S as [_ MK]. destruct MV as [|mv V2]; [contradiction|]. destruct MK as (_ & _ & _ & P1 & p & P2 & V1 & v & pre & _ & EV & _). destruct V1; discriminate. }
  destruct (end_list_some h t V tk max (proj1 S) NVV) as (e & EL). destruct (first_ok h t V MV max pend (ci_wf _ CV) S NV) as (bs & WB & BS).
  unfold serve. rewrite EL, (pending_open _ _ _ _ PE).
  assert (SKN : match skip with Some pct => if e then Some None else skip_segments h t nt tk max pct (mk_hd (m_pindex (t_m t)) (m_init_time (t_m t)) (m_init_index (t_m t)) (m_seq (t_m t) - m_count (t_m t)) (if m_target (t_m t) <=? 0 then sd else m_target (t_m t)) e 0 0 0 INVALID) | None => Some None end = Some None).
  { destruct SK as [->|SK]; [reflexivity|]. rewrite EL in SK. injection SK as ->. destruct skip; reflexivity. }
  rewrite SKN, WB. eexists. exists bs. split; [reflexivity|]. split; [exact BS|]. cbn [hd_periods hd_skipped_periods hd_skipped_segs hd_first_index hd_sequence]. do 4 (split; [reflexivity|]).
  intros x r EX. destruct S as [TK MK]. assert (MC : m_count (t_m t) = len (flat MV)) by apply MK. rewrite concat_v in EX. rewrite EX in MC. rewrite MC.
  assert (FV : exists F, flat V = F ++ x :: r). { destruct MV as [|mv V2]; [contradiction|]. destruct MK as (_ & _ & _ & P1 & p & P2 & V1 & v & pre & EP & EV & LP & ES & _). exists (flat V1 ++ pre). rewrite <- EX, EV, flat_app, !flat_cons, ES, <- !app_assoc. reflexivity. }
  destruct FV as (FF & FV). apply (proj1 (C50_from_end h id t V H F TV) FF x r FV).
Qed.
Print Assumptions C57_served.

(* the end of a timeline is announced only when all of its manifest is there, with its durations *)
Theorem C57_end : forall h id t M nt tk max pend skip seg_dur hd bs, reach any h -> find_tl id (ch_tls h) = Some t -> m_view (ch_list h) t = Some M -> M <> [] -> (pend = true <-> open_on h tk max) ->
  serve h t nt tk max skip seg_dur = Some (hd, bs) -> hd_end hd = true -> mc_end (m_conf (t_m t)) = EndOn -> map block_segs bs = M.
Proof.
  intros h id t M nt tk max pend skip sd hd bs H F TM NE PE SV HE EO. pose proof (reach_inv _ _ H) as CV. destruct (seen h id t CV F) as (_ & _ & V & MV & S & _ & TV & TM0). rewrite TM in TM0. injection TM0 as ->.
  assert (EL : serve_end_list h t tk max = Some true).
  { unfold serve in SV. destruct (serve_end_list h t tk max) as [e|]; [|discriminate]. destruct e; [reflexivity|]. exfalso. destruct skip as [pct|].
    - match type of SV with match ?s with _ => _ end = _ => assert (SE : forall p nx hd0, s = Some (Some (p, nx, hd0)) -> hd_end hd0 = false) end.
      { intros p nx hd0. unfold skip_segments. repeat match goal with |- context [if ?b then _ else _] => destruct b end; try discriminate; intros Q; repeat match type of Q with match ?x with _ => _ end = _ => destruct x; try discriminate end; injection Q as <- <- <-; reflexivity. }
      match type of SV with match ?s with _ => _ end = _ => destruct s as [[[[p nx] hd0]|]|] end; try discriminate.
      + specialize (SE p nx hd0 eq_refl). destruct (write_periods _ _ _ _ _ _ _); [|discriminate]. injection SV as <- <-. cbn [hd_end] in HE. congruence.
      + destruct (write_periods _ _ _ _ _ _ _); [|discriminate]. injection SV as <- <-. discriminate.
    - destruct (write_periods _ _ _ _ _ _ _); [|discriminate]. injection SV as <- <-. discriminate. }
  destruct (C57_served h id t _ nt tk max pend skip sd H F TM NE PE (or_intror EL)) as (hd' & bs' & SV' & BS & _). rewrite SV in SV'. injection SV' as <- <-. rewrite BS.
  (* every index of the manifest is at most the last one of the timeline *)
  unfold serve_end_list in EL. rewrite EO in EL. destruct (unsnoc (t_periods t)) as [[q p]|] eqn:U; [|discriminate]. apply unsnoc_some in U. destruct (max <? p_key p + p_count p - 1) eqn:C1; [discriminate|].
  destruct (ch_pending h && (p_key p + p_count p - 1 =? ch_last h)); [discriminate|]. destruct (ch_next h + match tk with Some k => tr_index k | None => 0 end <=? p_key p + p_count p - 1) eqn:C2; [discriminate|].
  destruct S as [TK MK]. pose proof (tk_per _ _ _ TK) as PV. pose proof (tk_num _ _ _ TK) as NU. rewrite U in PV. destruct (pers_snoc_inv _ _ _ _ PV) as (V0 & v & EV & _ & RP).
  assert (HI : forall s, In s (flat V) -> s_index s <= p_key p + p_count p - 1).
  { intros s I. destruct RP as ((_ & CO & _ & CN) & NEV & _). destruct (consec_last_index _ _ _ CO NEV) as (qq & y & EY & YI). rewrite EV, flat_snoc, EY, app_assoc in NU, I. apply in_app_or in I as [I|[<-|[]]]; [|lia]. pose proof (numbered_mid_l _ y [] s NU I). lia. }
  assert (SUB : forall s, In s (flat MV) -> s_index s <= p_key p + p_count p - 1).
  { intros s I. apply HI. destruct MV as [|mv V2]; [destruct I|]. destruct MK as (_ & _ & _ & P1 & pp & P2 & V1 & w & pre & _ & EVm & _ & ES & _). rewrite EVm, flat_app, flat_cons, ES. rewrite flat_cons in I. apply in_or_app. right. apply in_app_or in I as [I|I]; apply in_or_app; [left; apply in_or_app; right; exact I|right; exact I]. }
  assert (OPEN : forall s, In s (flat MV) -> pend && (s_index s =? max) = false).
  { intros s I. destruct pend; [|reflexivity]. destruct (proj1 PE eq_refl) as (k & -> & _ & K). specialize (SUB s I). cbn [andb]. lia. }
  assert (EACH : forall m, In m (map v_segs MV) -> upto max pend m = m).
  { intros m I. assert (IN : forall s, In s m -> In s (flat MV)) by (intros s J; rewrite <- concat_v; apply in_concat; exists m; auto). unfold upto. rewrite filter_all by (intros s J; specialize (SUB s (IN s J)); lia).
    rewrite <- (map_id m) at 2. apply map_ext_in. intros s J. rewrite (OPEN s (IN s J)). reflexivity. }
  unfold served. rewrite (map_ext_in _ (fun m => m) _ EACH), map_id. apply filter_all. intros m I. assert (NN : nonempty MV). { eapply mok_nonempty; [exact (tk_per _ _ _ TK)|exact MK]. } apply in_map_iff in I as (w & <- & Iw). unfold nonempty in NN. rewrite Forall_forall in NN. specialize (NN w Iw). destruct (v_segs w); [contradiction|reflexivity].
Qed.
Print Assumptions C57_end.

(* --- C58: segments that the player has are left out --- *)

(* mx: segments from there on do not count, the last one that is asked for and the one that is open *)
Theorem C58_skip : forall h id t M nt tk max pend mx pct seg_dur out, reach any h -> find_tl id (ch_tls h) = Some t -> m_view (ch_list h) t = Some M -> M <> [] -> (pend = true <-> open_on h tk max) ->
  tree_of (cl_list (ch_list h)) nt -> chronological (segs (cl_list (ch_list h))) -> (pend = true -> 1 <= max < 4294967296) -> mx = (if pend then max - 1 else max) ->
  out = pct * ((m_target (t_m t) + ch_scale h / 2) / ch_scale h * ch_scale h) / 100 -> serve_end_list h t tk max = Some false ->
  exists hd bs k, serve h t nt tk max (Some pct) seg_dur = Some (hd, bs) /\ map block_segs bs = served max pend (leave_out k M) /\
    hd_skipped_segs hd = Z.of_nat k /\ hd_skipped_periods hd = len M - len (leave_out k M) /\
    (0 < out < dur_below mx (concat M) -> (k < length (concat M))%nat /\ dur_below mx (skipn (S k) (concat M)) < out <= dur_below mx (skipn k (concat M))) /\
    (~ 0 < out < dur_below mx (concat M) -> k = O) /\
    (let n := (length M - length (leave_out k M))%nat in
     (n = O -> hd_first_index hd = m_pindex (t_m t) /\ hd_init_time hd = m_init_time (t_m t) /\ hd_init_index hd = m_init_index (t_m t)) /\
     (n <> O -> exists y ys, nth_error M n = Some (y :: ys) /\ hd_first_index hd = m_pindex (t_m t) + Z.of_nat n /\ hd_init_time hd = s_time y /\ hd_init_index hd = s_index y)).
Proof.
  intros h id t M nt tk max pend mx pct sd out H F TM NE PE T CH MB EMX EOUT EL. pose proof (reach_inv _ _ H) as CV. destruct (seen h id t CV F) as (_ & _ & V & MV & S & _ & TV & TM0). rewrite TM in TM0. injection TM0 as ->.
  assert (NV : MV <> []) by (intros ->; apply NE; reflexivity). destruct (first_ok h t V MV max pend (ci_wf _ CV) S NV) as (bs & WB & BS).
  assert (EFF : effective h tk max = mx). { unfold effective. rewrite (pending_open _ _ _ _ PE), EMX. destruct pend; [|reflexivity]. apply TimelineProofs13.u32_small. specialize (MB eq_refl). lia. }
  assert (OO : output_duration (ch_scale h) pct (m_target (t_m t)) = out) by (rewrite EOUT; reflexivity).
  pose proof (skip_ok h t nt tk max pct (mk_hd (m_pindex (t_m t)) (m_init_time (t_m t)) (m_init_index (t_m t)) (m_seq (t_m t) - m_count (t_m t)) (if m_target (t_m t) <=? 0 then sd else m_target (t_m t)) false 0 0 0 INVALID) V MV (ci_wf _ CV) T CH S NV) as SO. cbv zeta in SO. rewrite EFF, OO in SO.
  unfold serve. rewrite EL, (pending_open _ _ _ _ PE). destruct ((0 <? out) && (out <? dur_below mx (concat (map v_segs MV)))) eqn:CC.
  - destruct SO as (k & p & nx & fi & fit & fii & last & E & K & B & WR & FI & _). rewrite E. destruct (WR pend) as (bs' & WB' & BS'). rewrite WB'. eexists. exists bs', k. split; [reflexivity|]. cbn [hd_skipped_segs hd_skipped_periods hd_first_index hd_init_time hd_init_index] in *.
    split; [exact BS'|]. split; [reflexivity|]. split; [reflexivity|]. split; [intros _; split; [exact K|exact B]|]. split; [lia|]. exact FI.
  - assert (L0 : leave_out 0 (map v_segs MV) = map v_segs MV). { destruct MV as [|mv MV]; [contradiction|]. assert (NN : nonempty (mv :: MV)) by (eapply mok_nonempty; [exact (tk_per _ _ _ (proj1 S))|apply S]). inversion NN; subst. cbn [map leave_out]. destruct (v_segs mv); [contradiction|]. reflexivity. }
    rewrite SO, WB. eexists. exists bs, O. split; [reflexivity|]. cbn [hd_skipped_segs hd_skipped_periods hd_first_index hd_init_time hd_init_index]. rewrite L0. split; [exact BS|]. split; [reflexivity|]. split; [lia|]. split; [lia|]. split; [reflexivity|]. split; [auto|]. intros Q. exfalso. apply Q. lia.
Qed.
Print Assumptions C58_skip.

(* the index of the last segment that was left out is given when the output starts with a period *)
Theorem C58_last_partial : forall h id t M nt tk max pend pct seg_dur hd bs M1 M2, reach any h -> find_tl id (ch_tls h) = Some t -> m_view (ch_list h) t = Some M -> M <> [] -> (pend = true <-> open_on h tk max) ->
  tree_of (cl_list (ch_list h)) nt -> chronological (segs (cl_list (ch_list h))) ->
  serve_end_list h t tk max = Some false -> serve h t nt tk max (Some pct) seg_dur = Some (hd, bs) ->
  M = M1 ++ M2 -> M1 <> [] -> hd_skipped_segs hd = len (concat M1) -> exists q y, concat M1 = q ++ [y] /\ hd_last_skipped hd = s_index y.
Proof.
  intros h id t M nt tk max pend pct sd hd bs M1 M2 H F TM NE PE T CH EL SV EM N1 L1. pose proof (reach_inv _ _ H) as CV. destruct (seen h id t CV F) as (_ & _ & V & MV & S & _ & TV & TM0). rewrite TM in TM0. injection TM0 as ->.
  assert (NV : MV <> []) by (intros ->; apply NE; reflexivity).
  pose proof (skip_ok h t nt tk max pct (mk_hd (m_pindex (t_m t)) (m_init_time (t_m t)) (m_init_index (t_m t)) (m_seq (t_m t) - m_count (t_m t)) (if m_target (t_m t) <=? 0 then sd else m_target (t_m t)) false 0 0 0 INVALID) V MV (ci_wf _ CV) T CH S NV) as SO. cbv zeta in SO.
  unfold serve in SV. rewrite EL in SV. match type of SO with if ?b then _ else _ => destruct b end.
  - destruct SO as (k & p & nx & fi & fit & fii & last & E & K & B & WR & FI & LA). rewrite E in SV. destruct (write_periods _ _ _ _ _ _ _); [|discriminate]. injection SV as <- <-. cbn [hd_skipped_segs hd_last_skipped] in *. apply (LA M1 M2 EM N1). unfold len in L1. lia.
  - rewrite SO in SV. destruct (write_periods _ _ _ _ _ _ _); [|discriminate]. injection SV as <- <-. cbn [hd_skipped_segs] in L1. exfalso. assert (NN : nonempty MV) by (eapply mok_nonempty; [exact (tk_per _ _ _ (proj1 S))|apply S]). destruct M1 as [|m M1]; [contradiction|]. cbn [concat] in L1. rewrite len_app in L1.
    destruct MV as [|mv MV]; [discriminate|]. cbn [map app] in EM. injection EM as EM _. inversion NN; subst. pose proof (len_pos (v_segs mv) ltac:(assumption)). pose proof (len_nonneg (concat M1)). lia.
Qed.
Print Assumptions C58_last_partial.

(* --- examples: timeline 1 of the first example of TimelineProperties2.v --- *)
Definition nt2 : tree := Node Leaf 0 (Node Leaf 1 Leaf).
Definition serve1 (tk : option track) (max : Z) (skip : option Z) : option (header * list block) :=
  match find_tl 1 (ch_tls (fst (run ops1))) with Some t => serve (fst (run ops1)) t nt2 tk max skip 6 | None => None end.
Example C57_ex : match serve1 (Some (mk_track true (-2))) 13 None with
  | Some (hd, bs) => (hd_sequence hd, hd_periods hd, map (map (fun s => (s_index s, s_time s, s_dur s))) (map block_segs bs))
  | None => (0, 0, []) end = (7, 2, [[(10, 200, 10); (11, 210, 10)]; [(12, 220, 10); (13, 230, 0)]]).
Proof. vm_compute. reflexivity. Qed.
(* timeline 0 ends *)
Example C57_ex_end : match find_tl 0 (ch_tls (fst (run ops1))) with
  | Some t => option_map (fun r => (hd_end (fst r), map (map s_index) (map block_segs (snd r)))) (serve (fst (run ops1)) t nt2 None 14 None 6)
  | None => None end = Some (true, [[12; 13; 14]]).
Proof. vm_compute. reflexivity. Qed.
Example C58_ex : match serve1 None 14 (Some 100) with
  | Some (hd, bs) => ((hd_skipped_segs hd, hd_skipped_periods hd, hd_last_skipped hd), (hd_first_index hd, hd_init_time hd, hd_init_index hd), map (map s_index) (map block_segs bs))
  | None => ((0, 0, 0), (0, 0, 0), []) end = ((2, 1, 11), (1, 220, 12), [[12; 13; 14]]).
Proof. vm_compute. reflexivity. Qed.

Lemma ex_hyps : reach any (fst (run ops1)) /\ tree_of (cl_list (ch_list (fst (run ops1)))) nt2 /\ chronological (segs (cl_list (ch_list (fst (run ops1))))).
Proof.
  split; [apply (hist_reach _ _ (run_hist ops1 ltac:(vm_compute; reflexivity)))|]. split; [vm_compute; reflexivity|]. vm_compute. repeat (split; [discriminate|]). exact Logic.I.
Qed.

(* refuted in general: segment 10 is left out, and segment 11, the first one that is written, is called the last
   one that was left out *)
Lemma serve_glue h nt : reach any h -> tree_of (cl_list (ch_list h)) nt -> chronological (segs (cl_list (ch_list h))) ->
  match find_tl 1 (ch_tls h) with
  | Some t => option_map (fun r => (hd_skipped_segs (fst r), hd_last_skipped (fst r), map (fun b => sb_index b) (snd r))) (serve h t nt None 14 (Some 200) 6)
  | None => None end = Some (1, 11, [11; 12]) ->
  exists h id t nt tk max pct seg_dur hd bs, reach any h /\ find_tl id (ch_tls h) = Some t /\ tree_of (cl_list (ch_list h)) nt /\ chronological (segs (cl_list (ch_list h))) /\
    serve h t nt tk max (Some pct) seg_dur = Some (hd, bs) /\ hd_skipped_segs hd = 1 /\ exists b r, bs = b :: r /\ sb_index b = hd_last_skipped hd.
Proof.
  intros H T C E. destruct (find_tl 1 (ch_tls h)) as [t|] eqn:F; [|discriminate]. destruct (serve h t nt None 14 (Some 200) 6) as [[hd bs]|] eqn:S; [|discriminate]. cbn [option_map fst snd] in E. injection E as E1 E2 E3.
  exists h, 1%nat, t, nt, None, 14, 200, 6, hd, bs. do 5 (split; [assumption|]). split; [exact E1|]. destruct bs as [|b r]; [discriminate|]. exists b, r. split; [reflexivity|]. cbn [map] in E3. injection E3 as E3 _. congruence.
Qed.
Theorem C58_last_refuted :
  exists h id t nt tk max pct seg_dur hd bs, reach any h /\ find_tl id (ch_tls h) = Some t /\ tree_of (cl_list (ch_list h)) nt /\ chronological (segs (cl_list (ch_list h))) /\
    serve h t nt tk max (Some pct) seg_dur = Some (hd, bs) /\ hd_skipped_segs hd = 1 /\ exists b r, bs = b :: r /\ sb_index b = hd_last_skipped hd.
Proof. refine (serve_glue (fst (run ops1)) nt2 (proj1 ex_hyps) (proj1 (proj2 ex_hyps)) (proj2 (proj2 ex_hyps)) _). vm_compute. reflexivity. Qed.
Print Assumptions C58_last_refuted.
