(* Numbers, corrections and lookups of the timelines of a channel. *)
From Coq Require Import List ZArith Bool Lia ZifyBool ZifyNat.
From Verif Require Import SegListModel SegListSpec SegListProofs SegListProofs2 SegListProofs3 TimelineModel TimelineSpec TimelineProofs TimelineProofs2 TimelineProofs3
  TimelineProofs4 TimelineProofs5 TimelineProofs6 TimelineProofs7 TimelineProofs8 TimelineProofs9 TimelineProofs10 TimelineProofs11 TimelineProofs12 TimelineProofs13 TimelineProofs14 TimelineProperties.
Import ListNotations.
Local Open Scope Z_scope.

(* --- C50: sequence numbers --- *)

(* the segments of a timeline are numbered in the order in which it took them, from the next index of the channel
   when it was made; so a segment keeps its number as long as it is there.  Provided that the manifest showed
   each segment when it was added; see C50_stable_refuted *)
Theorem C50_numbers : forall h R id t V old a x b, hist h R -> find_tl id (ch_tls h) = Some t -> r_shown (R id) = true ->
  tl_view (ch_list h) t = Some V -> r_log (R id) = old ++ flat V -> flat V = a ++ x :: b ->
  index_to_sequence t (s_index x) = (u32 (r_first (R id) + len (old ++ a)), true).
Proof.
  intros h R id t V old a x b H F SH TV EL EV. pose proof (reach_inv _ _ (hist_reach _ _ H)) as CV. destruct (hist_told _ _ H id t F) as (V0 & MV & S & L & Q). destruct (seen_at h t V0 MV CV S) as [TV0 _]. rewrite TV in TV0. injection TV0 as <-.
  unfold index_to_sequence. rewrite (proj1 (index_loop_ok _ _ V _ (s_index x) (tk_per _ _ _ (proj1 S)) (tk_num _ _ _ (proj1 S))) a x b EV eq_refl). rewrite (Q SH), EL, EV, !len_app. do 2 f_equal. lia.
Qed.
Print Assumptions C50_numbers.

(* from the end: the last segment has the number before the next one *)
Theorem C50_from_end : forall h id t V, reach any h -> find_tl id (ch_tls h) = Some t -> tl_view (ch_list h) t = Some V ->
  (forall a x b, flat V = a ++ x :: b -> index_to_sequence t (s_index x) = (u32 (m_seq (t_m t) - len (x :: b)), true)) /\
  (forall index, (forall x, In x (flat V) -> s_index x <> index) -> snd (index_to_sequence t index) = false).
Proof.
  intros h id t V H F TV. pose proof (reach_inv _ _ H) as CV. destruct (seen h id t CV F) as (_ & _ & V0 & MV & S & _ & TV0 & _). rewrite TV in TV0. injection TV0 as <-. split.
  - intros a x b EV. apply (proj1 (index_loop_ok _ _ V _ (s_index x) (tk_per _ _ _ (proj1 S)) (tk_num _ _ _ (proj1 S))) a x b EV eq_refl).
  - intros index NI. apply (proj2 (index_loop_ok _ _ V _ index (tk_per _ _ _ (proj1 S)) (tk_num _ _ _ (proj1 S))) NI).
Qed.
Print Assumptions C50_from_end.

(* the two translations are inverse to each other, as long as the numbers do not wrap *)
Theorem C50_inverse : forall h id t V, reach any h -> find_tl id (ch_tls h) = Some t -> tl_view (ch_list h) t = Some V ->
  0 <= m_seq (t_m t) - len (flat V) -> m_seq (t_m t) < 4294967296 -> (forall x, In x (flat V) -> 0 <= s_index x < 4294967296) ->
  (forall x, In x (flat V) -> sequence_to_index h t (fst (index_to_sequence t (s_index x))) = Some (s_index x)) /\
  (forall seq, m_seq (t_m t) - len (flat V) <= seq < m_seq (t_m t) -> exists x, In x (flat V) /\ sequence_to_index h t seq = Some (s_index x) /\ index_to_sequence t (s_index x) = (seq, true)).
Proof.
  intros h id t V H F TV Q1 Q2 Q3. pose proof (reach_inv _ _ H) as CV. destruct (seen h id t CV F) as (_ & _ & V0 & MV & S & _ & TV0 & _). rewrite TV in TV0. injection TV0 as <-. pose proof (len_nonneg (flat V)).
  assert (ONE : forall a x b, flat V = a ++ x :: b -> index_to_sequence t (s_index x) = (m_seq (t_m t) - len (x :: b), true) /\ sequence_to_index h t (m_seq (t_m t) - len (x :: b)) = Some (s_index x)).
  { intros a x b EV. assert (B : 0 < len (x :: b) <= len (flat V)). { rewrite EV, len_app, len_cons. pose proof (len_nonneg a). pose proof (len_nonneg b). lia. } split.
    - rewrite (proj1 (C50_from_end h id t V H F TV) a x b EV), u32_small by lia. reflexivity.
    - unfold sequence_to_index. rewrite (u32_small (m_seq (t_m t))) by lia. replace (m_seq (t_m t) <=? m_seq (t_m t) - len (x :: b)) with false by lia.
      eapply (seq_loop_ok _ _ V _ a x b (tk_per _ _ _ (proj1 S)) (tk_num _ _ _ (proj1 S)) EV); [lia|lia|]. apply Q3. rewrite EV. apply in_or_app. right. left. reflexivity. }
  split.
  - intros x I. apply in_split in I as (a & b & EV). destruct (ONE a x b EV) as [E1 E2]. rewrite E1. exact E2.
  - intros q B. assert (N : exists x, nth_error (flat V) (Z.to_nat (q - (m_seq (t_m t) - len (flat V)))) = Some x).
    { destruct (nth_error (flat V) (Z.to_nat (q - (m_seq (t_m t) - len (flat V))))) as [x|] eqn:N; [exists x; reflexivity|]. apply nth_error_None in N. unfold len in *. lia. }
    destruct N as (x & N). apply nth_error_split in N as (a & b & EV & LA). destruct (ONE a x b EV) as [E1 E2]. assert (EQ : m_seq (t_m t) - len (x :: b) = q). { assert (len (flat V) = len a + len (x :: b)) by (rewrite EV, len_app; reflexivity). unfold len in *. lia. }
    rewrite EQ in *. exists x. split; [rewrite EV; apply in_or_app; right; left; reflexivity|]. split; assumption.
Qed.
Print Assumptions C50_inverse.

(* --- C51: what is freed --- *)

(* after a segment is added or a cleanup, the lowest index that is kept is not above any segment that a timeline
   shows; it is one of them, or the next index; only segments below it are dropped from the list *)
Theorem C51_add : forall h now nalloc allocs s force h' r, reach any h -> fresh h s -> add h now nalloc allocs s force = Some (h', r) -> r <> RcError ->
  (forall id t V x, find_tl id (ch_tls h') = Some t -> tl_view (ch_list h') t = Some V -> In x (flat V) -> ch_min h' <= s_index x) /\
  (ch_min h' = ch_next h \/ exists id t V x, find_tl id (ch_tls h') = Some t /\ tl_view (ch_list h') t = Some V /\ In x (flat V) /\ ch_min h' = s_index x) /\
  (exists dropped, segs (cl_list (ch_list h)) ++ [s] = dropped ++ segs (cl_list (ch_list h')) /\ (forall x, In x dropped -> s_index x < ch_min h')).
Proof.
  intros h now na al s f h' r H F E NR. pose proof (reach_inv _ _ H) as CV.
  destruct (add_segment_ok h now na al s f CV (proj1 F) (fresh_lt _ _ CV F) (proj2 (proj2 F))) as (h1 & r1 & E1 & C1 & _ & K). unfold add in E. rewrite E in E1. injection E1 as <- <-.
  destruct (K NR) as (_ & _ & _ & _ & DR & (res & ER & FR & RR) & MM & _). split; [|split; [|exact DR]].
  - intros id t V x F' TV I. destruct (seen h' id t C1 F') as (I' & _ & V0 & MV0 & S' & _ & TV0 & _). rewrite TV in TV0. injection TV0 as <-. rewrite ER in I'. apply in_map_iff in I' as (rr & <- & Ir). destruct (Forall2_in_r _ _ _ _ FR Ir) as (t0 & It & (_ & A)).
    destruct (ci_tls _ CV t0 It) as (V1 & MV1 & S & L & _). destruct (A V1 MV1 S L) as (V' & MV' & alloc & S2 & MI & _). apply MI. rewrite <- (st_unique _ _ _ _ _ _ (ci_wf _ C1) S' S2). exact I.
  - destruct MM as [Q|(t' & V' & MV' & x & I & S & Ix & Ex)]; [left; exact Q|]. right. exists (t_id t'), t', V', x. split; [apply in_find; [apply C1|exact I]|]. split; [apply tl_view_ok; [apply C1|apply S]|]. auto.
Qed.
Print Assumptions C51_add.

Theorem C51_cleanup : forall h now h' b, reach any h -> cleanup h now = Some (h', b) -> ch_active h = false ->
  (forall id t V x, find_tl id (ch_tls h') = Some t -> tl_view (ch_list h') t = Some V -> In x (flat V) -> ch_min h' <= s_index x) /\
  (ch_min h' = ch_next h \/ exists id t V x, find_tl id (ch_tls h') = Some t /\ tl_view (ch_list h') t = Some V /\ In x (flat V) /\ ch_min h' = s_index x) /\
  (exists dropped, segs (cl_list (ch_list h)) = dropped ++ segs (cl_list (ch_list h')) /\ (forall x, In x dropped -> s_index x < ch_min h')) /\
  (b = false <-> ch_min h' = ch_next h) /\
  (forall id t V M, find_tl id (ch_tls h) = Some t -> tl_view (ch_list h) t = Some V -> m_view (ch_list h) t = Some M ->
     exists t' V' M', find_tl id (ch_tls h') = Some t' /\ tl_view (ch_list h') t' = Some V' /\ m_view (ch_list h') t' = Some M' /\
       let (k, k') := expire (ch_scale h) now t (flat V) (concat M) in V' = popn k V /\ concat M' = skipn k' (concat M)).
Proof.
  intros h now h' b H E AC. pose proof (reach_inv _ _ H) as CV. destruct (cleanup_ok h now CV) as (h1 & b1 & E1 & C1 & _ & K). rewrite E in E1. injection E1 as <- <-.
  destruct (K AC) as (FR & MM & _ & BB & DR & _). split; [|split; [|split; [exact DR|split]]].
  - intros id t V x F' TV I. destruct (seen h' id t C1 F') as (I' & _ & V0 & MV0 & S' & _ & TV0 & _). rewrite TV in TV0. injection TV0 as <-. destruct (Forall2_in_r _ _ _ _ FR I') as (t0 & It & (_ & A)).
    destruct (ci_tls _ CV t0 It) as (V1 & MV1 & S & L & _). destruct (A V1 MV1 S) as (k & k' & (S2 & _) & _ & MI). apply MI. rewrite <- (st_unique _ _ _ _ _ _ (ci_wf _ C1) S' S2). exact I.
  - destruct MM as [Q|(t' & V' & MV' & x & I & S & Ix & Ex)]; [left; exact Q|]. right. exists (t_id t'), t', V', x. split; [apply in_find; [apply C1|exact I]|]. split; [apply tl_view_ok; [apply C1|apply S]|]. auto.
  - rewrite BB. destruct (ch_min h' =? ch_next h) eqn:Q; cbn [negb]; [apply Z.eqb_eq in Q; tauto|]. apply Z.eqb_neq in Q. split; [discriminate|contradiction].
  - intros id t V M FT TV TM. destruct (seen h id t CV FT) as (_ & _ & V0 & MV & S & _ & TV0 & TM0). rewrite TV in TV0. injection TV0 as <-. rewrite TM in TM0. injection TM0 as ->.
    pose proof (Forall2_find _ _ _ id FR ltac:(intros ? ? Q; apply Q)) as FF. rewrite FT in FF. destruct FF as (t2 & F2 & (_ & A)). destruct (A V MV S) as (k & k' & (S' & _) & EX & _). destruct (seen_at h' _ _ _ C1 S') as [TV' TM'].
    exists t2, (popn k V), (map v_segs (popn k' MV)). split; [exact F2|]. split; [exact TV'|]. split; [exact TM'|]. rewrite !concat_segs. unfold expired_cut in EX. rewrite <- EX. split; [reflexivity|]. apply flat_popn. eapply mok_nonempty; [apply S|apply S].
Qed.
Print Assumptions C51_cleanup.

(* --- C52: corrections and discontinuities --- *)

(* a new period: with a gap configured, its corrected times start that gap after the corrected end of what the
   timeline showed; without, they are not corrected.  The code takes a corrected end of 0 for none *)
Theorem C52_correction : forall h now nalloc allocs s force h' r id t V, reach any h -> fresh h s -> add h now nalloc allocs s force = Some (h', r) -> r <> RcError ->
  find_tl id (ch_tls h) = Some t -> tl_view (ch_list h) t = Some V -> takes t (s_time s + s_dur s / 2) = true ->
  exists t' k corr, find_tl id (ch_tls h') = Some t' /\ tl_view (ch_list h') t' = Some (popn k (put V s (force || breaks V s) corr)) /\
    (c_gap (t_conf t) = -1 -> corr = 0) /\
    (c_gap (t_conf t) <> -1 -> forall V0 v q x, V = V0 ++ [v] -> v_segs v = q ++ [x] -> s_end x + v_corr v <> 0 -> s_time s + corr = s_end x + v_corr v + c_gap (t_conf t)).
Proof.
  intros h now na al s f h' r id t V H F E NR FT TV TK. pose proof (reach_inv _ _ H) as CV. destruct (seen h id t CV FT) as (_ & _ & V0 & MV0 & S0 & _ & TV0 & TM).
  destruct (add_found _ _ _ _ _ _ _ _ _ _ _ _ H F E NR FT TV TM) as (MV & t' & V' & MV' & alloc & e & S & _ & L & F' & S' & TV' & TM' & _ & O). inversion O; subst; [congruence|].
  exists t'. eexists _, corr. split; [exact F'|]. split; [exact TV'|]. unfold corr, correction. split.
  - intros Q. rewrite Q. reflexivity.
  - intros Q W0 v q x EV EX NZ. rewrite (L W0 v q x EV EX). replace (negb (c_gap (t_conf t) =? -1) && negb (s_end x + v_corr v =? 0)) with true by lia. lia.
Qed.
Print Assumptions C52_correction.

(* the number of the first period of the manifest, plus the number of its periods, grows by one when a period
   starts in the manifest and stays the same otherwise: a period keeps its number while it is there *)
Theorem C52_discontinuity : forall h now nalloc allocs s force h' r id t V M, reach any h -> fresh h s -> add h now nalloc allocs s force = Some (h', r) -> r <> RcError ->
  find_tl id (ch_tls h) = Some t -> tl_view (ch_list h) t = Some V -> m_view (ch_list h) t = Some M ->
  exists t' M', find_tl id (ch_tls h') = Some t' /\ m_view (ch_list h') t' = Some M' /\
    m_pindex (t_m t') + len M' = m_pindex (t_m t) + len M + (if takes t (s_time s + s_dur s / 2) && ((force || breaks V s) || match M with [] => true | _ => false end) then 1 else 0).
Proof.
  intros h now na al s f h' r id t V M H F E NR FT TV TM. destruct (add_found _ _ _ _ _ _ _ _ _ _ _ _ H F E NR FT TV TM) as (MV & t' & V' & MV' & alloc & e & S & -> & L & F' & S' & TV' & TM' & _ & O).
  exists t', (map v_segs MV'). split; [exact F'|]. split; [exact TM'|]. unfold len at 1 2. rewrite !map_length. fold (len MV') (len MV). inversion O; subst.
  - match goal with HT : takes t _ = false |- _ => rewrite HT end. cbn [andb]. lia.
  - match goal with HT : takes t _ = true |- _ => rewrite HT end. cbn [andb]. match goal with HP : m_pindex _ + _ = _ |- _ => rewrite HP end. unfold MV1. rewrite mput_len. unfold newp. destruct MV; cbn [map]; lia.
Qed.
Print Assumptions C52_discontinuity.

(* --- C53: the segment with a given index --- *)

Lemma starts_nth init ps V i p v : starts init ps V -> nth_error ps i = Some p -> nth_error V i = Some v -> v_start v = if Nat.eqb i 0 then init else p_time p.
Proof.
  intros S NP NV. destruct ps as [|q ps], V as [|w V]; try (destruct i; discriminate). destruct S as [S0 S]. destruct i as [|i]; cbn [Nat.eqb nth_error] in *; [injection NV as <-; exact S0|].
  revert i NP NV. induction S as [|a b ps V R _ IH]; intros i NP NV; [destruct i; discriminate|]. destruct i as [|i]; cbn in *; [injection NP as <-; injection NV as <-; exact R|]. apply (IH i NP NV).
Qed.

(* a segment that the timeline shows is found, with the correction of its period, or with the time at which its
   period started; other indexes are told apart: nothing is shown, removed from the front, or not there *)
Theorem C53_lookup : forall h id t V tr initial index relative, reach any h -> find_tl id (ch_tls h) = Some t -> tl_view (ch_list h) t = Some V ->
  inorder tr = seq 0 (length (t_periods t)) ->
  (forall v x, In v V -> In x (v_segs v) -> s_index x = index -> get_segment_info t tr initial index relative = Some (InfoOk (if relative then - v_start v else v_corr v))) /\
  ((forall x, In x (flat V) -> s_index x <> index) ->
     get_segment_info t tr initial index relative =
       Some (match flat V with [] => InfoEmpty | s :: _ => if (initial <=? index) && (index <? s_index s) then InfoRemoved else InfoNotFound end)).
Proof.
  intros h id t V tr initial index relative H F TV TR. pose proof (reach_inv _ _ H) as CV. destruct (seen h id t CV F) as (_ & _ & V0 & MV & S & _ & TV0 & _). rewrite TV in TV0. injection TV0 as <-.
  destruct S as [T _]. pose proof (tk_per _ _ _ T) as P. pose proof (tk_num _ _ _ T) as N. destruct (walk_periods_ok _ _ _ index P N tr 0 _ TR ltac:(lia)) as (w & E & W). unfold get_segment_info. rewrite E. split.
  - intros v x Iv Ix X. destruct (In_nth_error _ _ Iv) as (j & NJ).
    assert (NP : exists p, nth_error (t_periods t) j = Some p). { destruct (nth_error (t_periods t) j) eqn:Q; [eauto|]. apply nth_error_None in Q. pose proof (Forall2_length _ _ _ P). pose proof (proj1 (nth_error_Some V j) ltac:(congruence)). lia. }
    destruct NP as (p & NP). destruct (pers_nth _ _ _ _ _ P NP) as (v' & NV & R). rewrite NJ in NV. injection NV as <-. pose proof (pok_next _ _ _ _ (proj1 R) Ix) as B. rewrite X in B.
    pose proof (proj1 (nth_error_Some (t_periods t) j) ltac:(congruence)) as LJ. destruct w as [i|]; [|exfalso; exact (W j p ltac:(lia) NP B)].
    destruct W as (Bi & p2 & NP2 & B2). assert (i = j) as ->.
    { destruct (Nat.lt_trichotomy i j) as [Q|[Q|Q]]; [|exact Q|].
      - pose proof (keys_sorted _ _ _ i j p2 p P N Q NP2 NP). lia.
      - pose proof (keys_sorted _ _ _ j i p p2 P N Q NP NP2). lia. }
    rewrite NP. rewrite NP in NP2. injection NP2 as <-. rewrite (starts_nth _ _ _ _ _ _ (tk_start _ _ _ T) NP NJ). destruct R as (_ & _ & RC). rewrite RC. destruct relative; [destruct (Nat.eqb j 0)|]; reflexivity.
  - intros NI. destruct w as [i|].
    + exfalso. destruct W as (Bi & p & NP & B). destruct (pers_nth _ _ _ _ _ P NP) as (v & NV & R). destruct (pok_split _ _ _ _ (proj1 R) B) as (a & x & b & EV & X & _). apply (NI x); [|exact X].
      unfold flat. apply in_flat_map. exists v. split; [eapply nth_error_In; exact NV|]. rewrite EV. apply in_or_app. right. left. reflexivity.
    + destruct (t_periods t) as [|p ps] eqn:EP.
      * rewrite (tok_nil _ _ _ T EP). reflexivity.
      * destruct (tok_key _ _ _ _ _ T EP) as (s & r & -> & <-). destruct (_ && _); reflexivity.
Qed.
Print Assumptions C53_lookup.

(* --- C54: truncation --- *)

Lemma after_spec index l : numbered l -> exists gone, l = gone ++ skipn (trim (after index) l) l /\ (forall x, In x gone -> s_index x <= index) /\ (forall x, In x (skipn (trim (after index) l) l) -> index < s_index x).
Proof.
  intros N. exists (firstn (trim (after index) l) l). split; [symmetry; apply firstn_skipn|]. split; [|apply numbered_after; exact N].
  clear N. induction l as [|y l IH]; intros x I; [destruct I|]. cbn [trim after] in I. destruct (index <? s_index y) eqn:C; [destruct I|]. cbn [firstn] in I. destruct I as [->|I]; [lia|]. apply IH. exact I.
Qed.

(* truncating removes the segments up to an index from every timeline and manifest that is not protected, and
   nothing else *)
Theorem C54_truncate : forall h now index h' id t V M, reach any h -> truncate h now index = Some h' ->
  find_tl id (ch_tls h) = Some t -> tl_view (ch_list h) t = Some V -> m_view (ch_list h) t = Some M ->
  exists t' V' M', find_tl id (ch_tls h') = Some t' /\ tl_view (ch_list h') t' = Some V' /\ m_view (ch_list h') t' = Some M' /\
    if c_no_trunc (t_conf t) then V' = V /\ M' = M
    else (exists k, V' = popn k V) /\ flat V' = filter (fun x => index <? s_index x) (flat V) /\ concat M' = filter (fun x => index <? s_index x) (concat M).
Proof.
  intros h now i h' id t V M H E FT TV TM. pose proof (reach_inv _ _ H) as CV. destruct (truncate_ok h now i CV) as (h1 & E1 & C1 & EL & FR & _). rewrite E in E1. injection E1 as <-.
  destruct (seen h id t CV FT) as (_ & _ & V0 & MV & S & _ & TV0 & TM0). rewrite TV in TV0. injection TV0 as <-. rewrite TM in TM0. injection TM0 as ->.
  pose proof (Forall2_find _ _ _ id FR ltac:(intros ? ? Q; apply Q)) as FF. rewrite FT in FF. destruct FF as (t2 & F2 & (_ & A)). specialize (A V MV S).
  destruct (c_no_trunc (t_conf t)).
  - subst. rewrite EL. exists t, V, (map v_segs MV). auto 6.
  - destruct A as (S' & _). rewrite <- EL in S'. destruct (seen_at h' _ _ _ C1 S') as [TV' TM']. eexists t2, _, _. split; [exact F2|]. split; [exact TV'|]. split; [exact TM'|].
    assert (FIL : forall l, numbered l -> skipn (trim (after i) l) l = filter (fun x => i <? s_index x) l).
    { intros l N. destruct (after_spec i l N) as (g & EG & G1 & G2). rewrite EG at 3. rewrite filter_app. replace (filter (fun x => i <? s_index x) g) with (@nil seg).
      - cbn [app]. clear - G2. revert G2. generalize (skipn (trim (after i) l) l). intros m. induction m as [|y m IH]; intros G2; [reflexivity|]. cbn [filter]. pose proof (G2 y (or_introl eq_refl)). replace (i <? s_index y) with true by lia. f_equal. apply IH. intros x I. apply G2. right. exact I.
      - clear - G1. induction g as [|y g IH]; [reflexivity|]. cbn [filter]. pose proof (G1 y (or_introl eq_refl)). destruct (i <? s_index y) eqn:C; [lia|]. apply IH. intros x I. apply G1. right. exact I. }
    rewrite !concat_segs. split; [exists (trim (after i) (flat V)); reflexivity|]. pose proof (tk_num _ _ _ (proj1 S)) as N. split.
    + rewrite flat_popn by (eapply tok_nonempty; apply S). apply FIL. exact N.
    + rewrite flat_popn by (eapply mok_nonempty; [apply S|apply S]). apply FIL. eapply mok_num; [apply S|exact N].
Qed.
Print Assumptions C54_truncate.

(* --- C55: times relative to the start or the end of a timeline --- *)

Theorem C55_relative : forall h id t V (use_gap : bool) off, reach any h -> find_tl id (ch_tls h) = Some t -> tl_view (ch_list h) t = Some V -> V <> [] ->
  let gap := if use_gap then Z.max (c_gap (t_conf t)) 0 else 0 in
  (* the periods one after the other, each followed by the gap, from the start *)
  (exists x V1 v V2 s r, get_time t use_gap TStart off = Some (Some x) /\ V = V1 ++ v :: V2 /\ v_segs v = s :: r /\ x = s_time s + (off - laid gap V1) /\
    (V1 = [] \/ laid gap V1 <= off) /\ (V2 = [] \/ off < laid gap (V1 ++ [v]))) /\
  (* and from the end; there is no gap after the last period *)
  (exists x V1 v V2 s q, get_time t use_gap TEnd off = Some (Some x) /\ V = V1 ++ v :: V2 /\ v_segs v = q ++ [s] /\ x = s_end s - (off - laid gap V2) /\
    (V2 = [] \/ laid gap V2 <= off + gap) /\ (V1 = [] \/ off + gap < laid gap (v :: V2))).
Proof.
  intros h id t V ug off H F TV NE gap. pose proof (reach_inv _ _ H) as CV. destruct (seen h id t CV F) as (_ & _ & V0 & MV & S & _ & TV0 & _). rewrite TV in TV0. injection TV0 as <-.
  pose proof (tk_per _ _ _ (proj1 S)) as P. unfold get_time. destruct (t_periods t) as [|p ps] eqn:EP; [inversion P; subst; contradiction|]. rewrite <- EP in *. fold gap. split.
  - destruct (start_relative_ok _ gap _ V off P NE) as (x & V1 & v & V2 & s & r & E & A). rewrite E. exists x, V1, v, V2, s, r. split; [reflexivity|exact A].
  - destruct (end_relative_ok _ gap _ V (off + gap) P NE) as (x & V1 & v & V2 & s & q & E & A1 & A2 & A3 & A4 & A5). rewrite E. exists x, V1, v, V2, s, q. split; [reflexivity|]. split; [exact A1|]. split; [exact A2|]. split; [lia|]. auto.
Qed.
Print Assumptions C55_relative.

(* --- C56: the target duration --- *)

(* when it is not limited to the first segments, no segment of the manifest is longer than the target duration *)
Theorem C56_target : forall h id t M x, reach steady h -> find_tl id (ch_tls h) = Some t -> m_view (ch_list h) t = Some M -> In x (concat M) -> s_dur x <= m_target (t_m t).
Proof.
  intros h id t M x H F TM I. pose proof (reach_inv _ _ H) as CV. destruct (seen h id t CV F) as (It & _ & V & MV & S & _ & _ & TM0). rewrite TM in TM0. injection TM0 as ->. rewrite concat_segs in I.
  destruct (reach_aimed h H t It) as (_ & _ & A). apply (A V MV S x I).
Qed.
Print Assumptions C56_target.

(* --- examples --- *)
Inductive op := OAdd (now : Z) (s : seg) (force : bool) | OLast (d : Z) | OTrunc (index : Z) | OClean (now : Z) | OGet (now : Z) (id : nat) | OCreate (id : nat) (c : conf) (mc : mconf) | ONext (n : Z) | OActive (b : bool).
Definition freshb (h : channel) (s : seg) : bool :=
  (0 <=? s_dur s) && (match segs (cl_list (ch_list h)) with [] => true | _ => ch_last h <? s_index s end) && (ch_next h <=? s_index s).
Definition next (h : channel) (o : op) : option channel :=
  match o with
  | OAdd now s f => if freshb h s then match add h now true [] s f with Some (h', RcOk) | Some (h', RcDone) => Some h' | _ => None end else None
  | OLast d => if 0 <=? d then match update_last_segment h d with Some (h', RcOk) => Some h' | _ => None end else None
  | OTrunc i => truncate h 0 i
  | OClean now => option_map fst (cleanup h now)
  | OGet now id => match get h now id with Some (Some (h', _)) => Some h' | _ => None end
  | OCreate id c mc => create h 0 id c mc
  | ONext n => if ch_next h <=? n then Some (set_next h n) else None
  | OActive b => Some (set_active h b)
  end.
Definition record' (h h' : channel) (o : op) (R : nat -> record) : nat -> record :=
  match o with OAdd _ s _ => took h h' s R | OLast d => timed h d R | OCreate id _ _ => begun h id R | _ => R end.
Fixpoint after_ops (h : channel) (R : nat -> record) (l : list op) : option (channel * (nat -> record)) :=
  match l with [] => Some (h, R) | o :: r => match next h o with Some h' => after_ops h' (record' h h' o R) r | None => None end end.
Lemma after_hist l : forall h R h' R', hist h R -> after_ops h R l = Some (h', R') -> hist h' R'.
Proof.
  induction l as [|o l IH]; intros h R h' R' H E; [injection E as <- <-; exact H|]. cbn [after_ops] in E. destruct (next h o) as [h1|] eqn:N; [|discriminate]. eapply IH; [|exact E]. clear E IH.
  destruct o as [now s f|d|i|now|now id|id c mc|n|b]; cbn [next record'] in *.
  - destruct (freshb h s) eqn:FR; [|discriminate]. destruct (add h now true [] s f) as [[h2 r]|] eqn:A; [|discriminate].
    assert (r <> RcError /\ h2 = h1) as [NR ->] by (destruct r; [injection N as ->|injection N as ->|discriminate]; split; congruence). eapply h_add; [exact H| |exact A|exact NR].
    unfold freshb in FR. split; [lia|]. split; [|lia]. destruct (segs (cl_list (ch_list h))); [left; reflexivity|right; lia].
  - destruct (0 <=? d) eqn:D; [|discriminate]. destruct (update_last_segment h d) as [[h2 r]|] eqn:A; [|discriminate]. destruct r; try discriminate. injection N as ->. eapply h_update_last; eauto. lia.
  - eapply h_truncate; eauto.
  - destruct (cleanup h now) as [[h2 b]|] eqn:A; [|discriminate]. injection N as <-. eapply h_cleanup; eauto.
  - destruct (get h now id) as [[[h2 t]|]|] eqn:A; try discriminate. injection N as ->. eapply h_get; eauto.
  - eapply h_create; eauto.
  - destruct (ch_next h <=? n) eqn:D; [|discriminate]. injection N as <-. eapply h_next; [exact H|lia].
  - injection N as <-. eapply h_active. exact H.
Qed.
Lemma after_steady l : forall h R h' R', reach steady h -> forallb (fun o => match o with OCreate _ _ mc => mc_target_segs mc =? 0 | _ => true end) l = true -> after_ops h R l = Some (h', R') -> reach steady h'.
Proof.
  induction l as [|o l IH]; intros h R h' R' H B E; [injection E as <- _; exact H|]. cbn [forallb] in B. apply andb_prop in B as [B0 B]. cbn [after_ops] in E. destruct (next h o) as [h1|] eqn:N; [|discriminate]. eapply IH; [|exact B|exact E]. clear E IH.
  destruct o as [now s f|d|i|now|now id|id c mc|n|b]; cbn [next] in *.
  - destruct (freshb h s) eqn:FR; [|discriminate]. destruct (add h now true [] s f) as [[h2 r]|] eqn:A; [|discriminate].
    assert (h2 = h1) as -> by (destruct r; congruence). eapply r_add; [exact H| |exact A].
    unfold freshb in FR. split; [lia|]. split; [|lia]. destruct (segs (cl_list (ch_list h))); [left; reflexivity|right; lia].
  - destruct (0 <=? d) eqn:D; [|discriminate]. destruct (update_last_segment h d) as [[h2 r]|] eqn:A; [|discriminate]. destruct r; try discriminate. injection N as ->. eapply r_update_last; eauto. lia.
  - eapply r_truncate; eauto.
  - destruct (cleanup h now) as [[h2 b]|] eqn:A; [|discriminate]. injection N as <-. eapply r_cleanup; eauto.
  - destruct (get h now id) as [[[h2 t]|]|] eqn:A; try discriminate. injection N as ->. eapply r_get; eauto.
  - eapply r_create; eauto. apply Z.eqb_eq. exact B0.
  - destruct (ch_next h <=? n) eqn:D; [|discriminate]. injection N as <-. eapply r_next; [exact H|lia].
  - injection N as <-. eapply r_active. exact H.
Qed.

Definition R0 (id : nat) : record := mk_rec [] 0 true.
Definition h0 : channel := new_channel 0 0 7 10.
(* timeline 0: six segments, gap 5, a manifest of three; timeline 1: from time 100 on *)
Definition ops1 : list op :=
  [ OCreate 0 (mk_conf 0 0 5 0 6 true false) (mk_mconf 0 3 0 0 EndOn); OCreate 1 (mk_conf 100 0 (-1) 0 0 true true) (mk_mconf 0 0 0 0 EndOff);
    OAdd 1 (mk_seg 7 50 10) false; ONext 8; OAdd 2 (mk_seg 8 60 10) false; ONext 9; OAdd 3 (mk_seg 9 70 12) false; ONext 10; OAdd 4 (mk_seg 10 200 10) false; ONext 11; OAdd 5 (mk_seg 11 210 10) false; ONext 12;
    OAdd 6 (mk_seg 12 220 10) true; ONext 13; OAdd 7 (mk_seg 13 230 0) false; ONext 14; OLast 8; OAdd 8 (mk_seg 14 238 10) false; ONext 15 ].
Definition show (h : channel) (id : nat) : option (list (list (Z * Z)) * list (list Z)) :=
  match find_tl id (ch_tls h) with
  | Some t => match tl_view (ch_list h) t, m_view (ch_list h) t with
              | Some V, Some M => Some (map (fun v => map (fun s => (s_index s, s_time s + v_corr v)) (v_segs v)) V, map (map s_index) M)
              | _, _ => None end
  | None => None
  end.
Definition get_seq (h : channel) (id : nat) (index : Z) : option (Z * bool) := option_map (fun t => index_to_sequence t index) (find_tl id (ch_tls h)).
Example C48_ex : option_map (fun p => (show (fst p) 0, show (fst p) 1, (get_seq (fst p) 0 9, get_seq (fst p) 0 14), ch_min (fst p), map s_index (segs (cl_list (ch_list (fst p)))))) (after_ops h0 R0 ops1) =
  Some (Some ([[(9, 70)]; [(10, 87); (11, 97)]; [(12, 112); (13, 122); (14, 130)]], [[12; 13; 14]]),
        Some ([[(10, 200); (11, 210)]; [(12, 220); (13, 230); (14, 238)]], [[10; 11]; [12; 13; 14]]), (Some (9, true), Some (14, true)), 9, [7; 8; 9; 10; 11; 12; 13; 14]).
Proof. vm_compute. reflexivity. Qed.
(* the state and the records after the operations; the first ones when they cannot be done *)
Definition run (l : list op) : channel * (nat -> record) := match after_ops h0 R0 l with Some p => p | None => (h0, R0) end.
Definition runs (l : list op) : bool := match after_ops h0 R0 l with Some _ => true | None => false end.
Lemma run_hist l : runs l = true -> hist (fst (run l)) (snd (run l)).
Proof. unfold runs, run. destruct (after_ops h0 R0 l) as [[h R]|] eqn:E; [|discriminate]. intros _. exact (after_hist l h0 R0 h R (h_new _ _ _ _ _) E). Qed.
Lemma run_steady l : runs l = true -> forallb (fun o => match o with OCreate _ _ mc => mc_target_segs mc =? 0 | _ => true end) l = true -> reach steady (fst (run l)).
Proof. unfold runs, run. destruct (after_ops h0 R0 l) as [[h R]|] eqn:E; [|discriminate]. intros _ B. exact (after_steady l h0 R0 h R (r_new _ _ _ _ _) B E). Qed.
Example C48_ex_hist : hist (fst (run ops1)) (snd (run ops1)) /\ reach steady (fst (run ops1)).
Proof. split; [apply run_hist; vm_compute; reflexivity|apply run_steady; vm_compute; reflexivity]. Qed.
Example C50_ex : (map s_index (r_log (snd (run ops1) 0%nat)), r_first (snd (run ops1) 0%nat), r_shown (snd (run ops1) 0%nat)) = ([7; 8; 9; 10; 11; 12; 13; 14], 7, true).
Proof. vm_compute. reflexivity. Qed.
(* truncation, and a timeline that is no longer active *)
Example C54_ex : option_map (fun p => (show (fst p) 0, show (fst p) 1)) (after_ops h0 R0 (ops1 ++ [OTrunc 12])) =
  Some (Some ([[(13, 122); (14, 130)]], [[13; 14]]), Some ([[(10, 200); (11, 210)]; [(12, 220); (13, 230); (14, 238)]], [[10; 11]; [12; 13; 14]])).
Proof. vm_compute. reflexivity. Qed.
Example C49_ex_expire : option_map (fun p => show (fst p) 0) (after_ops h0 R0 (ops1 ++ [OActive false; OClean 10])) = Some (Some ([[(11, 97)]; [(12, 112); (13, 122); (14, 130)]], [[14]])).
Proof. vm_compute. reflexivity. Qed.
Example C51_ex_cleanup : option_map (fun p => (ch_min (fst p), show (fst p) 0)) (after_ops h0 R0 (ops1 ++ [OActive false; OClean 100])) = Some (10, Some ([], [])).
Proof. vm_compute. reflexivity. Qed.

(* C50 refuted when a segment that is too long empties the manifest, while the timeline keeps it: segment 7 has
   the number 7, and then 6; segment 8 gets the number 7 *)
Definition ops2 : list op := [ OCreate 0 (mk_conf 0 0 (-1) 100 0 true false) (mk_mconf 5 0 0 0 EndOn); OAdd 1 (mk_seg 7 50 3) false ].
Definition ops3 : list op := ops2 ++ [ OAdd 2 (mk_seg 8 53 6) false ].
Lemma glue (h h' : channel) (R R' : nat -> record) (s : seg) : hist h R -> hist h' R' -> fresh h s -> add h 2 true [] s false = Some (h', RcDone) ->
  match find_tl 0 (ch_tls h) with Some t => (option_map (fun V => map s_index (flat V)) (tl_view (ch_list h) t), index_to_sequence t 7) | None => (None, (0, false)) end = (Some [7], (7, true)) ->
  match find_tl 0 (ch_tls h') with Some t => (option_map (fun V => map s_index (flat V)) (tl_view (ch_list h') t), index_to_sequence t 7, index_to_sequence t 8) | None => (None, (0, false), (0, false)) end = (Some [7; 8], (6, true), (7, true)) ->
  exists h R t h' R' t' s, hist h R /\ hist h' R' /\ fresh h s /\ add h 2 true [] s false = Some (h', RcDone) /\ find_tl 0 (ch_tls h) = Some t /\ find_tl 0 (ch_tls h') = Some t' /\
    (exists V, tl_view (ch_list h) t = Some V /\ map s_index (flat V) = [7]) /\ (exists V', tl_view (ch_list h') t' = Some V' /\ map s_index (flat V') = [7; 8]) /\
    index_to_sequence t 7 = (7, true) /\ index_to_sequence t' 7 = (6, true) /\ index_to_sequence t' 8 = (7, true).
Proof.
  intros H H' A B X X'. destruct (find_tl 0 (ch_tls h)) as [t|] eqn:T; [|discriminate]. destruct (find_tl 0 (ch_tls h')) as [t'|] eqn:T'; [|discriminate].
  exists h, R, t, h', R', t', s. split; [exact H|]. split; [exact H'|]. split; [exact A|]. split; [exact B|]. split; [exact T|]. split; [exact T'|].
  apply pair_equal_spec in X as [X1 X2]. apply pair_equal_spec in X' as [X' X5]. apply pair_equal_spec in X' as [X3 X4].
  destruct (tl_view (ch_list h) t) as [V|]; [|discriminate]. destruct (tl_view (ch_list h') t') as [V'|]; [|discriminate]. injection X1 as X1. injection X3 as X3.
  split; [exists V; auto|]. split; [exists V'; auto|]. auto.
Qed.
Theorem C50_stable_refuted :
  exists h R t h' R' t' s, hist h R /\ hist h' R' /\ fresh h s /\ add h 2 true [] s false = Some (h', RcDone) /\ find_tl 0 (ch_tls h) = Some t /\ find_tl 0 (ch_tls h') = Some t' /\
    (exists V, tl_view (ch_list h) t = Some V /\ map s_index (flat V) = [7]) /\ (exists V', tl_view (ch_list h') t' = Some V' /\ map s_index (flat V') = [7; 8]) /\
    index_to_sequence t 7 = (7, true) /\ index_to_sequence t' 7 = (6, true) /\ index_to_sequence t' 8 = (7, true).
Proof.
  refine (glue (fst (run ops2)) (fst (run ops3)) (snd (run ops2)) (snd (run ops3)) (mk_seg 8 53 6) (run_hist ops2 _) (run_hist ops3 _) _ _ _ _); [vm_compute; reflexivity|vm_compute; reflexivity| |vm_compute; reflexivity|vm_compute; reflexivity|vm_compute; reflexivity].
  split; [cbn; lia|]. split; [right; vm_compute; reflexivity|]. apply Z.leb_le. vm_compute. reflexivity.
Qed.
Print Assumptions C50_stable_refuted.

(* lookups in timeline 0 of the first example, over a tree of its three periods *)
Definition tr3 : tree := Node (Node Leaf 0 Leaf) 1 (Node Leaf 2 Leaf).
Example C53_ex : match after_ops h0 R0 ops1 with
  | Some (h, _) => match find_tl 0 (ch_tls h) with
                   | Some t => (map (fun i => get_segment_info t tr3 7 i false) [6; 8; 9; 11; 14; 15], map (fun i => get_segment_info t tr3 7 i true) [9; 11; 14],
                                map (fun o => get_time t true TStart o) [0; 30; 60], map (fun o => get_time t true TEnd o) [0; 35])
                   | None => ([], [], [], []) end
  | None => ([], [], [], []) end =
  ([Some InfoNotFound; Some InfoRemoved; Some (InfoOk 0); Some (InfoOk (-113)); Some (InfoOk (-108)); Some InfoNotFound], [Some (InfoOk (-50)); Some (InfoOk (-200)); Some (InfoOk (-220))],
   [Some (Some 70); Some (Some 213); Some (Some 238)], [Some (Some 248); Some (Some 218)]).
Proof. vm_compute. reflexivity. Qed.
Example C52_ex : match after_ops h0 R0 ops1 with
  | Some (h, _) => map (fun t => (m_pindex (t_m t), m_target (t_m t), m_seq (t_m t))) (ch_tls h)
  | None => [] end = [(2, 12, 15); (0, 10, 12)].
Proof. vm_compute. reflexivity. Qed.
