(* Lookups in a timeline. *)
From Coq Require Import List ZArith Bool Lia ZifyBool ZifyNat.
From Verif Require Import SegListModel SegListSpec SegListProofs SegListProofs2 SegListProofs3 TimelineModel TimelineSpec TimelineProofs TimelineProofs2 TimelineProofs3
  TimelineProofs4 TimelineProofs5 TimelineProofs6 TimelineProofs7 TimelineProofs8 TimelineProofs9 TimelineProofs10 TimelineProofs11 TimelineProofs12.
Import ListNotations.
Local Open Scope Z_scope.

Lemma u32_add a b : u32 (u32 a + b) = u32 (a + b).
Proof. unfold u32. rewrite Zplus_mod_idemp_l. reflexivity. Qed.
Lemma u32_small a : 0 <= a < 4294967296 -> u32 a = a.
Proof. apply Z.mod_small. Qed.

Lemma pers_snoc_inv c ps p V : pers c (ps ++ [p]) V -> exists V0 v, V = V0 ++ [v] /\ pers c ps V0 /\ prel c p v.
Proof.
  intros P. apply Forall2_app_inv_l in P as (V0 & W & P1 & P2 & ->). inversion P2 as [|? v ? ? R N]; subst. inversion N; subst. exists V0, v. auto.
Qed.
Lemma pok_split c p ss i : pok c p ss -> p_key p <= i < p_key p + p_count p -> exists a x b, ss = a ++ x :: b /\ s_index x = i /\ len a = i - p_key p.
Proof.
  intros (_ & K & _ & C) R. rewrite C in R. destruct (consec_nth _ _ _ (Z.to_nat (i - p_key p)) K ltac:(unfold len in R; lia)) as (x & N & X).
  apply nth_error_split in N as (a & b & E & L). exists a, x, b. split; [exact E|]. split; [lia|]. unfold len. lia.
Qed.

Lemma index_loop_ok c ps : forall V q index, pers c ps V -> numbered (flat V) ->
  (forall a x b, flat V = a ++ x :: b -> s_index x = index -> index_loop (rev ps) (u32 q) index = (u32 (q - len (x :: b)), true)) /\
  ((forall x, In x (flat V) -> s_index x <> index) -> snd (index_loop (rev ps) (u32 q) index) = false).
Proof.
  induction ps as [|p ps IH] using rev_ind; intros V q index P N.
  - inversion P; subst. split; [intros a x b E; destruct a; discriminate|reflexivity].
  - destruct (pers_snoc_inv _ _ _ _ P) as (V0 & v & -> & P0 & R). rewrite rev_app_distr. cbn [rev app index_loop]. pose proof R as (K & NE & _). pose proof K as (_ & _ & _ & CC).
    rewrite flat_snoc in *. pose proof (numbered_app_l _ _ N) as N0.
    assert (B0 : forall x, In x (flat V0) -> s_index x < p_key p).
    { intros x I. destruct (v_segs v) as [|y ys] eqn:EV; [contradiction|]. destruct K as (_ & (K1 & _) & _). rewrite <- K1. apply in_split in I as (a & b & EI). rewrite EI, <- app_assoc in N. cbn [app] in N.
      apply (numbered_lt _ _ _ y N). apply in_or_app. right. left. reflexivity. }
    destruct (p_key p + p_count p <=? index) eqn:C1.
    + split; [|reflexivity]. intros a x b E X. exfalso. assert (I : In x (flat V0 ++ v_segs v)) by (rewrite E; apply in_or_app; right; left; reflexivity).
      apply in_app_or in I as [I|I]; [pose proof (B0 x I); pose proof (len_nonneg (v_segs v)); lia|]. pose proof (pok_next _ _ _ _ K I). lia.
    + destruct (p_key p <=? index) eqn:C2.
      * destruct (pok_split _ _ _ index K ltac:(lia)) as (a2 & x2 & b2 & E2 & X2 & L2). split.
        -- intros a x b E X. rewrite E2, app_assoc in E. rewrite E2, app_assoc in N. destruct (numbered_split_unique _ _ _ _ _ _ _ N eq_refl E ltac:(congruence)) as (_ & <- & <-).
           f_equal. unfold Z.sub at 2. rewrite u32_add. replace (u32 (q + - p_count p) + index - p_key p) with (u32 (q + - p_count p) + (index - p_key p)) by lia. rewrite u32_add. f_equal.
           rewrite CC, E2, len_app, <- L2. lia.
        -- intros H. exfalso. apply (H x2); [|exact X2]. apply in_or_app. right. rewrite E2. apply in_or_app. right. left. reflexivity.
      * specialize (IH V0 (q - p_count p) index P0 N0). assert (U : u32 (u32 q - p_count p) = u32 (q - p_count p)) by (unfold Z.sub; apply u32_add). rewrite U. destruct IH as [IH1 IH2]. split.
        -- intros a x b E X. assert (I : exists b0, flat V0 = a ++ x :: b0 /\ b = b0 ++ v_segs v).
           { assert (I : In x (flat V0)). { assert (I : In x (flat V0 ++ v_segs v)) by (rewrite E; apply in_or_app; right; left; reflexivity). apply in_app_or in I as [I|I]; [exact I|]. pose proof (pok_next _ _ _ _ K I). lia. }
             apply in_split in I as (a0 & b0 & EI). exists b0. rewrite EI in E, N. rewrite <- app_assoc in E, N. cbn [app] in E, N.
             destruct (numbered_split_unique _ _ _ _ _ _ _ N eq_refl E eq_refl) as (<- & _ & <-). auto. }
           destruct I as (b0 & E0 & ->). rewrite (IH1 a x b0 E0 X). f_equal. f_equal. rewrite CC. change (x :: b0 ++ v_segs v) with ((x :: b0) ++ v_segs v). rewrite len_app. lia.
        -- intros H. apply IH2. intros x I. apply H. apply in_or_app. left. exact I.
Qed.

Lemma seq_loop_ok c ps : forall V q a x b, pers c ps V -> numbered (flat V) -> flat V = a ++ x :: b -> 0 <= q - len (flat V) -> q < 4294967296 -> 0 <= s_index x < 4294967296 ->
  seq_loop (rev ps) q (q - len (x :: b)) = Some (s_index x).
Proof.
  induction ps as [|p ps IH] using rev_ind; intros V q a x b P N E Q1 Q2 X.
  - inversion P; subst. destruct a; discriminate.
  - destruct (pers_snoc_inv _ _ _ _ P) as (V0 & v & -> & P0 & R). rewrite rev_app_distr. cbn [rev app seq_loop]. pose proof R as (K & NE & _). pose proof K as (_ & CS & _ & CC).
    rewrite flat_snoc in *. pose proof (numbered_app_l _ _ N) as N0. rewrite len_app in Q1. pose proof (len_nonneg (flat V0)). pose proof (len_nonneg (v_segs v)).
    rewrite (u32_small (q - p_count p)) by lia.
    assert (SP : (exists a2, v_segs v = a2 ++ x :: b /\ len (x :: b) <= p_count p) \/ exists b0, flat V0 = a ++ x :: b0 /\ b = b0 ++ v_segs v).
    { assert (I : In x (flat V0 ++ v_segs v)) by (rewrite E; apply in_or_app; right; left; reflexivity). apply in_app_or in I as [I|I].
      - right. apply in_split in I as (a0 & b0 & EI). exists b0. rewrite EI in E, N. rewrite <- app_assoc in E, N. cbn [app] in E, N. destruct (numbered_split_unique _ _ _ _ _ _ _ N eq_refl E eq_refl) as (<- & _ & <-). auto.
      - left. apply in_split in I as (a0 & b0 & EI). exists a0. rewrite EI in E, N. rewrite app_assoc in E, N. destruct (numbered_split_unique _ _ _ _ _ _ _ N eq_refl E eq_refl) as (_ & _ & <-). split; [exact EI|].
        rewrite CC, EI, len_app. pose proof (len_nonneg a0). lia. }
    destruct SP as [(a2 & E2 & LE)|(b0 & E0 & ->)].
    + replace (q - p_count p <=? q - len (x :: b)) with true by lia. f_equal.
      assert (XI : s_index x = p_key p + len a2).
      { destruct (consec_nth _ _ _ (length a2) CS ltac:(rewrite E2, app_length; cbn; lia)) as (y & N1 & N2). rewrite E2, nth_error_app2, Nat.sub_diag in N1 by lia. injection N1 as <-. exact N2. }
      replace (p_key p + (q - len (x :: b)) - (q - p_count p)) with (s_index x); [apply u32_small; exact X|]. rewrite XI, CC, E2, len_app. lia.
    + assert (LB : len (x :: b0 ++ v_segs v) = len (x :: b0) + p_count p) by (change (x :: b0 ++ v_segs v) with ((x :: b0) ++ v_segs v); rewrite len_app; lia).
      rewrite len_cons in LB. pose proof (len_nonneg b0). rewrite len_cons in LB. replace (q - p_count p <=? q - len (x :: b0 ++ v_segs v)) with false by (rewrite len_cons; lia).
      destruct (rev ps) as [|p2 r2] eqn:ER.
      { exfalso. apply (f_equal (@length _)) in ER. rewrite rev_length in ER. destruct ps; [|discriminate]. inversion P0; subst. destruct a; discriminate. }
      rewrite <- ER in *. replace (q - len (x :: b0 ++ v_segs v)) with (q - p_count p - len (x :: b0)) by (rewrite !len_cons; lia).
      apply (IH V0 (q - p_count p) a x b0 P0 N0 E0); [lia|lia|exact X].
Qed.

(* --- the tree of periods --- *)
Lemma pers_nth c ps V i p : pers c ps V -> nth_error ps i = Some p -> exists v, nth_error V i = Some v /\ prel c p v.
Proof. intros P. revert i. induction P as [|q v ps V R _ IH]; intros [|i] N; try discriminate. - injection N as <-. exists v. auto. - apply IH. exact N. Qed.

Lemma keys_sorted c ps : forall V i j p q, pers c ps V -> numbered (flat V) -> (i < j)%nat -> nth_error ps i = Some p -> nth_error ps j = Some q -> p_key p + p_count p <= p_key q.
Proof.
  induction ps as [|r ps IH]; intros V i j p q P N L NI NJ; [destruct i; discriminate|]. inversion P as [|? v ? V' R P']; subst. destruct j as [|j]; [lia|]. cbn in NJ.
  change (flat (v :: V')) with (v_segs v ++ flat V') in N. destruct i as [|i].
  - injection NI as <-. destruct (pers_nth _ _ _ _ _ P' NJ) as (w & NW & RW). destruct R as (K & NE & _). destruct RW as (KW & NW2 & _).
    destruct (v_segs w) as [|y ys] eqn:EW; [contradiction|]. destruct (exists_last NE) as (a & x & EX). rewrite EX in *.
    pose proof (pok_next _ _ _ x K ltac:(apply in_or_app; right; left; reflexivity)) as B1. destruct KW as (_ & (KW1 & _) & _). rewrite <- KW1.
    assert (X : s_index x = p_key r + p_count r - 1).
    { destruct K as (_ & CS & _ & CC). destruct (consec_nth _ _ _ (length a) CS ltac:(rewrite app_length; cbn; lia)) as (z & N1 & N2). rewrite nth_error_app2, Nat.sub_diag in N1 by lia. injection N1 as <-. rewrite CC, len_app. change (len [x]) with 1. unfold len. lia. }
    rewrite <- app_assoc in N. cbn [app] in N. assert (In y (flat V')). { apply nth_error_In in NW. unfold flat. apply in_flat_map. exists w. split; [exact NW|]. rewrite EW. left. reflexivity. }
    pose proof (numbered_lt _ _ _ y N ltac:(assumption)). lia.
  - cbn in NI. eapply (IH V' i j); eauto; [|lia]. eapply numbered_app_r. exact N.
Qed.

Lemma walk_periods_ok c ps V index : pers c ps V -> numbered (flat V) -> forall tr lo k, inorder tr = seq lo k -> (lo + k <= length ps)%nat ->
  exists w, walk_periods ps tr index = Some w /\
  match w with
  | Some i => (lo <= i < lo + k)%nat /\ exists p, nth_error ps i = Some p /\ p_key p <= index < p_key p + p_count p
  | None => forall i p, (lo <= i < lo + k)%nat -> nth_error ps i = Some p -> ~ (p_key p <= index < p_key p + p_count p)
  end.
Proof.
  intros P N. induction tr as [|l IHl i r IHr]; intros lo k I L.
  - exists None. split; [reflexivity|]. destruct k; [lia|discriminate].
  - cbn [inorder] in I. symmetry in I. apply seq_split in I as (Bi & Il & Ir). cbn [walk_periods].
    destruct (nth_error ps i) as [p|] eqn:NP; [|apply nth_error_None in NP; lia].
    destruct (index <? p_key p) eqn:C1; [|destruct (index <? p_key p + p_count p) eqn:C2].
    + destruct (IHl lo (i - lo)%nat Il ltac:(lia)) as (w & E & H). exists w. split; [exact E|]. destruct w as [j|]; [destruct H as [H1 H2]; split; [lia|exact H2]|].
      intros j q B NQ. destruct (Nat.lt_trichotomy j i) as [LT|[->|LT]]; [apply (H j q); auto; lia|rewrite NP in NQ; injection NQ as <-; lia|].
      pose proof (keys_sorted c ps V i j p q P N LT NP NQ). destruct (pers_nth _ _ _ _ _ P NP) as (v & _ & ((_ & _ & _ & CC) & _)). pose proof (len_nonneg (v_segs v)). lia.
    + exists (Some i). split; [reflexivity|]. split; [lia|]. exists p. split; [exact NP|lia].
    + destruct (IHr (S i) (lo + k - S i)%nat Ir ltac:(lia)) as (w & E & H). exists w. split; [exact E|]. destruct w as [j|]; [destruct H as [H1 H2]; split; [lia|exact H2]|].
      intros j q B NQ. destruct (Nat.lt_trichotomy j i) as [LT|[->|LT]]; [|rewrite NP in NQ; injection NQ as <-; lia|apply (H j q); auto; lia].
      pose proof (keys_sorted c ps V j i q p P N LT NQ NP). lia.
Qed.
