(* Periods, the manifest and the timeline: what the operations do to the segments they stand for. *)
From Coq Require Import List ZArith Bool Lia ZifyBool ZifyNat.
From Verif Require Import SegListModel SegListSpec SegListProofs SegListProofs2 SegListProofs3 TimelineModel TimelineSpec TimelineProofs.
Import ListNotations.
Local Open Scope Z_scope.

(* --- lists --- *)
Lemma Forall2_length {A B} (R : A -> B -> Prop) a b : Forall2 R a b -> length a = length b.
Proof. induction 1; cbn; auto. Qed.
Lemma Forall2_in_l {A B} (R : A -> B -> Prop) a b x : Forall2 R a b -> In x a -> exists y, In y b /\ R x y.
Proof. induction 1 as [|u v a b H _ IH]; intros I; [destruct I|]. destruct I as [->|I]; [exists v; cbn; auto|]. destruct (IH I) as (y & A1 & A2). exists y. cbn. auto. Qed.
Lemma Forall2_split {A B} (R : A -> B -> Prop) a b c d : Forall2 R (a ++ b) (c ++ d) -> length a = length c -> Forall2 R a c /\ Forall2 R b d.
Proof.
  revert c. induction a as [|x a IH]; intros [|y c] H L; cbn in L; try lia; [split; [constructor|exact H]|].
  cbn in H. inversion H; subst. destruct (IH c) as [H1 H2]; [assumption|lia|]. split; [constructor; assumption|exact H2].
Qed.
Lemma len_app {A} (a b : list A) : len (a ++ b) = len a + len b.
Proof. unfold len. rewrite app_length. lia. Qed.
Lemma len_cons {A} (x : A) a : len (x :: a) = 1 + len a.
Proof. unfold len. cbn [length]. lia. Qed.
Lemma len_nil {A} : len (@nil A) = 0. Proof. reflexivity. Qed.
Lemma len_nonneg {A} (a : list A) : 0 <= len a. Proof. unfold len. lia. Qed.
Lemma len_pos {A} (a : list A) : a <> [] -> 0 < len a.
Proof. destruct a; [contradiction|intros _; rewrite len_cons; pose proof (len_nonneg a0); lia]. Qed.
Lemma len_zero {A} (a : list A) : len a <= 0 -> a = [].
Proof. destruct a; [auto|rewrite len_cons; pose proof (len_nonneg a0); lia]. Qed.
Lemma sum_app a b : sum_dur (a ++ b) = sum_dur a + sum_dur b.
Proof. induction a as [|s a IH]; cbn; lia. Qed.
Lemma flat_app a b : flat (a ++ b) = flat a ++ flat b.
Proof. apply flat_map_app. Qed.
Lemma flat_cons v r : flat (v :: r) = v_segs v ++ flat r. Proof. reflexivity. Qed.

Lemma consec_app i t a b : consecutive i t (a ++ b) <-> consecutive i t a /\ consecutive (i + len a) (t + sum_dur a) b.
Proof.
  revert i t. induction a as [|s a IH]; intros i t; cbn [app consecutive sum_dur].
  - rewrite len_nil, !Z.add_0_r. tauto.
  - rewrite IH, len_cons. replace (i + 1 + len a) with (i + (1 + len a)) by lia. replace (t + s_dur s + sum_dur a) with (t + (s_dur s + sum_dur a)) by lia. tauto.
Qed.

Lemma numbered_app_l a b : numbered (a ++ b) -> numbered a.
Proof.
  induction a as [|x a IH]; [intros _; exact Logic.I|]. destruct a as [|y a]; [intros _; exact Logic.I|]. cbn [app numbered].
  intros [H1 H2]. split; [exact H1|]. apply IH. exact H2.
Qed.
Lemma numbered_tl x a : numbered (x :: a) -> numbered a.
Proof. destruct a as [|y a]; [intros _; exact Logic.I|intros [_ H]; exact H]. Qed.
Lemma numbered_app_r a b : numbered (a ++ b) -> numbered b.
Proof. induction a as [|x a IH]; [auto|]. intros H. apply IH. eapply numbered_tl. exact H. Qed.
Lemma numbered_snoc a s : numbered a -> (forall x, In x a -> s_index x < s_index s) -> numbered (a ++ [s]).
Proof.
  induction a as [|x a IH]; intros N L; [exact Logic.I|]. destruct a as [|y a].
  - cbn. split; [apply L; left; reflexivity|exact Logic.I].
  - cbn [app numbered] in *. destruct N as [N1 N2]. split; [exact N1|]. apply IH; [exact N2|]. intros z Hz. apply L. right. exact Hz.
Qed.
Lemma numbered_nodup a b x y : numbered (a ++ x :: b) -> In y (a ++ x :: b) -> s_index y = s_index x -> y = x.
Proof.
  intros N I E. apply in_app_or in I as [I|[->|I]]; [|reflexivity|].
  - apply in_split in I as (u & w & ->). rewrite <- app_assoc in N. cbn [app] in N.
    pose proof (numbered_lt u y (w ++ x :: b) x N ltac:(apply in_or_app; right; left; reflexivity)). lia.
  - pose proof (numbered_lt a x b y N I). lia.
Qed.

(* --- periods --- *)
Definition pok (c : chlist) (p : period) (ss : list seg) : Prop :=
  (exists post, iat c (p_iter p) (ss ++ post)) /\ consecutive (p_key p) (p_time p) ss /\ p_dur p = sum_dur ss /\ p_count p = len ss.

Lemma iat_in c it post s : iat c it post -> In s post -> In s (segs (cl_list c)).
Proof. intros (_ & pre & _ & E & _) I. rewrite E. apply in_or_app. right. exact I. Qed.
Lemma pok_in c p ss s : pok c p ss -> In s ss -> In s (segs (cl_list c)).
Proof. intros ((post & A) & _) I. eapply iat_in; [exact A|]. apply in_or_app. left. exact I. Qed.

Lemma pop_ok c p s ss : wf (cl_list c) -> pok c p (s :: ss) ->
  exists p', period_pop c p = Some (s_dur s, p') /\ pok c p' ss /\ p_id p' = p_id p /\ p_corr p' = p_corr p /\ p_count p' = len ss /\
    p_key p' = p_key p + 1 /\ p_time p' = p_time p + s_dur s.
Proof.
  intros W ((post & A) & K & D & C). rewrite len_cons in C. pose proof (len_nonneg ss). unfold period_pop. replace (p_count p <=? 0) with false by lia.
  cbn [app] in A. destruct (iat_get_one _ _ _ _ W A) as (it & G & A'). rewrite G. eexists. split; [reflexivity|]. cbn [p_id p_corr p_count p_key p_time].
  destruct K as (K1 & K2 & K3). cbn [sum_dur] in D.
  split; [|repeat split; lia]. split; [exists post; exact A'|]. cbn [p_key p_time p_dur p_count]. split; [exact K3|]. split; lia.
Qed.

Lemma pok_read c p ss : wf (cl_list c) -> pok c p ss -> read_from c (p_iter p) (Z.to_nat (p_count p)) (p_key p) (p_time p) = Some ss.
Proof.
  intros W ((post & A) & K & _ & C). rewrite C. unfold len. rewrite Nat2Z.id. clear C. revert K A. generalize (p_iter p) (p_key p) (p_time p).
  induction ss as [|s ss IH]; intros it i t K A; [reflexivity|]. cbn [length read_from]. cbn [app] in A.
  destruct (iat_get_one _ _ _ _ W A) as (it' & G & A'). rewrite G. destruct K as (K1 & K2 & K3). rewrite (IH _ _ _ K3 A').
  destruct s as [si st sd]. cbn in *. subst. reflexivity.
Qed.

Lemma pok_next c p ss s : pok c p ss -> In s ss -> p_key p <= s_index s < p_key p + p_count p.
Proof.
  intros (_ & K & _ & C) I. rewrite C. clear C. revert K. generalize (p_key p) (p_time p). induction ss as [|x ss IH]; intros i t K; [destruct I|].
  destruct K as (K1 & K2 & K3). rewrite len_cons. pose proof (len_nonneg ss). destruct I as [->|I]; [lia|]. specialize (IH I _ _ K3). lia.
Qed.
Lemma consec_nth i t ss k : consecutive i t ss -> (k < length ss)%nat -> exists s, nth_error ss k = Some s /\ s_index s = i + Z.of_nat k.
Proof.
  revert i t k. induction ss as [|x ss IH]; intros i t k K L; [cbn in L; lia|]. destruct K as (K1 & K2 & K3). destruct k as [|k].
  - exists x. split; [reflexivity|lia].
  - cbn in L. destruct (IH _ _ k K3 ltac:(lia)) as (s & A & B). exists s. split; [exact A|lia].
Qed.

(* --- the periods of a timeline --- *)
Definition head_id (ps : list period) : option nat := match ps with [] => None | p :: _ => Some (p_id p) end.
Definition prel (c : chlist) (p : period) (v : pview) : Prop := pok c p (v_segs v) /\ v_segs v <> [] /\ p_corr p = v_corr v.
(* the periods but the first started at their first segment *)
Definition started (p : period) (v : pview) : Prop := v_start v = p_time p.
Definition pers (c : chlist) (ps : list period) (V : list pview) : Prop := Forall2 (prel c) ps V.
Definition starts (init : Z) (ps : list period) (V : list pview) : Prop :=
  match ps, V with
  | [], [] => True
  | _ :: ps, v :: V => v_start v = init /\ Forall2 started ps V
  | _, _ => False
  end.

Record tok (c : chlist) (t : timeline) (V : list pview) : Prop := mk_tok {
  tk_per : pers c (t_periods t) V;
  tk_start : starts (t_init_time t) (t_periods t) V;
  tk_num : numbered (flat V);
  tk_ids : NoDup (map p_id (t_periods t));
  tk_count : t_count t = len (flat V);
  tk_dur : t_dur t = sum_dur (flat V);
  tk_pcount : t_pcount t = len V }.

(* the manifest is the end of the timeline *)
Definition mok (c : chlist) (ps : list period) (V : list pview) (m : manifest) (MV : list pview) : Prop :=
  m_count m = len (flat MV) /\ m_dur m = sum_dur (flat MV) /\ m_pcount m = len MV /\
  match MV with
  | [] => True
  | mv :: V2 => exists P1 p P2 V1 v pre, ps = P1 ++ p :: P2 /\ V = V1 ++ v :: V2 /\ length P1 = length V1 /\ v_segs v = pre ++ v_segs mv /\ v_segs mv <> [] /\
      pok c (m_first m) (v_segs mv) /\ m_next m = head_id P2 /\ v_start mv = m_init_time m
  end.

Definition nonempty (V : list pview) : Prop := Forall (fun v => v_segs v <> []) V.
Lemma pers_nonempty c ps V : pers c ps V -> nonempty V.
Proof. induction 1 as [|p v ps V H _ IH]; constructor; auto. apply H. Qed.
Lemma nonempty_pop V : nonempty V -> nonempty (pop1 V).
Proof.
  destruct V as [|v V]; [auto|]. intros H. inversion H as [|? ? H1 H2]; subst. unfold pop1. destruct (v_segs v) as [|s [|s' ss]] eqn:E; auto.
  constructor; [cbn; discriminate|exact H2].
Qed.
Lemma flat_pop V : nonempty V -> flat (pop1 V) = tl (flat V).
Proof.
  destruct V as [|v V]; [reflexivity|]. intros H. inversion H as [|? ? H1 H2]; subst. rewrite flat_cons. unfold pop1.
  destruct (v_segs v) as [|s [|s' ss]] eqn:E; [contradiction|reflexivity|reflexivity].
Qed.
Lemma tl_skipn {A} k (l : list A) : skipn k (tl l) = skipn (S k) l.
Proof. destruct l; [rewrite skipn_nil; reflexivity|reflexivity]. Qed.
Lemma flat_popn k V : nonempty V -> flat (popn k V) = skipn k (flat V).
Proof.
  revert V. induction k as [|k IH]; intros V H; [reflexivity|]. cbn [popn]. rewrite IH by (apply nonempty_pop; exact H). rewrite flat_pop by exact H. apply tl_skipn.
Qed.
Lemma nonempty_popn k V : nonempty V -> nonempty (popn k V).
Proof. revert V. induction k as [|k IH]; intros V H; [exact H|]. cbn. apply IH. apply nonempty_pop. exact H. Qed.
Lemma flat_nil V : nonempty V -> flat V = [] -> V = [].
Proof. destruct V as [|v V]; [auto|]. intros H E. inversion H as [|? ? H1 _]; subst. rewrite flat_cons in E. apply app_eq_nil in E as [E _]. contradiction. Qed.

Lemma deref_mid P1 p P2 : NoDup (map p_id (P1 ++ p :: P2)) -> deref (P1 ++ p :: P2) (p_id p) = Some (p, head_id P2).
Proof.
  induction P1 as [|q P1 IH]; intros N.
  - cbn. rewrite Nat.eqb_refl. destruct P2; reflexivity.
  - cbn [app map] in N. inversion N as [|? ? N1 N2]; subst. cbn [app deref]. destruct (Nat.eqb (p_id q) (p_id p)) eqn:E; [|apply IH; exact N2].
    apply Nat.eqb_eq in E. exfalso. apply N1. rewrite E, map_app. apply in_or_app. right. left. reflexivity.
Qed.

Lemma mok_nonempty c ps V m MV : pers c ps V -> mok c ps V m MV -> nonempty MV.
Proof.
  intros P (_ & _ & _ & M). destruct MV as [|mv V2]; [constructor|]. destruct M as (P1 & p & P2 & V1 & v & pre & -> & -> & L & E & NE & _).
  constructor; [exact NE|]. apply pers_nonempty in P. apply Forall_app in P as [_ P]. inversion P; auto.
Qed.

(* the manifest is a suffix of the timeline *)
Lemma mok_suffix c ps V m MV : mok c ps V m MV -> exists pre, flat V = pre ++ flat MV.
Proof.
  intros (_ & _ & _ & M). destruct MV as [|mv V2]; [exists (flat V); rewrite app_nil_r; reflexivity|].
  destruct M as (P1 & p & P2 & V1 & v & pre & _ & -> & _ & E & _). exists (flat V1 ++ pre). rewrite flat_app, !flat_cons, E, <- !app_assoc. reflexivity.
Qed.

Definition same_static (m m' : manifest) : Prop :=
  m_conf m' = m_conf m /\ m_avail m' = m_avail m /\ m_target m' = m_target m /\ m_target_segs m' = m_target_segs m /\ m_seq m' = m_seq m /\ m_durs m' = m_durs m.
Lemma ss_refl m : same_static m m. Proof. repeat split. Qed.
Lemma ss_trans a b c : same_static a b -> same_static b c -> same_static a c.
Proof. unfold same_static. intuition congruence. Qed.

Lemma pop1_len V : len (pop1 V) = len V \/ len (pop1 V) = len V - 1.
Proof. destruct V as [|v V]; [left; reflexivity|]. unfold pop1. destruct (v_segs v) as [|s [|s' ss]]; rewrite ?len_cons; lia. Qed.

Lemma m_remove_ok c ps V now m MV : wf (cl_list c) -> pers c ps V -> Forall2 started (tl ps) (tl V) -> NoDup (map p_id ps) -> mok c ps V m MV -> MV <> [] ->
  exists m', m_remove_segment c ps now m = Some m' /\ mok c ps V m' (pop1 MV) /\ same_static m m' /\ m_pindex m' + len (pop1 MV) = m_pindex m + len MV.
Proof.
  intros W P ST N (M1 & M2 & M3 & M) NE. destruct MV as [|mv V2]; [contradiction|]. clear NE.
  destruct M as (P1 & p & P2 & V1 & v & pre & EP & EV & L & E & NE & K & NX & S).
  destruct (v_segs mv) as [|s ss] eqn:EM; [contradiction|]. unfold m_remove_segment.
  destruct (pop_ok _ _ _ _ W K) as (fp & G & K' & I1 & I2 & I3 & I4 & I5). rewrite G, I3. rewrite flat_cons, EM in M1, M2. cbn [app] in M1, M2. rewrite len_cons in M1. cbn [sum_dur] in M2.
  destruct ss as [|s' ss].
  - change (0 <? len (@nil seg)) with false. cbn iota. cbn [app] in *. rewrite NX. destruct P2 as [|p2 P3]; cbn [head_id].
    + assert (V2 = []) as ->.
      { subst ps V. apply Forall2_split in P as [_ P]; [|exact L]. inversion P as [|? ? ? ? _ P2]; subst. inversion P2. reflexivity. }
      unfold pop1. rewrite EM. eexists. split; [reflexivity|]. split.
      * change (flat []) with (@nil seg) in *. change (len (@nil seg)) with 0 in *. change (sum_dur []) with 0 in *. change (len [mv]) with 1 in M3.
        split; [|split; [|split; [|exact Logic.I]]]; cbn [m_count m_dur m_pcount]; change (len (@nil pview)) with 0; cbn [flat flat_map]; change (len (@nil seg)) with 0; cbn [sum_dur]; lia.
      * split; [repeat split|]. cbn. lia.
    + subst ps. replace (P1 ++ p :: p2 :: P3) with ((P1 ++ [p]) ++ p2 :: P3) in * by (rewrite <- app_assoc; reflexivity). rewrite (deref_mid _ _ _ N).
      pose proof P as P'. replace V with ((V1 ++ [v]) ++ V2) in P' by (rewrite EV, <- app_assoc; reflexivity).
      apply Forall2_split in P' as [_ P']; [|rewrite !app_length; cbn; lia]. inversion P' as [|? w ? W2 PB1 PB2]; subst.
      destruct PB1 as (B1 & B2 & B3).
      unfold pop1. rewrite EM. eexists. split; [reflexivity|]. split; [|split; [repeat split|cbn [m_pindex]; rewrite !len_cons; lia]].
      split; [cbn [m_count]; lia|]. split; [cbn [m_dur]; lia|]. split; [cbn [m_pcount]; rewrite !len_cons in *; lia|].
      exists (P1 ++ [p]), p2, P3, (V1 ++ [v]), w, []. cbn [m_first m_next m_init_time]. split; [reflexivity|]. split; [rewrite <- app_assoc; reflexivity|].
      split; [rewrite !app_length; cbn; lia|]. split; [reflexivity|]. split; [exact B2|]. split; [exact B1|]. split; [reflexivity|].
      (* w is not the first period *)
      clear - ST L. destruct P1 as [|q P1]; destruct V1 as [|u V1]; cbn in L; try lia.
      * cbn in ST. inversion ST; subst. assumption.
      * cbn [app tl] in ST. rewrite <- !app_assoc in ST. cbn [app] in ST. injection L as L. revert V1 L ST. induction P1 as [|q' P1 IH]; intros [|u' V1] L ST; cbn in L; try lia.
        -- cbn in ST. inversion ST as [|? ? ? ? _ ST2]; subst. inversion ST2; subst. assumption.
        -- cbn in ST. inversion ST; subst. apply (IH V1); [lia|assumption].
  - rewrite !len_cons. pose proof (len_nonneg ss). replace (0 <? 1 + len ss) with true by lia. eexists. split; [reflexivity|].
    unfold pop1. rewrite EM. split; [|split; [repeat split|cbn [m_pindex]; rewrite !len_cons; lia]].
    split; [cbn [m_count]; rewrite flat_cons; cbn [v_segs]; lia|]. split; [cbn [m_dur]; rewrite flat_cons; cbn [v_segs]; lia|].
    split; [cbn [m_pcount]; rewrite !len_cons in *; lia|].
    exists P1, p, P2, V1, v, (pre ++ [s]). cbn [v_segs v_start m_first m_next m_init_time]. split; [exact EP|]. split; [exact EV|]. split; [exact L|]. split; [rewrite E, <- app_assoc; reflexivity|].
    split; [discriminate|]. split; [exact K'|]. split; [exact NX|exact S].
Qed.
