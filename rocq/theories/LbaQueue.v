(* The queue of active bins: a ring in debug builds. *)
From Coq Require Import List Arith Lia Bool Sorted.
From Coq Require Import ZifyBool ZifyNat.
From Verif Require Import Lists LbaModel LbaSpec LbaProofs.
Import ListNotations.

Definition link (nx pv : nat -> option nat) (a b : nat) : Prop := nx a = Some b /\ pv b = Some a.

Fixpoint path (nx pv : nat -> option nat) (a : nat) (l : list nat) (b : nat) : Prop :=
  match l with
  | [] => link nx pv a b
  | x :: r => link nx pv a x /\ path nx pv x r b
  end.

Lemma path_app nx pv a l1 x l2 b :
  path nx pv a (l1 ++ x :: l2) b <-> path nx pv a l1 x /\ path nx pv x l2 b.
Proof.
  revert a; induction l1 as [|y l1 IH]; intros a; cbn [app path]; [tauto|]. rewrite IH. tauto.
Qed.

Lemma path_ext nx pv nx' pv' a l b :
  (forall y, In y (a :: l) -> nx' y = nx y) -> (forall y, In y (l ++ [b]) -> pv' y = pv y) ->
  path nx pv a l b -> path nx' pv' a l b.
Proof.
  revert a; induction l as [|x l IH]; intros a H1 H2 H; cbn [path] in *.
  - destruct H as [A B]. split; [rewrite H1 by (left; reflexivity); exact A|].
    rewrite H2 by (left; reflexivity). exact B.
  - destruct H as [[A B] H]. split.
    + split; [rewrite H1 by (left; reflexivity); exact A|]. rewrite H2 by (left; reflexivity). exact B.
    + apply IH; auto. intros y Hy. apply H1. right. exact Hy. intros y Hy. apply H2. right. exact Hy.
Qed.

Lemma path_next nx pv a l b : path nx pv a l b -> nx a = Some (hd b l).
Proof. destruct l; cbn; unfold link; tauto. Qed.

Lemma path_prev nx pv a l b : path nx pv a l b -> pv b = Some (last l a).
Proof.
  revert a; induction l as [|x l IH]; intros a H; cbn [path] in H; [destruct H; assumption|].
  destruct H as [_ H]. rewrite (IH x H). destruct l as [|y r]; [reflexivity|]. f_equal.
  cbn [last]. clear. revert y. induction r as [|z r IH]; intros y; [reflexivity|]. apply IH.
Qed.

(* insertion after h *)
Lemma path_insert_after nx pv h l2 s x n :
  path nx pv h l2 s -> n = hd s l2 -> NoDup l2 -> ~ In h l2 -> ~ In s l2 -> ~ In x l2 -> x <> h -> x <> s ->
  path (upd (upd nx x (Some n)) h (Some x)) (upd (upd pv n (Some x)) x (Some h)) h (x :: l2) s.
Proof.
  intros H En Hnd Hh Hs Hx Hxh Hxs. cbn [path]. split.
  - split; [apply upd_eq|]. rewrite upd_eq. reflexivity.
  - destruct l2 as [|y r]; cbn [hd] in En; subst n; cbn [path] in *.
    + split; [rewrite upd_neq by auto; apply upd_eq|]. rewrite upd_neq by auto. apply upd_eq.
    + destruct H as [_ H]. split.
      * split; [rewrite upd_neq by auto; apply upd_eq|].
        rewrite upd_neq by (intros ->; apply Hx; left; reflexivity). apply upd_eq.
      * apply NoDup_cons_iff in Hnd. destruct Hnd as [Hy Hnd].
        eapply path_ext; [| |exact H].
        -- intros z Hz. rewrite !upd_neq; auto; intros ->; tauto.
        -- intros z Hz. apply in_app_or in Hz.
           rewrite !upd_neq; auto.
           ++ intros ->. destruct Hz as [Hz|[->|[]]]; [tauto|]. apply Hs. left. reflexivity.
           ++ intros ->. destruct Hz as [Hz|[->|[]]]; [|congruence]. apply Hx. right. exact Hz.
Qed.

Lemma path_insert_before nx pv s l1 h x p :
  path nx pv s l1 h -> p = last l1 s -> NoDup l1 -> ~ In h l1 -> ~ In s l1 -> ~ In x l1 -> x <> h -> x <> s ->
  path (upd (upd nx p (Some x)) x (Some h)) (upd (upd pv x (Some p)) h (Some x)) s (l1 ++ [x]) h.
Proof.
  intros H Ep Hnd Hh Hs Hx Hxh Hxs. apply path_app. split.
  - destruct l1 as [|y l1'] using rev_ind.
    + cbn in *. subst p. split; [rewrite upd_neq by auto; apply upd_eq|].
      rewrite upd_neq by auto. apply upd_eq.
    + clear IHl1'. rewrite last_last in Ep. subst p. apply path_app in H. destruct H as [H1 H2].
      apply NoDup_app_iff in Hnd. destruct Hnd as (N1 & N2 & N3).
      rewrite in_app_iff in Hh, Hs, Hx. cbn [In] in Hh, Hs, Hx.
      apply path_app. split.
      * eapply path_ext; [| |exact H1].
        -- intros z Hz. rewrite !upd_neq; auto.
           ++ intros ->. destruct Hz as [->|Hz]; [tauto|]. exact (N3 z Hz (or_introl eq_refl)).
           ++ intros ->. destruct Hz as [->|Hz]; tauto.
        -- intros z Hz. apply in_app_or in Hz. rewrite !upd_neq; auto.
           ++ intros ->. destruct Hz as [Hz|[->|[]]]; tauto.
           ++ intros ->. destruct Hz as [Hz|[->|[]]]; tauto.
      * cbn [path]. split; [rewrite upd_neq by (intros ->; tauto); apply upd_eq|].
        rewrite upd_neq by auto. apply upd_eq.
  - cbn [path]. split; [apply upd_eq|apply upd_eq].
Qed.

(* removal *)
Lemma path_remove nx pv s l1 x l2 n p :
  path nx pv s l1 x -> path nx pv x l2 s -> NoDup (s :: l1 ++ x :: l2) ->
  n = hd s l2 -> p = last l1 s ->
  path (upd nx p (Some n)) (upd pv n (Some p)) s (l1 ++ l2) s.
Proof.
  intros H1 H2 Hnd En Ep.
  apply NoDup_cons_iff in Hnd. destruct Hnd as [Hs Hnd]. rewrite in_app_iff in Hs. cbn [In] in Hs.
  apply NoDup_app_iff in Hnd. destruct Hnd as (N1 & N2 & N3).
  apply NoDup_cons_iff in N2. destruct N2 as [Hx N2].
  assert (A : path (upd nx p (Some n)) (upd pv n (Some p)) s l1 n).
  { assert (Hn : ~ In n l1).
    { subst n. destruct l2 as [|y r]; cbn [hd]; [tauto|]. intros Hy. apply (N3 y Hy). right. left. reflexivity. }
    destruct l1 as [|y l1'] using rev_ind.
    - cbn in *. subst p. split; apply upd_eq.
    - clear IHl1'. rewrite last_last in Ep. subst p. apply path_app in H1. destruct H1 as [H1 _].
      rewrite in_app_iff in Hs, Hn. cbn [In] in Hs, Hn.
      apply NoDup_app_iff in N1. destruct N1 as (M1 & M2 & M3).
      apply path_app. split.
      + eapply path_ext; [| |exact H1].
        * intros z Hz. rewrite upd_neq; auto. intros ->. destruct Hz as [->|Hz]; [tauto|].
          exact (M3 z Hz (or_introl eq_refl)).
        * intros z Hz. rewrite upd_neq; auto. intros ->. apply in_app_or in Hz. cbn [In] in Hz. tauto.
      + split; apply upd_eq. }
  destruct l2 as [|y r]; cbn [hd] in En; subst n.
  - rewrite app_nil_r. exact A.
  - apply path_app. split; [exact A|]. cbn [path] in H2. destruct H2 as [_ H2].
    apply NoDup_cons_iff in N2. destruct N2 as [Hy N2].
    eapply path_ext; [| |exact H2].
    + intros z Hz. rewrite upd_neq; auto. intros ->. subst z.
      destruct l1 as [|w l1'] using rev_ind; [cbn in Hz; cbn in Hs; intuition|].
      clear IHl1'. rewrite last_last in Hz. apply (N3 w); [apply in_or_app; right; left; reflexivity|].
      right. exact Hz.
    + intros z Hz. rewrite upd_neq; auto. intros ->. apply in_app_or in Hz. cbn [In] in Hz, Hs.
      destruct Hz as [Hz|[Hz|[]]]; [tauto|]. apply Hs. right. right. left. auto.
Qed.

Lemma ss_nodup l : StronglySorted lt l -> NoDup l.
Proof.
  induction 1 as [|a l H IH Hf]; constructor; auto.
  intros Hin. rewrite Forall_forall in Hf. specialize (Hf a Hin). lia.
Qed.

Lemma ss_app l1 l2 : StronglySorted lt (l1 ++ l2) <->
  StronglySorted lt l1 /\ StronglySorted lt l2 /\ (forall x y, In x l1 -> In y l2 -> x < y).
Proof.
  induction l1 as [|a l1 IH]; cbn [app].
  - split; [intros H; split; [constructor|split; [exact H|intros x y []]]|tauto].
  - split.
    + intros H. inversion H as [|? ? H1 H2]; subst. apply IH in H1. destruct H1 as (A & B & C).
      rewrite Forall_forall in H2. split; [|split; [exact B|]].
      * constructor; [exact A|]. rewrite Forall_forall. intros x Hx. apply H2. apply in_or_app. auto.
      * intros x y [<-|Hx] Hy; [apply H2; apply in_or_app; auto|apply C; auto].
    + intros (A & B & C). inversion A as [|? ? A1 A2]; subst. constructor.
      * apply IH. split; [exact A1|]. split; [exact B|]. intros x y Hx Hy. apply C; [right; exact Hx|exact Hy].
      * rewrite Forall_forall in *. intros x Hx. apply in_app_or in Hx. destruct Hx as [Hx|Hx]; [apply A2; exact Hx|].
        apply C; [left; reflexivity|exact Hx].
Qed.

Lemma ss_cons a l : StronglySorted lt (a :: l) <-> StronglySorted lt l /\ (forall y, In y l -> a < y).
Proof.
  split.
  - intros H. inversion H as [|? ? H1 H2]; subst. rewrite Forall_forall in H2. auto.
  - intros [A B]. constructor; [exact A|]. rewrite Forall_forall. exact B.
Qed.

(* pointers only: a ring with sentinel s, elements act, and NULL outside *)
Definition ring (l : lba) (act : list nat) : Prop :=
  path (l_next l) (l_prev l) (l_bin_count l) act (l_bin_count l) /\
  NoDup (l_bin_count l :: act) /\
  forall j, j <> l_bin_count l -> ~ In j act -> l_next l j = None.

Lemma ring_next l act j : ring l act -> (l_next l j = None <-> j <> l_bin_count l /\ ~ In j act).
Proof.
  intros (H1 & H2 & H3). split.
  - intros E. split.
    + intros ->. rewrite (path_next _ _ _ _ _ H1) in E. discriminate.
    + intros Hin. apply in_split in Hin. destruct Hin as (a & b & ->). apply path_app in H1.
      destruct H1 as [_ H1]. rewrite (path_next _ _ _ _ _ H1) in E. discriminate.
  - intros [A B]. apply H3; assumption.
Qed.

Lemma ring_insert_head_s l act x : ring l act -> x <> l_bin_count l -> ~ In x act ->
  exists l', insert_head l (l_bin_count l) x = Some l' /\ ring l' (x :: act) /\ same_blocks l l'.
Proof.
  intros (H1 & H2 & H3) Hx Hxa. unfold insert_head. rewrite (path_next _ _ _ _ _ H1).
  eexists. split; [reflexivity|]. split; [|repeat split].
  apply NoDup_cons_iff in H2. destruct H2 as [Hs Hnd].
  unfold ring. cbn [with_queue l_next l_prev l_bin_count]. split; [|split].
  - apply path_insert_after; auto.
  - constructor; [intros [E|Hin]; [congruence|exact (Hs Hin)]|]. constructor; auto.
  - intros j Hj Hjn. cbn [In] in Hjn. rewrite !upd_neq by (let E := fresh in intros E; first [subst; tauto|rewrite E in *; tauto|rewrite <- E in *; tauto]). apply H3; tauto.
Qed.

Lemma ring_insert_after l l1 h l2 x : ring l (l1 ++ h :: l2) -> x <> l_bin_count l -> ~ In x (l1 ++ h :: l2) ->
  exists l', insert_head l h x = Some l' /\ ring l' (l1 ++ h :: x :: l2) /\ same_blocks l l'.
Proof.
  intros (H1 & H2 & H3) Hx Hxa. unfold insert_head.
  apply path_app in H1. destruct H1 as [Ha Hb]. rewrite (path_next _ _ _ _ _ Hb).
  eexists. split; [reflexivity|]. split; [|repeat split].
  pose proof H2 as Hnd0. apply NoDup_cons_iff in H2. destruct H2 as [Hs Hnd].
  rewrite in_app_iff in Hs, Hxa. cbn [In] in Hs, Hxa.
  apply NoDup_app_iff in Hnd. destruct Hnd as (N1 & N2 & N3). apply NoDup_cons_iff in N2. destruct N2 as [Nh N2].
  unfold ring. cbn [with_queue l_next l_prev l_bin_count]. split; [|split].
  - apply path_app. split.
    + eapply path_ext; [| |exact Ha].
      * intros z Hz. rewrite !upd_neq; auto.
        -- intros ->. destruct Hz as [Hz|Hz]; [rewrite Hz in *; tauto || (rewrite <- Hz in *; tauto) || intuition congruence|tauto].
        -- intros ->. destruct Hz as [<-|Hz]; [tauto|]. apply (N3 z Hz). left. reflexivity.
      * intros z Hz. apply in_app_or in Hz. rewrite !upd_neq; auto.
        -- intros <-. destruct l2 as [|y r]; cbn [hd] in Hz.
           ++ destruct Hz as [Hz|[E|[]]]; [tauto|]. apply Hs. right. left. exact E.
           ++ destruct Hz as [Hz|[E|[]]].
              ** apply (N3 y Hz). right. left. reflexivity.
              ** apply Nh. left. congruence.
        -- intros ->. destruct Hz as [Hz|[->|[]]]; tauto.
    + apply path_insert_after; auto; intuition congruence.
  - constructor.
    + rewrite in_app_iff. cbn [In]. intuition congruence.
    + apply NoDup_app_iff. split; [exact N1|]. split.
      * constructor; [cbn [In]; intuition congruence|]. constructor; [intuition|exact N2].
      * intros z Hz [->|[->|Hz2]]; [apply (N3 z Hz); left; reflexivity|tauto|apply (N3 z Hz); right; exact Hz2].
  - intros j Hj Hjn. rewrite in_app_iff in Hjn. cbn [In] in Hjn.
    rewrite !upd_neq by (let E := fresh in intros E; first [subst; tauto|rewrite E in *; tauto|rewrite <- E in *; tauto]). apply H3; [exact Hj|]. rewrite in_app_iff. cbn [In]. tauto.
Qed.

Lemma ring_insert_before l l1 h l2 x : ring l (l1 ++ h :: l2) -> x <> l_bin_count l -> ~ In x (l1 ++ h :: l2) ->
  exists l', insert_tail l h x = Some l' /\ ring l' (l1 ++ x :: h :: l2) /\ same_blocks l l'.
Proof.
  intros (H1 & H2 & H3) Hx Hxa. unfold insert_tail.
  apply path_app in H1. destruct H1 as [Ha Hb]. rewrite (path_prev _ _ _ _ _ Ha).
  eexists. split; [reflexivity|]. split; [|repeat split].
  apply NoDup_cons_iff in H2. destruct H2 as [Hs Hnd].
  rewrite in_app_iff in Hs, Hxa. cbn [In] in Hs, Hxa.
  apply NoDup_app_iff in Hnd. destruct Hnd as (N1 & N2 & N3). apply NoDup_cons_iff in N2. destruct N2 as [Nh N2].
  set (p := last l1 (l_bin_count l)).
  assert (Hp : In p (l_bin_count l :: l1)).
  { unfold p. destruct l1 as [|w l1'] using rev_ind; [left; reflexivity|]. rewrite last_last. right.
    apply in_or_app. right. left. reflexivity. }
  unfold ring. cbn [with_queue l_next l_prev l_bin_count]. split; [|split].
  - replace (l1 ++ x :: h :: l2) with ((l1 ++ [x]) ++ h :: l2) by (rewrite <- app_assoc; reflexivity).
    apply path_app. split.
    + apply path_insert_before; auto. intros Hin. apply (N3 h Hin). left. reflexivity.
    + eapply path_ext; [| |exact Hb].
      * intros z Hz. rewrite !upd_neq; auto.
        -- intros <-. destruct Hp as [Hp|Hp].
           ++ rewrite <- Hp in Hz. destruct Hz as [E|Hz]; [apply Hs; right; left; exact E|tauto].
           ++ apply (N3 p Hp). exact Hz.
        -- intros <-. cbn [In] in Hz. tauto.
      * intros z Hz. apply in_app_or in Hz. rewrite !upd_neq; auto.
        -- intros <-. destruct Hz as [Hz|[E|[]]]; [tauto|]. congruence.
        -- intros <-. destruct Hz as [Hz|[E|[]]]; [tauto|]. apply Hs. right. left. congruence.
  - constructor.
    + rewrite in_app_iff. cbn [In]. intuition congruence.
    + apply NoDup_app_iff. split; [exact N1|]. split.
      * constructor; [cbn [In]; intuition congruence|]. constructor; auto.
      * intros z Hz [->|[->|Hz2]]; [tauto|apply (N3 z Hz); left; reflexivity|apply (N3 z Hz); right; exact Hz2].
  - intros j Hj Hjn. rewrite in_app_iff in Hjn. cbn [In] in Hjn.
    rewrite !upd_neq.
    + apply H3; [exact Hj|]. rewrite in_app_iff. cbn [In]. tauto.
    + intros <-. destruct Hp as [Hp|Hp]; [congruence|tauto].
    + intros ->. tauto.
Qed.

Lemma ring_insert_tail_s l act x : ring l act -> x <> l_bin_count l -> ~ In x act ->
  exists l', insert_tail l (l_bin_count l) x = Some l' /\ ring l' (act ++ [x]) /\ same_blocks l l'.
Proof.
  intros (H1 & H2 & H3) Hx Hxa. unfold insert_tail. rewrite (path_prev _ _ _ _ _ H1).
  eexists. split; [reflexivity|]. split; [|repeat split].
  apply NoDup_cons_iff in H2. destruct H2 as [Hs Hnd].
  set (p := last act (l_bin_count l)).
  assert (Hp : In p (l_bin_count l :: act)).
  { unfold p. destruct act as [|w l1'] using rev_ind; [left; reflexivity|]. rewrite last_last. right.
    apply in_or_app. right. left. reflexivity. }
  unfold ring. cbn [with_queue l_next l_prev l_bin_count]. split; [|split].
  - apply path_insert_before; auto.
  - constructor.
    + rewrite in_app_iff. cbn [In]. intuition congruence.
    + apply NoDup_snoc; assumption.
  - intros j Hj Hjn. rewrite in_app_iff in Hjn. cbn [In] in Hjn.
    rewrite !upd_neq.
    + apply H3; tauto.
    + intros <-. destruct Hp as [Hp|Hp]; [congruence|tauto].
    + intros ->. tauto.
Qed.

Lemma ring_remove l l1 x l2 : l_debug l = true -> ring l (l1 ++ x :: l2) ->
  exists l', queue_remove l x = Some l' /\ ring l' (l1 ++ l2) /\ same_blocks l l'.
Proof.
  intros Hd (H1 & H2 & H3). unfold queue_remove.
  apply path_app in H1. destruct H1 as [Ha Hb].
  rewrite (path_next _ _ _ _ _ Hb), (path_prev _ _ _ _ _ Ha), Hd.
  eexists. split; [reflexivity|]. split; [|cbn; repeat split; auto].
  pose proof (path_remove _ _ _ _ _ _ _ _ Ha Hb H2 eq_refl eq_refl) as P.
  pose proof H2 as Hnd0. apply NoDup_cons_iff in H2. destruct H2 as [Hs Hnd].
  rewrite in_app_iff in Hs. cbn [In] in Hs.
  apply NoDup_app_iff in Hnd. destruct Hnd as (N1 & N2 & N3). apply NoDup_cons_iff in N2. destruct N2 as [Nh N2].
  set (p := last l1 (l_bin_count l)) in *.
  assert (Hp : In p (l_bin_count l :: l1)).
  { unfold p. destruct l1 as [|w l1'] using rev_ind; [left; reflexivity|]. rewrite last_last. right.
    apply in_or_app. right. left. reflexivity. }
  unfold ring. cbn [with_queue l_next l_prev l_bin_count]. split; [|split].
  - eapply path_ext; [| |exact P].
    + intros z Hz. apply upd_neq. intros ->. destruct Hz as [<-|Hz]; [tauto|].
      apply in_app_or in Hz. destruct Hz as [Hz|Hz]; [|tauto]. apply (N3 z Hz). left. reflexivity.
    + intros z Hz. apply upd_neq. intros ->. rewrite !in_app_iff in Hz. cbn [In] in Hz.
      destruct Hz as [[Hz|Hz]|[<-|[]]]; try tauto. apply (N3 z Hz). left. reflexivity.
  - constructor; [rewrite in_app_iff; tauto|]. apply NoDup_app_iff. split; [exact N1|]. split; [exact N2|].
    intros z Hz Hz2. apply (N3 z Hz). right. exact Hz2.
  - intros j Hj Hjn. rewrite in_app_iff in Hjn. destruct (Nat.eq_dec x j) as [<-|Hne]; [apply upd_eq|].
    rewrite !upd_neq; auto.
    + apply H3; [exact Hj|]. rewrite in_app_iff. cbn [In]. intuition.
    + intros <-. destruct Hp as [Hp|Hp]; [congruence|tauto].
Qed.

(* the queue holds exactly the bins that have blocks with room, in order *)
Record rinv (l : lba) (act : list nat) : Prop := {
  r_ring : ring l act;
  r_sorted : StronglySorted lt act;
  r_act : forall j, In j act <-> j < l_bin_count l /\ l_blocks l j <> []
}.

Lemma same_rinv l l' act : same_blocks l l' -> ring l' act ->
  StronglySorted lt act ->
  (forall j, In j act <-> j < l_bin_count l /\ l_blocks l j <> []) -> rinv l' act.
Proof. intros (_ & E1 & _ & _ & E4 & _) R S A. constructor; auto. rewrite E1, E4. exact A. Qed.

Lemma ring_prev l act : ring l act -> l_prev l (l_bin_count l) = Some (last act (l_bin_count l)).
Proof. intros (H & _). apply (path_prev _ _ _ _ _ H). Qed.

Lemma is_nil_spec {A} (l : list A) : reflect (l = []) (is_nil l).
Proof. destruct l; constructor; congruence. Qed.

Lemma ring_same_pointers l l' act : l_next l' = l_next l -> l_prev l' = l_prev l ->
  l_bin_count l' = l_bin_count l -> ring l act -> ring l' act.
Proof. intros E1 E2 E3 (A & B & C). unfold ring. rewrite E1, E2, E3. auto. Qed.

Lemma move_other l b o n j : j <> n -> j <> o -> l_blocks (move_block l b o n) j = l_blocks l j.
Proof. intros H1 H2. unfold move_block. cbn [with_blocks l_blocks]. rewrite !upd_neq by auto. reflexivity. Qed.

Lemma move_new l b o n : l_blocks (move_block l b o n) n <> [].
Proof.
  unfold move_block. cbn [with_blocks l_blocks]. rewrite upd_eq.
  match goal with |- ?x ++ _ <> [] => destruct x; discriminate end.
Qed.

(* moving a block up, from the last active bin *)
Lemma queue_up l act' o n :
  l_debug l = true -> ring l (act' ++ [o]) -> StronglySorted lt (act' ++ [o]) -> n = S o -> o < l_bin_count l ->
  (forall x, In x act' -> x < l_bin_count l) ->
  exists l3, match l_next l n with None => insert_head l o n | Some _ => Some l end = Some l3 /\
  same_blocks l l3 /\
  exists l4 act4, (if is_nil (l_blocks l3 o) then queue_remove l3 o else Some l3) = Some l4 /\
    same_blocks l l4 /\ ring l4 act4 /\ StronglySorted lt act4 /\
    (forall j, In j act4 <-> (In j (act' ++ [o]) \/ (j = n /\ n <> l_bin_count l)) /\ (j = o -> l_blocks l o <> [])).
Proof.
  intros Hd R S En Ho Hlt.
  assert (Hso : forall x, In x act' -> x < o).
  { intros x Hx. apply ss_app in S. destruct S as (_ & _ & C). apply C; [exact Hx|left; reflexivity]. }
  assert (Hn : ~ In n (act' ++ [o])).
  { rewrite in_app_iff. cbn. intros [Hin|[E|[]]]; [apply Hso in Hin|]; lia. }
  assert (exists l3 r, match l_next l n with None => insert_head l o n | Some _ => Some l end = Some l3 /\
    same_blocks l l3 /\ ring l3 (act' ++ o :: r) /\ StronglySorted lt (act' ++ o :: r) /\
    (forall j, In j r <-> j = n /\ n <> l_bin_count l)) as (l3 & r & E3 & S3 & R3 & T3 & M3).
  { destruct (Nat.eq_dec n (l_bin_count l)) as [Eb|Nb].
    - exists l, []. destruct (l_next l n) as [z|] eqn:Ez.
      + split; [reflexivity|]. split; [apply same_refl|]. split; [exact R|]. split; [exact S|]. cbn. tauto.
      + apply (ring_next l _ n R) in Ez. tauto.
    - exists (match insert_head l o n with Some x => x | None => l end), [n].
      assert (Ez : l_next l n = None) by (apply (ring_next l _ n R); auto). rewrite Ez.
      destruct (ring_insert_after l act' o [] n R Nb Hn) as (l' & I1 & I2 & I3). rewrite I1.
      split; [reflexivity|]. split; [exact I3|]. split; [exact I2|]. split.
      + apply ss_app in S. destruct S as (A & B & C). apply ss_app. split; [exact A|]. split.
        * apply ss_cons. split; [apply ss_cons; split; [constructor|intros y []]|]. intros y [<-|[]]. lia.
        * intros x y Hx Hy. specialize (Hso x Hx). destruct Hy as [<-|[<-|[]]]; lia.
      + cbn. intuition. }
  exists l3. split; [exact E3|]. split; [exact S3|].
  assert (Hd3 : l_debug l3 = true) by (destruct S3 as (-> & _); exact Hd).
  assert (Hbl : l_blocks l3 = l_blocks l) by (destruct S3 as (_ & _ & _ & _ & -> & _); reflexivity).
  rewrite Hbl. destruct (is_nil_spec (l_blocks l o)) as [Enil|Nnil].
  - destruct (ring_remove l3 act' o r Hd3 R3) as (l4 & D1 & D2 & D3).
    exists l4, (act' ++ r). split; [exact D1|]. split; [eapply same_trans; eassumption|]. split; [exact D2|].
    split.
    + apply ss_app in T3. destruct T3 as (A & B & C). apply ss_cons in B. destruct B as [B _].
      apply ss_app. split; [exact A|]. split; [exact B|]. intros x y Hx Hy. apply C; [exact Hx|right; exact Hy].
    + intros j. rewrite !in_app_iff, M3. cbn [In]. split.
      * intros Hj. split; [tauto|]. intros ->. destruct Hj as [Hj|[Hj _]]; [apply Hso in Hj; lia|lia].
      * intros [[[Hj|[->|[]]]|Hj] Hc]; try tauto.
  - exists l3, (act' ++ o :: r). split; [reflexivity|]. split; [exact S3|]. split; [exact R3|]. split; [exact T3|].
    intros j. rewrite !in_app_iff. cbn [In]. rewrite M3. tauto.
Qed.

Lemma app_cons_snoc {A} (l1 : list A) x l2 y : l1 ++ x :: l2 ++ [y] = (l1 ++ x :: l2) ++ [y].
Proof. rewrite <- app_assoc. reflexivity. Qed.

(* moving a block down *)
Lemma queue_down l act o n :
  l_debug l = true -> ring l act -> StronglySorted lt act -> o = S n -> o <= l_bin_count l ->
  (forall x, In x act -> x < l_bin_count l) -> (o = l_bin_count l \/ In o act) ->
  exists l3, match l_next l n with None => insert_tail l o n | Some _ => Some l end = Some l3 /\
  same_blocks l l3 /\
  exists l4 act4, (if is_nil (l_blocks l3 o) && negb (o =? l_bin_count l3) then queue_remove l3 o else Some l3) = Some l4 /\
    same_blocks l l4 /\ ring l4 act4 /\ StronglySorted lt act4 /\
    (forall j, In j act4 <-> (In j act \/ j = n) /\ (j = o -> l_blocks l o <> [])).
Proof.
  intros Hd R S En Ho Hlt Hoa.
  assert (Nb : n <> l_bin_count l) by lia.
  assert (exists l3 act3, match l_next l n with None => insert_tail l o n | Some _ => Some l end = Some l3 /\
    same_blocks l l3 /\ ring l3 act3 /\ StronglySorted lt act3 /\
    (forall j, In j act3 <-> In j act \/ j = n)) as (l3 & act3 & E3 & S3 & R3 & T3 & M3).
  { destruct (l_next l n) as [z|] eqn:Ez.
    - exists l, act. split; [reflexivity|]. split; [apply same_refl|]. split; [exact R|]. split; [exact S|].
      assert (Hin : In n act).
      { destruct (in_dec Nat.eq_dec n act) as [Hi|Hi]; [exact Hi|]. exfalso.
        assert (l_next l n = None) by (apply (ring_next l act n R); auto). congruence. }
      intros j. split; [tauto|]. intros [Hj| ->]; assumption.
    - pose proof Ez as Ez'. apply (ring_next l act n R) in Ez'. destruct Ez' as [_ Hni].
      destruct Hoa as [Eo|Hin].
      + destruct (ring_insert_tail_s l act n R Nb Hni) as (l' & I1 & I2 & I3). rewrite <- Eo in I1. rewrite I1.
        exists l', (act ++ [n]). split; [reflexivity|]. split; [exact I3|]. split; [exact I2|]. split.
        * apply ss_app. split; [exact S|]. split; [apply ss_cons; split; [constructor|intros y []]|].
          intros x y Hx [<-|[]]. specialize (Hlt x Hx). assert (x <> n) by (intros ->; exact (Hni Hx)). lia.
        * intros j. rewrite in_app_iff. cbn. intuition.
      + apply in_split in Hin. destruct Hin as (a1 & a2 & ->).
        destruct (ring_insert_before l a1 o a2 n R Nb Hni) as (l' & I1 & I2 & I3). rewrite I1.
        exists l', (a1 ++ n :: o :: a2). split; [reflexivity|]. split; [exact I3|]. split; [exact I2|]. split.
        * apply ss_app in S. destruct S as (A & B & C). apply ss_app. split; [exact A|]. split.
          -- apply ss_cons. split; [exact B|]. apply ss_cons in B. destruct B as [_ B].
             intros y [<-|Hy]; [lia|]. specialize (B y Hy). lia.
          -- intros x y Hx [<-|Hy]; [|apply C; assumption].
             specialize (C x o Hx (or_introl eq_refl)).
             assert (x <> n). { intros ->. apply Hni. apply in_or_app. left. exact Hx. } lia.
        * intros j. rewrite !in_app_iff. cbn. intuition. }
  exists l3. split; [exact E3|]. split; [exact S3|].
  assert (Hd3 : l_debug l3 = true) by (destruct S3 as (-> & _); exact Hd).
  assert (Hbl : l_blocks l3 = l_blocks l) by (destruct S3 as (_ & _ & _ & _ & -> & _); reflexivity).
  assert (Hbc : l_bin_count l3 = l_bin_count l) by (destruct S3 as (_ & -> & _); reflexivity).
  rewrite Hbl, Hbc.
  destruct (is_nil_spec (l_blocks l o)) as [Enil|Nnil]; cbn [andb].
  - destruct (Nat.eqb_spec o (l_bin_count l)) as [Eo|No]; cbn [negb].
    + exists l3, act3. split; [reflexivity|]. split; [exact S3|]. split; [exact R3|]. split; [exact T3|].
      intros j. rewrite M3. split; [|tauto]. intros Hj. split; [exact Hj|]. intros ->.
      destruct Hj as [Hj|Hj]; [apply Hlt in Hj; lia|lia].
    + destruct Hoa as [Eo|Hin]; [congruence|].
      assert (Hin3 : In o act3) by (apply M3; left; exact Hin).
      apply in_split in Hin3. destruct Hin3 as (a1 & a2 & ->).
      destruct (ring_remove l3 a1 o a2 Hd3 R3) as (l4 & D1 & D2 & D3).
      exists l4, (a1 ++ a2). split; [exact D1|]. split; [eapply same_trans; eassumption|]. split; [exact D2|].
      pose proof T3 as T3'. apply ss_app in T3. destruct T3 as (A & B & C). apply ss_cons in B. destruct B as [B B'].
      split.
      * apply ss_app. split; [exact A|]. split; [exact B|]. intros x y Hx Hy. apply C; [exact Hx|right; exact Hy].
      * intros j. rewrite <- M3, !in_app_iff. cbn [In]. split.
        -- intros Hj. split; [tauto|]. intros ->. exfalso. destruct Hj as [Hj|Hj].
           ++ specialize (C o o Hj (or_introl eq_refl)). lia.
           ++ specialize (B' o Hj). lia.
        -- intros [[Hj|[<-|Hj]] Hc]; try tauto.
  - exists l3, act3. split; [reflexivity|]. split; [exact S3|]. split; [exact R3|]. split; [exact T3|].
    intros j. rewrite M3. tauto.
Qed.

Definition sized (l : lba) : Prop :=
  l_debug l = true /\ 2 <= l_bufs l /\ 1 <= l_bin_count l /\ l_bin_count l <= l_bufs l /\
  l_initial l = bin_of l 1.

Lemma last_in_act act (d : nat) : act <> [] -> exists act' q, act = act' ++ [q] /\ last act d = q.
Proof.
  intros H. destruct (exists_last H) as (a & q & ->). exists a, q. split; [reflexivity|]. apply last_last.
Qed.

Lemma bin_lt l used : sized l -> used < l_bufs l -> bin_of l used < l_bin_count l.
Proof.
  intros (_ & H1 & H2 & H3 & _) Hu. pose proof (bin_le l used ltac:(lia) ltac:(lia)).
  pose proof (bin_full l used ltac:(lia) ltac:(lia) ltac:(lia)). lia.
Qed.

(* allocation with a good queue *)
Lemma alloc_queue l live act ok :
  sized l -> binv l live -> rinv l act ->
  match act with
  | [] => lba_alloc l ok = block_alloc l ok /\
          (ok = true -> exists b l' act', lba_alloc l ok = LBuf b l' /\ rinv l' act')
  | _ => exists b k l' act', lba_alloc l ok = LBuf (b, k) l' /\ rinv l' act' /\
           In b (l_blocks l (last act 0)) /\ l_count l' = l_count l
  end.
Proof.
  intros Hsz Hb [R S A]. pose proof Hsz as (Hd & H2 & H1 & Hle & Hini).
  unfold lba_alloc. rewrite (ring_prev l act R).
  destruct act as [|a0 ar] eqn:Eact.
  - cbn [last]. rewrite Nat.eqb_refl. split; [reflexivity|]. intros ->.
    unfold block_alloc. cbn [negb]. set (i := l_initial l) in *. set (n := l_count l).
    assert (Hi : i < l_bin_count l) by (rewrite Hini; apply bin_lt; [exact Hsz|lia]).
    match goal with |- context [l_next ?x i] => set (l1 := x) end.
    assert (R1 : ring l1 []) by (eapply ring_same_pointers; [| | |exact R]; reflexivity).
    assert (En : l_next l1 i = None) by (apply (ring_next l1 [] i R1); split; [cbn; lia|auto]).
    rewrite En. destruct (ring_insert_head_s l1 [] i R1) as (l2 & I1 & I2 & I3); [cbn; lia|auto|].
    rewrite I1. exists (n, 0), l2, [i]. split; [reflexivity|].
    eapply same_rinv; [exact I3|exact I2|apply ss_cons; split; [constructor|intros y []]|].
    intros j. cbn [l1 l_bin_count l_blocks In]. split.
    + intros [<-|[]]. split; [exact Hi|]. rewrite upd_eq. destruct (l_blocks l i); discriminate.
    + intros [Hj Hne]. left. destruct (Nat.eq_dec i j) as [E|N]; [exact E|]. rewrite upd_neq in Hne by auto.
      exfalso. apply (A j). auto.
  - rewrite <- Eact in *. assert (Hne : act <> []) by (rewrite Eact; discriminate).
    destruct (last_in_act act (l_bin_count l) Hne) as (act' & q & Eq & El). rewrite El.
    assert (Hq : In q act) by (rewrite Eq; apply in_or_app; right; left; reflexivity).
    pose proof (proj1 (A q) Hq) as [Hqb Hqn].
    destruct (Nat.eqb_spec q (l_bin_count l)) as [?|Nq0]; [lia|].
    destruct (rev (l_blocks l q)) as [|b rb] eqn:Erev.
    { exfalso. apply Hqn. apply (f_equal (@rev nat)) in Erev. rewrite rev_involutive in Erev. exact Erev. }
    assert (Hbq : In b (l_blocks l q)) by (apply in_rev; rewrite Erev; left; reflexivity).
    destruct (b_good _ _ Hb q b Hbq) as [Hbin Hg]. pose proof Hg as [G1 G2 G3 G4 G5 G6 G7].
    assert (Hused : bk_used (l_block l b) < l_bufs l).
    { pose proof (bin_full l (bk_used (l_block l b)) ltac:(lia) ltac:(lia) ltac:(lia)). lia. }
    pose proof (take_ok l live b q Hb Hbq) as T.
    assert (Hlast0 : last act 0 = q) by (rewrite Eq; apply last_last).
    unfold block_alloc_buf. fold (take l b). destruct (take l b) as [[k bk']|]; [|lia].
    destruct T as (_ & _ & _ & T4 & _ & _ & _ & _ & T9 & _).
    set (l1 := with_blocks l (l_blocks l) (upd (l_block l) b bk')).
    rewrite Hbin. rewrite T9.
    assert (Hstep := bin_step l (bk_used (l_block l b)) ltac:(lia) ltac:(lia)).
    rewrite <- G2, Hbin in Hstep.
    destruct (Nat.eqb_spec (bin_of l (Datatypes.S (bk_used (l_block l b)))) q) as [En|En].
    + exists b, k, l1, act. split; [reflexivity|]. split; [|rewrite Hlast0; auto].
      constructor; [|exact S|exact A]. eapply ring_same_pointers; [| | |exact R]; reflexivity.
    + destruct Hstep as [Hstep|Hstep]; [congruence|].
      set (n := bin_of l (Datatypes.S (bk_used (l_block l b)))) in *.
      set (l2 := move_block l1 b q n).
      assert (R2 : ring l2 (act' ++ [q])) by (rewrite <- Eq; eapply ring_same_pointers; [| | |exact R]; reflexivity).
      assert (S2 : StronglySorted lt (act' ++ [q])) by (rewrite <- Eq; exact S).
      destruct (queue_up l2 act' q n Hd R2 S2 Hstep Hqb) as (l3 & E3 & S3 & l4 & act4 & E4 & S4 & R4 & T4' & M4).
      { intros x Hx. apply A. rewrite Eq. apply in_or_app. left. exact Hx. }
      rewrite E3. exists b, k, l4, act4. split.
      { destruct (is_nil (l_blocks l3 q)); [rewrite E4; reflexivity|injection E4 as <-; reflexivity]. }
      split; [|rewrite Hlast0; split; [exact Hbq|]; destruct S4 as (_ & _ & _ & _ & _ & _ & ->); reflexivity].
      eapply same_rinv; [exact S4|exact R4|exact T4'|].
      intros j. rewrite M4, <- Eq, (A j). change (l_bin_count l2) with (l_bin_count l).
      assert (Hnl : n <= l_bin_count l) by (apply bin_le; lia).
      destruct (Nat.eq_dec j n) as [->|Nn].
      * split.
        -- intros [Hj _]. split; [lia|apply move_new].
        -- intros [Hj _]. split; [right; split; [reflexivity|lia]|]. lia.
      * destruct (Nat.eq_dec j q) as [->|Nq].
        -- split; [intros [_ Hc]; split; [exact Hqb|apply Hc; reflexivity]|].
           intros [_ Hc]. split; [left; auto|auto].
        -- unfold l2. rewrite (move_other _ _ _ _ j) by auto. cbn [l1 with_blocks l_blocks]. intuition.
Qed.

(* freeing with a good queue *)
Lemma free_queue l live act b k :
  sized l -> binv l live -> rinv l act -> In (b, k) live ->
  exists l' act', lba_free l (b, k) = LDone l' /\ rinv l' act'.
Proof.
  intros Hsz Hb [R S A] Hin. pose proof Hsz as (Hd & H2 & H1 & Hle & Hini).
  destruct (b_live _ _ Hb b k Hin) as (Hmap & Hk1 & Hk2).
  destruct (b_good _ _ Hb _ b Hmap) as [_ Hg]. pose proof Hg as [G1 G2 G3 G4 G5 G6 G7].
  assert (Hu1 : 1 <= bk_used (l_block l b)).
  { destruct (bk_used (l_block l b)) as [|u] eqn:Eu; [|lia]. exfalso. symmetry in G7. rewrite in_use_zero in G7.
    exact (G7 k Hin). }
  assert (Hlt : forall x, In x act -> x < l_bin_count l) by (intros x Hx; apply A; exact Hx).
  unfold lba_free. cbn [fst snd]. unfold block_free_buf.
  set (o := bk_bin (l_block l b)) in *. set (u := bk_used (l_block l b) - 1).
  assert (Hstep := bin_step l u ltac:(lia) ltac:(lia)).
  replace (Datatypes.S u) with (bk_used (l_block l b)) in Hstep by lia. rewrite <- G2 in Hstep.
  assert (Hob : o <= l_bin_count l) by (rewrite G2; apply bin_le; lia).
  assert (Hone : l_blocks l o <> []) by (intros E; rewrite E in Hmap; exact Hmap).
  set (l1 := with_blocks l (l_blocks l) _).
  destruct ((u =? 0) && other_in_bin0 l1 b) eqn:Ec.
  - apply andb_true_iff in Ec. destruct Ec as [Eu Eo]. apply Nat.eqb_eq in Eu.
    unfold block_free. cbn [l1 with_blocks l_block]. rewrite upd_eq. cbn [bk_bin].
    set (l2 := with_blocks l1 _ _).
    change (l_blocks (with_blocks l1 (upd (l_blocks l1) o (remove_block b (l_blocks l1 o))) (l_block l1)) o) with (l_blocks l2 o).
    assert (Ho : o < l_bin_count l).
    { rewrite G2. apply bin_lt; [exact Hsz|]. lia. }
    assert (Hoa : In o act) by (apply A; auto).
    assert (R2 : ring l2 act) by (eapply ring_same_pointers; [| | |exact R]; reflexivity).
    assert (Hoth : forall j, j <> o -> l_blocks l2 j = l_blocks l j).
    { intros j Hj. unfold l2. cbn [with_blocks l_blocks]. rewrite upd_neq by auto. reflexivity. }
    destruct (is_nil_spec (l_blocks l2 o)) as [Enil|Nnil].
    + apply in_split in Hoa. destruct Hoa as (a1 & a2 & Ea). rewrite Ea in R2.
      destruct (ring_remove l2 a1 o a2 Hd R2) as (l3 & D1 & D2 & D3). rewrite D1.
      exists l3, (a1 ++ a2). split; [reflexivity|].
      rewrite Ea in S. apply ss_app in S. destruct S as (S1 & S2 & S3). apply ss_cons in S2. destruct S2 as [S2 S4].
      eapply same_rinv; [exact D3|exact D2| |].
      * apply ss_app. split; [exact S1|]. split; [exact S2|]. intros x y Hx Hy. apply S3; [exact Hx|right; exact Hy].
      * intros j. change (l_bin_count l2) with (l_bin_count l). destruct (Nat.eq_dec j o) as [->|Nj].
        -- split; [|intros [_ X]; contradiction]. rewrite in_app_iff. intros [X|X].
           ++ specialize (S3 o o X (or_introl eq_refl)). lia.
           ++ specialize (S4 o X). lia.
        -- rewrite Hoth by exact Nj. rewrite <- (A j), Ea, !in_app_iff. cbn [In]. intuition congruence.
    + exists l2, act. split; [reflexivity|]. constructor; [exact R2|exact S|].
      intros j. change (l_bin_count l2) with (l_bin_count l). destruct (Nat.eq_dec j o) as [->|Nj].
      * split; intros; [auto|exact Hoa].
      * rewrite Hoth by exact Nj. apply A.
  - set (l2 := with_blocks l1 _ _).
    destruct (Nat.eqb_spec (bin_of l u) o) as [En|En].
    + exists l2, act. split; [reflexivity|]. constructor; [|exact S|exact A].
      eapply ring_same_pointers; [| | |exact R]; reflexivity.
    + destruct Hstep as [Hstep|Hstep]; [congruence|].
      set (n := bin_of l u) in *. set (l3 := move_block l2 b o n).
      assert (R3 : ring l3 act) by (eapply ring_same_pointers; [| | |exact R]; reflexivity).
      destruct (queue_down l3 act o n Hd R3 S Hstep Hob Hlt) as (l4 & E4 & S4 & l5 & act5 & E5 & S5 & R5 & T5 & M5).
      { destruct (Nat.eq_dec o (l_bin_count l)); [left; assumption|right]. apply A. split; [lia|exact Hone]. }
      rewrite E4. exists l5, act5. split.
      { destruct (is_nil (l_blocks l4 o) && negb (o =? l_bin_count l4)); [rewrite E5; reflexivity|injection E5 as <-; reflexivity]. }
      eapply same_rinv; [exact S5|exact R5|exact T5|].
      intros j. rewrite M5, (A j). change (l_bin_count l3) with (l_bin_count l).
      destruct (Nat.eq_dec j n) as [->|Nn].
      * split; [|intros _; split; [right; reflexivity|lia]].
        intros _. split; [lia|apply move_new].
      * destruct (Nat.eq_dec j o) as [->|No].
        -- split; [intros [Hj Hc]; split; [lia|apply Hc; reflexivity]|].
           intros [Ho Hc]. split; [left; auto|auto].
        -- unfold l3. rewrite (move_other _ _ _ _ j) by auto. cbn [l2 l1 with_blocks l_blocks]. intuition.
Qed.
