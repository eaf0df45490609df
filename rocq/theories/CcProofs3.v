(* The order of the packets. *)
From Coq Require Import ZArith List Bool Lia ZifyBool Sorting.Sorted.
From Verif Require Import Bytes CcModel CcSpec.
Import ListNotations.
Open Scope Z_scope.

Definition le_time (x y : packet) : Prop := fst x <= fst y.
Lemma ins_split p back : exists a b, back = a ++ b /\ ins p back = a ++ p :: b /\ Forall (fun c => fst p < fst c) a /\ match b with [] => True | c :: _ => fst c <= fst p end.
Proof.
  induction back as [|c r IH]; [exists [], []; cbn; auto|]. cbn [ins]. destruct (fst c <=? fst p) eqn:Q.
  - exists [], (c :: r). cbn. split; [reflexivity|]. split; [reflexivity|]. split; [constructor | lia].
  - destruct IH as (a & b & E1 & E2 & E3 & E4). exists (c :: a), b. rewrite E2, E1. split; [reflexivity|]. split; [reflexivity|]. split; [constructor; [lia | exact E3] | exact E4].
Qed.
Lemma insert_split p l : exists a b, l = a ++ b /\ packet_insert p l = a ++ p :: b /\ Forall (fun c => fst p < fst c) b /\ (a = [] \/ exists a' c, a = a' ++ [c] /\ fst c <= fst p).
Proof.
  unfold packet_insert. destruct (ins_split p (rev l)) as (a & b & E1 & E2 & E3 & E4). exists (rev b), (rev a). split; [rewrite <- rev_app_distr, <- E1, rev_involutive; reflexivity|]. split; [rewrite E2, rev_app_distr; cbn [rev]; rewrite <- app_assoc; reflexivity|]. split; [apply Forall_rev, E3|].
  destruct b as [|c b]; [left; reflexivity | right; exists (rev b), c; split; [reflexivity | exact E4]].
Qed.
Lemma insert_time t p l : of_time t (packet_insert p l) = of_time t (l ++ [p]).
Proof.
  destruct (insert_split p l) as (a & b & -> & -> & E3 & _). unfold of_time. rewrite !filter_app. cbn [filter]. destruct (fst p =? t) eqn:Q; [|rewrite app_nil_r; reflexivity].
  assert (filter (fun x => fst x =? t) b = []) as ->; [|rewrite app_nil_r; reflexivity]. induction E3 as [|c b H _ IH]; [reflexivity|]. cbn [filter]. assert (fst c =? t = false) as -> by lia. exact IH.
Qed.
Lemma insert_in p l x : In x (packet_insert p l) <-> x = p \/ In x l.
Proof. destruct (insert_split p l) as (a & b & -> & -> & _). rewrite !in_app_iff. cbn [In]. intuition congruence. Qed.
Lemma sorted_app (a b : list packet) : StronglySorted le_time (a ++ b) <-> StronglySorted le_time a /\ StronglySorted le_time b /\ (forall x y, In x a -> In y b -> le_time x y).
Proof.
  induction a as [|c a IH]; cbn [app].
  - split; [intros H; split; [constructor|]; split; [exact H|]; intros x y [] | tauto].
  - split.
    + intros H. inversion H as [|? ? H1 H2]; subst. apply IH in H1. destruct H1 as (A & B & C). rewrite Forall_forall in H2. split; [constructor; [exact A|]; apply Forall_forall; intros y Hy; apply H2, in_app_iff; auto|]. split; [exact B|]. intros x y [ <- | Hx ] Hy; [apply H2, in_app_iff; auto | apply C; assumption].
    + intros (A & B & C). inversion A as [|? ? A1 A2]; subst. constructor; [apply IH; split; [exact A1|]; split; [exact B|]; intros x y Hx Hy; apply C; [right; exact Hx | exact Hy]|]. apply Forall_app. split; [exact A2|]. apply Forall_forall. intros y Hy. apply C; [left; reflexivity | exact Hy].
Qed.
Lemma insert_sorted p l : StronglySorted le_time l -> StronglySorted le_time (packet_insert p l).
Proof.
  destruct (insert_split p l) as (a & b & -> & -> & E3 & E4). intros H. apply sorted_app in H. destruct H as (A & B & C). rewrite Forall_forall in E3. apply sorted_app. split; [exact A|]. split; [constructor; [exact B|]; apply Forall_forall; intros y Hy; specialize (E3 y Hy); unfold le_time; lia|].
  intros x y Hx [ <- | Hy ]; [|apply C; assumption]. destruct E4 as [-> | (a' & c & -> & L)]; [destruct Hx|]. apply sorted_app in A. destruct A as (_ & _ & A3). apply in_app_iff in Hx. destruct Hx as [Hx | [ <- | [] ]]; [|exact L]. specialize (A3 x c Hx (or_introl eq_refl)). unfold le_time in *. lia.
Qed.
Lemma inserts_time t pts ds : forall l, of_time t (fold_left (fun l d => packet_insert (pts, d) l) ds l) = of_time t (l ++ map (pair pts) ds).
Proof.
  induction ds as [|d ds IH]; intros l; cbn [fold_left map]; [rewrite app_nil_r; reflexivity|]. rewrite IH. unfold of_time in *. rewrite filter_app. pose proof (insert_time t (pts, d) l) as I. unfold of_time in I. rewrite I. rewrite <- filter_app, <- app_assoc. reflexivity.
Qed.
Lemma inserts_sorted pts ds : forall l, StronglySorted le_time l -> StronglySorted le_time (fold_left (fun l d => packet_insert (pts, d) l) ds l).
Proof. induction ds as [|d ds IH]; intros l H; [exact H|]. cbn [fold_left]. apply IH, insert_sorted, H. Qed.
Lemma inserts_in pts ds x : forall l, In x (fold_left (fun l d => packet_insert (pts, d) l) ds l) -> In x l \/ fst x = pts.
Proof. induction ds as [|d ds IH]; intros l H; [left; exact H|]. cbn [fold_left] in H. apply IH in H. destruct H as [H|H]; [|right; exact H]. apply insert_in in H. destruct H as [-> | H]; [right; reflexivity | left; exact H]. Qed.

Definition timed (c : conf) (f : frame_evt) : timed_frame := (f_key f, f_dts f + f_delay f, frame_packets c (f_data f)).
Lemma frames_time t c fs : forall x, of_time t (fst (add_frames c x fs) ++ x_pending (snd (add_frames c x fs))) = of_time t (x_pending x ++ all_captions (map (timed c) fs)).
Proof.
  induction fs as [|f fs IH]; intros x; cbn [add_frames map].
  - cbn [fst snd app]. unfold all_captions. cbn [map concat]. rewrite app_nil_r. reflexivity.
  - destruct (add_frame c x f) as (a, x1) eqn:Q. specialize (IH x1). destruct (add_frames c x1 fs) as (b, x2). cbn [fst snd] in *. rewrite <- app_assoc. unfold of_time in *. rewrite filter_app, IH. unfold all_captions. cbn [map concat timed fst snd].
    unfold add_frame in Q. set (pts := f_dts f + f_delay f) in *. set (ds := frame_packets c (f_data f)) in *. pose proof (inserts_time t pts ds) as IT. unfold of_time in IT. destruct (f_key f || (x_max_pts x <? pts)); injection Q as <- <-; cbn [x_pending x_max_pts]; rewrite !filter_app, IT; rewrite !filter_app; cbn [filter app]; rewrite <- ?app_assoc; reflexivity.
Qed.
Lemma frames_sorted c fs : forall x out before, groups (x_max_pts x) before (map (timed c) fs) -> StronglySorted le_time (out ++ x_pending x) ->
  (forall p, In p (out ++ x_pending x) -> In (fst p) before) -> (forall p f, In p out -> In f fs -> fst p <= f_dts f + f_delay f) ->
  StronglySorted le_time (out ++ fst (add_frames c x fs) ++ x_pending (snd (add_frames c x fs))).
Proof.
  induction fs as [|f fs IH]; intros x out before G S B O; cbn [add_frames].
  - exact S.
  - destruct (add_frame c x f) as (a, x1) eqn:Q. specialize (IH x1). destruct (add_frames c x1 fs) as (b, x2). cbn [fst snd] in *. unfold add_frame in Q. cbn [map groups timed] in G. set (pts := f_dts f + f_delay f) in *. set (ds := frame_packets c (f_data f)) in *.
    rewrite <- app_assoc, app_assoc. destruct (f_key f || (x_max_pts x <? pts)) eqn:QG; injection Q as <- <-; cbn [x_pending x_max_pts] in *.
    + destruct G as [G1 G2]. assert (forall p g, In p (out ++ x_pending x) -> In g (f :: fs) -> fst p <= f_dts g + f_delay g) as O'. { intros p g Hp [ <- | Hg ]; apply G1; try (apply B; exact Hp); [left; reflexivity|]. right. rewrite map_map. apply in_map_iff. exists g. split; [reflexivity | exact Hg]. }
      apply (IH _ (before ++ [pts])); [exact G2| | |intros p g Hp Hg; apply O'; [exact Hp | right; exact Hg]].
      * apply sorted_app. split; [exact S|]. split; [apply inserts_sorted; constructor|]. intros u v Hu Hv. apply inserts_in in Hv. destruct Hv as [[]|Hv]. unfold le_time. rewrite Hv. exact (O' u f Hu (or_introl eq_refl)).
      * intros p Hp. apply in_app_iff. apply in_app_iff in Hp. destruct Hp as [Hp|Hp]; [left; apply B; exact Hp|]. apply inserts_in in Hp. destruct Hp as [[]|Hp]. right. left. symmetry. exact Hp.
    + rewrite app_nil_r. apply (IH _ (before ++ [pts])); [exact G| | |intros p g Hp Hg; apply O; [exact Hp | right; exact Hg]].
      * apply sorted_app in S. destruct S as (S1 & S2 & S3). apply sorted_app. split; [exact S1|]. split; [apply inserts_sorted, S2|]. intros u v Hu Hv. apply inserts_in in Hv. destruct Hv as [Hv|Hv]; [apply S3; assumption|]. unfold le_time. rewrite Hv. exact (O u f Hu (or_introl eq_refl)).
      * intros p Hp. apply in_app_iff. apply in_app_iff in Hp. destruct Hp as [Hp|Hp]; [left; apply B, in_app_iff; left; exact Hp|]. apply inserts_in in Hp. destruct Hp as [Hp|Hp]; [left; apply B, in_app_iff; right; exact Hp | right; left; symmetry; exact Hp].
Qed.
