(* Proofs about the segment index: the lists, and the invariant. *)

From Coq Require Import ZArith List Bool Lia ZifyBool Sorted.
From Verif Require Import IdxModel IdxSpec.
Import ListNotations.
Open Scope Z_scope.

(* ------------------------------------------------------------------ *)
(* Sorted lists                                                         *)

Lemma ss_app : forall a b,
  StronglySorted Z.lt (a ++ b) <->
  StronglySorted Z.lt a /\ StronglySorted Z.lt b /\
  (forall x y, In x a -> In y b -> x < y).
Proof.
  induction a as [|h a IH]; intros b; cbn [app].
  - split.
    + intros H. repeat split; [constructor|exact H|intros x y []].
    + intros (_ & H & _). exact H.
  - split.
    + intros H. inversion H as [|? ? HS HF]; subst. apply IH in HS.
      destruct HS as (A & B & C). rewrite Forall_forall in HF.
      repeat split.
      * constructor; [exact A|]. rewrite Forall_forall. intros x Hx. apply HF.
        apply in_or_app. left. exact Hx.
      * exact B.
      * intros x y [<-|Hx] Hy; [apply HF, in_or_app; right; exact Hy|].
        apply C; assumption.
    + intros (A & B & C). inversion A as [|? ? HS HF]; subst.
      constructor.
      * apply IH. repeat split; [exact HS|exact B|].
        intros x y Hx Hy. apply C; [right; exact Hx|exact Hy].
      * rewrite Forall_forall in *. intros x Hx. apply in_app_or in Hx.
        destruct Hx as [Hx|Hx]; [apply HF; exact Hx|].
        apply C; [left; reflexivity|exact Hx].
Qed.

Lemma ss_filter : forall (p : Z -> bool) l,
  StronglySorted Z.lt l -> StronglySorted Z.lt (filter p l).
Proof.
  induction l as [|h l IH]; intros H; cbn [filter]; [constructor|].
  inversion H as [|? ? HS HF]; subst. destruct (p h); [|apply IH; exact HS].
  constructor; [apply IH; exact HS|].
  rewrite Forall_forall in *. intros x Hx. apply filter_In in Hx. apply HF. tauto.
Qed.

Lemma ss_map_filter : forall (p : idx -> bool) l,
  StronglySorted Z.lt (map x_key l) -> StronglySorted Z.lt (map x_key (filter p l)).
Proof.
  induction l as [|h l IH]; intros H; cbn [filter map]; [constructor|].
  cbn [map] in H. inversion H as [|? ? HS HF]; subst.
  destruct (p h); [|apply IH; exact HS].
  cbn [map]. constructor; [apply IH; exact HS|].
  rewrite Forall_forall in *. intros x Hx. apply in_map_iff in Hx.
  destruct Hx as (y & <- & Hy). apply filter_In in Hy. apply HF.
  apply in_map. tauto.
Qed.

Lemma ss_inj : forall l x y,
  StronglySorted Z.lt (map x_key l) -> In x l -> In y l -> x_key x = x_key y -> x = y.
Proof.
  induction l as [|h l IH]; intros x y H Hx Hy E; [destruct Hx|].
  cbn [map] in H. inversion H as [|? ? HS HF]; subst.
  rewrite Forall_forall in HF.
  destruct Hx as [<-|Hx], Hy as [<-|Hy].
  - reflexivity.
  - specialize (HF (x_key y) (in_map _ _ _ Hy)). lia.
  - specialize (HF (x_key x) (in_map _ _ _ Hx)). lia.
  - apply IH; assumption.
Qed.

Lemma find_some : forall k l x, find k l = Some x -> In x l /\ x_key x = k.
Proof.
  induction l as [|h l IH]; intros x H; cbn [find] in H; [discriminate|].
  destruct (x_key h =? k) eqn:E.
  - injection H as <-. split; [left; reflexivity|lia].
  - destruct (IH x H) as [A B]. split; [right; exact A|exact B].
Qed.

Lemma find_none : forall k l x, find k l = None -> In x l -> x_key x <> k.
Proof.
  induction l as [|h l IH]; intros x H Hx; cbn [find] in H; [destruct Hx|].
  destruct (x_key h =? k) eqn:E; [discriminate|].
  destruct Hx as [<-|Hx]; [lia|apply IH; assumption].
Qed.

Lemma find_in : forall k l x,
  StronglySorted Z.lt (map x_key l) -> In x l -> x_key x = k -> find k l = Some x.
Proof.
  intros k l x HS Hx E. destruct (find k l) as [y|] eqn:F.
  - apply find_some in F. destruct F as [A B]. f_equal.
    eapply ss_inj; [exact HS|exact A|exact Hx|congruence].
  - exfalso. eapply find_none; [exact F|exact Hx|exact E].
Qed.

Lemma first_ge_some : forall k l x,
  StronglySorted Z.lt (map x_key l) -> first_ge k l = Some x ->
  In x l /\ k <= x_key x /\ forall y, In y l -> k <= x_key y -> x_key x <= x_key y.
Proof.
  induction l as [|h l IH]; intros x HS H; cbn [first_ge] in H; [discriminate|].
  cbn [map] in HS. inversion HS as [|? ? HS' HF]; subst.
  rewrite Forall_forall in HF.
  destruct (k <=? x_key h) eqn:E.
  - injection H as <-. repeat split; [left; reflexivity|lia|].
    intros y [<-|Hy] _; [lia|]. specialize (HF _ (in_map _ _ _ Hy)). lia.
  - destruct (IH x HS' H) as (A & B & C). repeat split; [right; exact A|exact B|].
    intros y [<-|Hy] L; [lia|apply C; assumption].
Qed.

Lemma first_ge_none : forall k l y,
  first_ge k l = None -> In y l -> x_key y < k.
Proof.
  induction l as [|h l IH]; intros y H Hy; cbn [first_ge] in H; [destruct Hy|].
  destruct (k <=? x_key h) eqn:E; [discriminate|].
  destruct Hy as [<-|Hy]; [lia|apply IH; assumption].
Qed.

Lemma before_spec : forall k l prev,
  StronglySorted Z.lt l -> In k l ->
  (forall p, prev = Some p -> forall y, In y l -> p < y) ->
  match before k prev l with
  | Some p => (In p l \/ prev = Some p) /\ p < k /\ forall y, In y l -> y < k -> y <= p
  | None => prev = None /\ forall y, In y l -> k <= y
  end.
Proof.
  induction l as [|a l IH]; intros prev HS Hk HP; [destruct Hk|].
  inversion HS as [|? ? HS' HF]; subst. rewrite Forall_forall in HF.
  cbn [before]. destruct (a =? k) eqn:E.
  - assert (a = k) by lia. subst a. destruct prev as [p|].
    + repeat split; [right; reflexivity| |].
      * eapply HP; [reflexivity|left; reflexivity].
      * intros y [<-|Hy] L; [lia|]. specialize (HF _ Hy). lia.
    + split; [reflexivity|]. intros y [<-|Hy]; [lia|]. specialize (HF _ Hy). lia.
  - destruct Hk as [Hk|Hk]; [lia|].
    assert (HP' : forall p, Some a = Some p -> forall y, In y l -> p < y).
    { intros p Hp y Hy. injection Hp as <-. apply HF. exact Hy. }
    pose proof (IH (Some a) HS' Hk HP') as I.
    destruct (before k (Some a) l) as [p|].
    + destruct I as (A & B & C). repeat split.
      * destruct A as [A|A]; [left; right; exact A|]. injection A as <-.
        left; left; reflexivity.
      * exact B.
      * intros y [<-|Hy] L; [|apply C; assumption].
        destruct A as [A|A]; [specialize (HF _ A); lia|injection A as <-; lia].
    + destruct I as (A & _). discriminate A.
Qed.

Lemma ins_pos_spec : forall k l,
  StronglySorted Z.lt l ->
  let '(p, q) := ins_pos k l in
  l = p ++ q /\ (forall a, In a p -> a < k) /\ (forall a, In a q -> k <= a).
Proof.
  induction l as [|a l IH]; intros HS; cbn [ins_pos].
  - repeat split; intros a [].
  - inversion HS as [|? ? HS' HF]; subst. rewrite Forall_forall in HF.
    specialize (IH HS'). destruct (ins_pos k l) as [p q].
    destruct IH as (E & A & B). destruct p as [|h p].
    + cbn [app] in E. subst q. destruct (a <? k) eqn:L.
      * repeat split; [|exact B]. intros b [<-|[]]. lia.
      * repeat split; [intros b []|]. intros b [<-|Hb]; [lia|apply B; exact Hb].
    + repeat split; [cbn [app] in *; congruence| |exact B].
      intros b [<-|Hb]; [|apply A; exact Hb].
      assert (In h l) by (rewrite E; left; reflexivity).
      specialize (HF _ H). specialize (A h (or_introl eq_refl)). lia.
Qed.

Lemma last_idx_some : forall l x, last_idx l = Some x -> exists r, l = r ++ [x].
Proof.
  intros l x H. unfold last_idx in H. destruct (rev l) as [|h r] eqn:E; [discriminate|].
  injection H as ->. exists (rev r). rewrite <- (rev_involutive l), E. reflexivity.
Qed.

(* ------------------------------------------------------------------ *)
(* The indexes                                                          *)

Lemma upd_all : forall k f s,
  s_all (upd k f s) = map (fun x => if x_key x =? k then f x else x) (s_all s).
Proof. reflexivity. Qed.

Lemma map_key : forall (f : idx -> idx) l,
  (forall x, In x l -> x_key (f x) = x_key x) -> map x_key (map f l) = map x_key l.
Proof.
  intros f l H. rewrite map_map. apply map_ext_in. intros x Hx. apply H. exact Hx.
Qed.

Lemma upd_key : forall k (f : idx -> idx) l,
  (forall x, x_key (f x) = x_key x) ->
  map x_key (map (fun x => if x_key x =? k then f x else x) l) = map x_key l.
Proof.
  intros k f l H. apply map_key. intros x _. cbn beta.
  destruct (x_key x =? k); [apply H|reflexivity].
Qed.

(* ------------------------------------------------------------------ *)
(* The invariant                                                        *)

(* Nothing that is held and not after m waits for its media file. *)
Definition covered (s : st) (m : Z) : Prop :=
  m <= s_top s /\
  forall y, In y (s_all s) -> x_key y <= m -> x_per y <> PNone.

Record inv (c : conf) (N : Z) (s : st) : Prop := {
  v_sort : StronglySorted Z.lt (map x_key (s_all s));
  v_psort : StronglySorted Z.lt (s_pend s);
  v_pin : forall k, In k (s_pend s) <->
            exists x, In x (s_all s) /\ x_key x = k /\ x_per x = PNone;
  v_dsort : StronglySorted Z.lt (s_done s);
  v_din : forall k, In k (s_done s) <->
            exists x, In x (s_all s) /\ x_key x = k /\ x_per x <> PNone;
  v_top : forall x, In x (s_all s) -> c_init c <= x_key x <= s_top s;
  v_init : c_init c <= s_min s /\ c_init c <= N /\ c_init c - 1 <= s_top s < 4294967295;
  v_bad : forall x, In x (s_all s) -> x_bad x = false;
  v_snap : forall x n, In x (s_all s) -> x_snap x = Some n ->
             x_per x = PNone /\ x_key x <= sn_max n <= s_top s /\
             forall y, In y (s_all s) -> x_key x < x_key y <= sn_max n ->
               x_per y <> PNone;
  v_uni : forall x y, In x (s_all s) -> In y (s_all s) ->
            x_key x / c_bucket c = x_key y / c_bucket c ->
            x_per x = PNone -> x_per y = PNone;
  v_late : forall x, In x (s_all s) -> x_per x <> PNone ->
             x_key x / c_bucket c * c_bucket c + c_bucket c <= N;
  v_cw : forall x b, In x (s_all s) -> In (CWrite b) (x_cln x) ->
           b * c_bucket c + c_bucket c <= N;
  v_bucket : forall b, s_bucket s = Some b -> b * c_bucket c < N;
  v_last : forall l, s_last s = Some l -> l < N;
  v_low : forall f, In (EStart f) (s_out s) -> covered s (fi_max f);
  v_wr : forall f, s_wr s = Some f -> In (EStart f) (s_out s) /\ s_wfr s <> None;
  v_nowr : s_wr s = None -> s_wfr s = None /\ s_psnap s = None;
  v_ps : forall n, s_psnap s = Some n ->
           covered s (sn_max n) /\
           forall f, In (EStart f) (s_out s) -> fi_max f < sn_max n;
  v_ub : s_ub s = false
}.

(* Changes that the invariant does not see. *)
Record soft (s s' : st) : Prop := {
  f_all : s_all s' = s_all s;
  f_pend : s_pend s' = s_pend s;
  f_done : s_done s' = s_done s;
  f_last : s_last s' = s_last s;
  f_next : s_next s' = s_next s;
  f_min : s_min s' = s_min s;
  f_top : s_top s' = s_top s;
  f_bucket : s_bucket s' = s_bucket s;
  f_wr : s_wr s' = s_wr s;
  f_wfr : s_wfr s' = None <-> s_wfr s = None;
  f_ps : option_map sn_max (s_psnap s') = option_map sn_max (s_psnap s);
  f_out : forall f, In (EStart f) (s_out s') <-> In (EStart f) (s_out s);
  f_ub : s_ub s' = s_ub s
}.

Lemma soft_refl : forall s, soft s s.
Proof. intros s. split; reflexivity. Qed.

Lemma soft_trans : forall a b d, soft a b -> soft b d -> soft a d.
Proof.
  intros a b d [] []. split; try congruence.
  - rewrite f_wfr1. exact f_wfr0.
  - intros f. rewrite f_out1. apply f_out0.
Qed.

Lemma soft_inv : forall c N s s', soft s s' -> inv c N s -> inv c N s'.
Proof.
  intros c N s s' [] [].
  assert (EC : forall m, covered s m -> covered s' m).
  { intros m [A B]. unfold covered. rewrite f_all0, f_top0. split; assumption. }
  split; try (rewrite ?f_all0, ?f_pend0, ?f_done0, ?f_top0, ?f_min0, ?f_bucket0,
    ?f_last0, ?f_ub0; assumption).
  - intros f Hf. apply EC, v_low0, f_out0. exact Hf.
  - intros f Hf. rewrite f_wr0 in Hf. destruct (v_wr0 f Hf) as [A B].
    split; [apply f_out0; exact A|]. intros E. apply B, f_wfr0. exact E.
  - intros E. rewrite f_wr0 in E. destruct (v_nowr0 E) as [A B].
    split; [apply f_wfr0; exact A|]. rewrite B in f_ps0.
    destruct (s_psnap s'); [discriminate f_ps0|reflexivity].
  - intros n E. rewrite E in f_ps0. destruct (s_psnap s) as [p|] eqn:EP;
      [|discriminate f_ps0].
    cbn [option_map] in f_ps0. injection f_ps0 as E1.
    destruct (v_ps0 p eq_refl) as [A B]. rewrite E1. split; [apply EC; exact A|].
    intros f Hf. apply B, f_out0. exact Hf.
Qed.

(* The small changes. *)

Lemma soft_emit : forall s e, (forall f, e <> EStart f) -> soft s (emit s e).
Proof.
  intros s e He. split; try reflexivity.
  intros f. cbn [emit s_out In]. split; [|tauto].
  intros [E|E]; [destruct (He f E)|exact E].
Qed.

Lemma soft_ff : forall s, soft s (frames_free s).
Proof.
  intros s. unfold frames_free. destruct (s_snaps s <=? 0); [apply soft_refl|].
  split; reflexivity.
Qed.

Lemma soft_ack : forall s f, soft s (frames_ack s f).
Proof.
  intros s f. eapply soft_trans; [apply soft_emit|apply soft_ff].
  intros g. discriminate.
Qed.

Lemma soft_drop : forall s f, soft s (frames_drop s f).
Proof.
  intros s f. eapply soft_trans; [apply soft_emit|apply soft_ff].
  intros g. discriminate.
Qed.

Lemma soft_close_free : forall s n, soft s (close_free s n).
Proof. intros s n. apply soft_drop. Qed.

Lemma soft_close_ack : forall c N s n, inv c N s -> soft s (close_ack s n).
Proof.
  intros c N s n HI. unfold close_ack.
  destruct (s_psnap s) as [p|] eqn:EP.
  - destruct (soft_drop s (sn_fr p)) as [A1 A2 A3 A4 A5 A6 A7 A8 A9 A10 A11 A12 A13].
    split; cbn [set_psnap s_all s_pend s_done s_last s_next s_min s_top s_bucket
      s_wr s_wfr s_psnap s_out s_ub]; try assumption.
    rewrite EP. reflexivity.
  - destruct (s_wr s) as [w|] eqn:EW; [|apply soft_ack].
    destruct (s_wfr s) as [f|] eqn:EF.
    2:{ exfalso. destruct (v_wr _ _ _ HI w EW) as [_ B]. apply B. exact EF. }
    destruct (soft_drop s f) as [A1 A2 A3 A4 A5 A6 A7 A8 A9 A10 A11 A12 A13].
    split; cbn [set_write s_all s_pend s_done s_last s_next s_min s_top s_bucket
      s_wr s_wfr s_psnap s_out s_ub]; try assumption.
    + symmetry. exact EW.
    + rewrite EF. split; discriminate.
Qed.

Lemma soft_truncate : forall s t, soft s (truncate s t).
Proof.
  intros s t. unfold truncate. destruct (t =? 0); [apply soft_refl|].
  apply soft_emit. intros f. discriminate.
Qed.

Lemma soft_pop : forall s, soft s (snd (pop s)).
Proof.
  intros s. unfold pop. destruct (s_orc s); [apply soft_refl|].
  split; reflexivity.
Qed.

Lemma soft_hist : forall s h v, soft s (set_hist s h v).
Proof. intros s h v. split; reflexivity. Qed.

Lemma soft_snaps : forall s n, soft s (set_snaps s n).
Proof. intros s n. split; reflexivity. Qed.

(* ------------------------------------------------------------------ *)
(* The indexes change, the rest does not                                *)

(* The indexes of the new list were there before, and have the same key and
   result; cleanup entries do not come, and a snapshot is an old one. *)
Record shrinks (s s' : st) : Prop := {
  h_in : forall y, In y (s_all s') -> exists x, In x (s_all s) /\
           x_key y = x_key x /\ x_per y = x_per x /\ x_bad y = x_bad x /\
           (x_snap y = x_snap x \/ x_snap y = None) /\
           incl (x_cln y) (x_cln x);
  h_sort : StronglySorted Z.lt (map x_key (s_all s'));
  h_psort : StronglySorted Z.lt (s_pend s');
  h_dsort : StronglySorted Z.lt (s_done s');
  h_pend : forall k, In k (s_pend s') <->
             In k (s_pend s) /\ In k (map x_key (s_all s'));
  h_done : forall k, In k (s_done s') <->
             In k (s_done s) /\ In k (map x_key (s_all s'));
  h_last : s_last s' = s_last s;
  h_min : s_min s' = s_min s;
  h_top : s_top s' = s_top s;
  h_bucket : s_bucket s' = s_bucket s;
  h_wr : s_wr s' = s_wr s;
  h_wfr : s_wfr s' = s_wfr s;
  h_ps : s_psnap s' = s_psnap s;
  h_out : forall f, In (EStart f) (s_out s') <-> In (EStart f) (s_out s);
  h_ub : s_ub s' = s_ub s
}.

Lemma shrinks_inv : forall c N s s', shrinks s s' -> inv c N s -> inv c N s'.
Proof.
  intros c N s s' [] [].
  assert (EC : forall m, covered s m -> covered s' m).
  { intros m [A B]. unfold covered. rewrite h_top0. split; [exact A|].
    intros y Hy L. destruct (h_in0 y Hy) as (x & Hx & E1 & E2 & _).
    rewrite E2. apply B; [exact Hx|lia]. }
  split; try assumption.
  - intros k. rewrite h_pend0, v_pin0. split.
    + intros ((x & Hx & E1 & E2) & Hk). apply in_map_iff in Hk.
      destruct Hk as (y & Ey & Hy). exists y. split; [exact Hy|]. split; [exact Ey|].
      destruct (h_in0 y Hy) as (x' & Hx' & E1' & E2' & _).
      assert (x' = x) by (eapply ss_inj; [exact v_sort0|exact Hx'|exact Hx|lia]).
      subst x'. congruence.
    + intros (y & Hy & E1 & E2). destruct (h_in0 y Hy) as (x & Hx & E1' & E2' & _).
      split; [|apply in_map_iff; exists y; split; assumption].
      exists x. split; [exact Hx|]. split; congruence.
  - intros k. rewrite h_done0, v_din0. split.
    + intros ((x & Hx & E1 & E2) & Hk). apply in_map_iff in Hk.
      destruct Hk as (y & Ey & Hy). exists y. split; [exact Hy|]. split; [exact Ey|].
      destruct (h_in0 y Hy) as (x' & Hx' & E1' & E2' & _).
      assert (x' = x) by (eapply ss_inj; [exact v_sort0|exact Hx'|exact Hx|lia]).
      subst x'. congruence.
    + intros (y & Hy & E1 & E2). destruct (h_in0 y Hy) as (x & Hx & E1' & E2' & _).
      split; [|apply in_map_iff; exists y; split; assumption].
      exists x. split; [exact Hx|]. split; congruence.
  - intros y Hy. destruct (h_in0 y Hy) as (x & Hx & E1 & _). rewrite h_top0, E1.
    apply v_top0. exact Hx.
  - rewrite h_min0, h_top0. exact v_init0.
  - intros y Hy. destruct (h_in0 y Hy) as (x & Hx & _ & _ & E & _). rewrite E.
    apply v_bad0. exact Hx.
  - intros y n Hy E. destruct (h_in0 y Hy) as (x & Hx & E1 & E2 & _ & ES & _).
    destruct ES as [ES|ES]; [|congruence].
    rewrite ES in E. destruct (v_snap0 x n Hx E) as (A & B & C).
    rewrite E1, E2, h_top0. split; [exact A|]. split; [exact B|].
    intros z Hz L. destruct (h_in0 z Hz) as (z' & Hz' & F1 & F2 & _).
    rewrite F2. apply C; [exact Hz'|lia].
  - intros y z Hy Hz E P. destruct (h_in0 y Hy) as (x & Hx & E1 & E2 & _).
    destruct (h_in0 z Hz) as (z' & Hz' & F1 & F2 & _).
    rewrite F2. apply (v_uni0 x z' Hx Hz'); congruence.
  - intros y Hy P. destruct (h_in0 y Hy) as (x & Hx & E1 & E2 & _).
    rewrite E1. apply v_late0; [exact Hx|congruence].
  - intros y b Hy Hb. destruct (h_in0 y Hy) as (x & Hx & _ & _ & _ & _ & EC').
    apply (v_cw0 x b Hx). apply EC'. exact Hb.
  - rewrite h_bucket0. exact v_bucket0.
  - rewrite h_last0. exact v_last0.
  - intros f Hf. apply EC, v_low0, h_out0. exact Hf.
  - intros f Hf. rewrite h_wr0 in Hf. destruct (v_wr0 f Hf) as [A B].
    rewrite h_wfr0. split; [apply h_out0; exact A|exact B].
  - rewrite h_wr0, h_wfr0, h_ps0. exact v_nowr0.
  - intros n E. rewrite h_ps0 in E. destruct (v_ps0 n E) as [A B].
    split; [apply EC; exact A|]. intros f Hf. apply B, h_out0. exact Hf.
  - rewrite h_ub0. exact v_ub0.
Qed.

(* A field that the invariant does not see is set in the indexes. *)
Lemma map_shrinks : forall c N s (g : idx -> idx),
  inv c N s ->
  (forall x, In x (s_all s) ->
     x_key (g x) = x_key x /\ x_per (g x) = x_per x /\ x_bad (g x) = false /\
     (x_snap (g x) = x_snap x \/ x_snap (g x) = None) /\
     incl (x_cln (g x)) (x_cln x)) ->
  shrinks s (set_all s (map g (s_all s))).
Proof.
  intros c N s g HI HG.
  assert (EK : map x_key (map g (s_all s)) = map x_key (s_all s)).
  { apply map_key. intros x Hx. apply (HG x Hx). }
  destruct HI as [].
  split; cbn [set_all s_all s_pend s_done s_last s_min s_top s_bucket s_wr s_wfr
    s_psnap s_out s_ub]; try reflexivity; try assumption.
  - intros y Hy. apply in_map_iff in Hy. destruct Hy as (x & <- & Hx).
    exists x. split; [exact Hx|]. destruct (HG x Hx) as (A & B & C & D & E).
    rewrite C. split; [exact A|]. split; [exact B|].
    split; [symmetry; apply v_bad0; exact Hx|]. split; assumption.
  - rewrite EK. exact v_sort0.
  - intros k. rewrite EK. split; [|tauto]. intros Hk. split; [exact Hk|].
    apply v_pin0 in Hk. destruct Hk as (x & Hx & <- & _). apply in_map. exact Hx.
  - intros k. rewrite EK. split; [|tauto]. intros Hk. split; [exact Hk|].
    apply v_din0 in Hk. destruct Hk as (x & Hx & <- & _). apply in_map. exact Hx.
Qed.

Lemma drop_key_in : forall k a l, In a (drop_key k l) <-> In a l /\ a <> k.
Proof.
  intros k a l. unfold drop_key. rewrite filter_In. split; intros [A B];
    (split; [exact A|lia]).
Qed.

Lemma remove_shrinks : forall c N s k, inv c N s -> shrinks s (remove k s).
Proof.
  intros c N s k [].
  assert (EK : forall a, In a (map x_key (s_all (remove k s))) <->
    In a (map x_key (s_all s)) /\ a <> k).
  { intros a. cbn [remove set_queues set_all s_all]. rewrite !in_map_iff. split.
    - intros (x & E & Hx). apply filter_In in Hx. destruct Hx as [Hx Hk].
      split; [exists x; tauto|lia].
    - intros ((x & E & Hx) & Hk). exists x. split; [exact E|].
      apply filter_In. split; [exact Hx|lia]. }
  split; try reflexivity.
  - intros y Hy. cbn [remove set_queues set_all s_all] in Hy.
    apply filter_In in Hy. destruct Hy as [Hy _]. exists y.
    split; [exact Hy|]. repeat split; try reflexivity; [left; reflexivity|].
    apply incl_refl.
  - cbn [remove set_queues set_all s_all]. apply ss_map_filter. exact v_sort0.
  - cbn [remove set_queues set_all s_pend]. apply ss_filter. exact v_psort0.
  - cbn [remove set_queues set_all s_done]. apply ss_filter. exact v_dsort0.
  - intros a. rewrite EK. cbn [remove set_queues set_all s_pend].
    rewrite drop_key_in. split; [|tauto]. intros [A B]. split; [exact A|].
    split; [|exact B]. apply v_pin0 in A. destruct A as (x & Hx & <- & _).
    apply in_map. exact Hx.
  - intros a. rewrite EK. cbn [remove set_queues set_all s_done].
    rewrite drop_key_in. split; [|tauto]. intros [A B]. split; [exact A|].
    split; [|exact B]. apply v_din0 in A. destruct A as (x & Hx & <- & _).
    apply in_map. exact Hx.
Qed.

Lemma upd_shrinks : forall c N s k (f : idx -> idx),
  inv c N s ->
  (forall x, In x (s_all s) -> x_key x = k ->
     x_key (f x) = x_key x /\ x_per (f x) = x_per x /\ x_bad (f x) = false /\
     (x_snap (f x) = x_snap x \/ x_snap (f x) = None) /\
     incl (x_cln (f x)) (x_cln x)) ->
  shrinks s (upd k f s).
Proof.
  intros c N s k f HI HF. unfold upd. eapply map_shrinks; [exact HI|].
  intros x Hx. cbn beta. destruct (x_key x =? k) eqn:E.
  - apply HF; [exact Hx|lia].
  - repeat split; try reflexivity; [apply (v_bad _ _ _ HI x Hx)|left; reflexivity|].
    apply incl_refl.
Qed.

Lemma unlock_shrinks : forall c N s p, inv c N s -> shrinks s (unlock p s).
Proof.
  intros c N s p HI. unfold unlock. eapply map_shrinks; [exact HI|].
  intros x Hx. cbn [idx_cln x_key x_per x_bad x_snap x_cln].
  repeat split; try reflexivity; [apply (v_bad _ _ _ HI x Hx)|left; reflexivity|].
  intros e He. apply filter_In in He. tauto.
Qed.

(* ------------------------------------------------------------------ *)
(* Freeing                                                              *)

(* What freeing does to the indexes: nothing comes, and no result changes. *)
Definition fewer (s s' : st) : Prop :=
  s_top s' = s_top s /\ s_min s' = s_min s /\ s_next s' = s_next s /\
  (forall f, In (EStart f) (s_out s') <-> In (EStart f) (s_out s)) /\
  option_map sn_max (s_psnap s') = option_map sn_max (s_psnap s) /\
  s_wr s' = s_wr s /\
  forall y, In y (s_all s') -> exists x, In x (s_all s) /\
    x_key y = x_key x /\ x_per y = x_per x /\
    (x_snap y = x_snap x \/ x_snap y = None).

Lemma fewer_refl : forall s, fewer s s.
Proof.
  intros s. repeat split; try reflexivity; try tauto.
  intros y Hy. exists y. repeat split; try reflexivity; [exact Hy|left; reflexivity].
Qed.

Lemma fewer_trans : forall a b d, fewer a b -> fewer b d -> fewer a d.
Proof.
  intros a b d (A1 & A2 & A3 & A4 & A5 & A6 & A7) (B1 & B2 & B3 & B4 & B5 & B6 & B7).
  repeat split; try congruence.
  - intros H. apply A4, B4. exact H.
  - intros H. apply B4, A4. exact H.
  - intros y Hy. destruct (B7 y Hy) as (x & Hx & E1 & E2 & E3).
    destruct (A7 x Hx) as (z & Hz & F1 & F2 & F3).
    exists z. split; [exact Hz|]. split; [congruence|]. split; [congruence|].
    destruct E3 as [E3|E3]; [|right; exact E3].
    destruct F3 as [F3|F3]; [left|right]; congruence.
Qed.

Lemma soft_fewer : forall s s', soft s s' -> fewer s s'.
Proof.
  intros s s' []. repeat split; try assumption; try apply f_out0.
  intros y Hy. exists y. rewrite f_all0 in Hy.
  repeat split; try reflexivity; [exact Hy|left; reflexivity].
Qed.

Lemma shrinks_fewer : forall s s', shrinks s s' -> s_next s' = s_next s -> fewer s s'.
Proof.
  intros s s' [] HN. repeat split; try assumption; try apply h_out0; try congruence.
  intros y Hy. destruct (h_in0 y Hy) as (x & Hx & E1 & E2 & _ & E3 & _).
  exists x. repeat split; assumption.
Qed.

Lemma free_idx_ok : forall c N nf s t k,
  inv c N s -> In k (map x_key (s_all s)) ->
  let '(s', t') := free_idx nf s t k in
  inv c N s' /\ fewer s s' /\ s_last s' = s_last s /\
  (forall a, In a (map x_key (s_all s)) -> a <> k -> In a (map x_key (s_all s'))).
Proof.
  intros c N nf s t k HI HK. unfold free_idx.
  destruct nf.
  { split; [exact HI|]. split; [apply fewer_refl|]. split; [reflexivity|].
    intros a Ha _. exact Ha. }
  destruct (find k (s_all s)) as [x|] eqn:EF.
  2:{ apply in_map_iff in HK. destruct HK as (y & E & Hy). exfalso.
      eapply find_none; [exact EF|exact Hy|exact E]. }
  apply find_some in EF. destruct EF as [Hx EX].
  pose proof (v_bad _ _ _ HI x Hx) as EB. rewrite EB.
  (* marked as free *)
  set (s1 := if x_free x then s else emit (upd k idx_free s) (EFree k)).
  assert (H1 : inv c N s1 /\ fewer s s1 /\ s_last s1 = s_last s /\
    map x_key (s_all s1) = map x_key (s_all s)).
  { unfold s1. destruct (x_free x).
    { split; [exact HI|]. split; [apply fewer_refl|]. split; reflexivity. }
    assert (S : shrinks s (upd k idx_free s)).
    { eapply upd_shrinks; [exact HI|]. intros y Hy _.
      cbn [idx_free x_key x_per x_bad x_snap x_cln].
      repeat split; try reflexivity; [apply (v_bad _ _ _ HI y Hy)|left; reflexivity|].
      apply incl_refl. }
    assert (E : soft (upd k idx_free s) (emit (upd k idx_free s) (EFree k)))
      by (apply soft_emit; intros f; discriminate).
    split; [eapply soft_inv; [exact E|]; eapply shrinks_inv; [exact S|exact HI]|].
    split; [eapply fewer_trans; [apply shrinks_fewer; [exact S|reflexivity]|
      apply soft_fewer; exact E]|].
    split; [reflexivity|]. cbn [emit s_all]. rewrite upd_all. apply upd_key.
    intros y. reflexivity. }
  destruct H1 as (I1 & F1 & L1 & K1).
  (* the snapshot is closed *)
  set (s2 := match x_snap x with
             | Some n => upd k (idx_snap None) (close_ack s1 n)
             | None => s1
             end).
  assert (H2 : inv c N s2 /\ fewer s1 s2 /\ s_last s2 = s_last s1 /\
    map x_key (s_all s2) = map x_key (s_all s1)).
  { unfold s2. destruct (x_snap x) as [n|].
    2:{ split; [exact I1|]. split; [apply fewer_refl|]. split; reflexivity. }
    pose proof (soft_close_ack c N s1 n I1) as SA.
    pose proof (soft_inv _ _ _ _ SA I1) as I1'.
    assert (S : shrinks (close_ack s1 n) (upd k (idx_snap None) (close_ack s1 n))).
    { eapply upd_shrinks; [exact I1'|]. intros y Hy _.
      cbn [idx_snap x_key x_per x_bad x_snap x_cln].
      repeat split; try reflexivity; [right; reflexivity|apply incl_refl]. }
    split; [eapply shrinks_inv; [exact S|exact I1']|].
    split; [eapply fewer_trans; [apply soft_fewer; exact SA|
      apply shrinks_fewer; [exact S|reflexivity]]|].
    split; [exact (f_last _ _ SA)|].
    rewrite upd_all. rewrite upd_key by reflexivity. rewrite (f_all _ _ SA).
    reflexivity. }
  destruct H2 as (I2 & F2 & L2 & K2).
  assert (F02 : fewer s s2) by (eapply fewer_trans; eassumption).
  destruct (x_cln x) as [|e r] eqn:EC.
  - pose proof (remove_shrinks c N s2 k I2) as S.
    split; [eapply shrinks_inv; [exact S|exact I2]|].
    split; [eapply fewer_trans; [exact F02|apply shrinks_fewer;
      [exact S|reflexivity]]|].
    split; [change (s_last (remove k s2)) with (s_last s2); congruence|].
    intros a Ha Hn. rewrite <- K1, <- K2 in Ha.
    apply in_map_iff in Ha. destruct Ha as (y & E & Hy).
    apply in_map_iff. exists y. split; [exact E|].
    cbn [remove set_queues set_all s_all]. apply filter_In. split; [exact Hy|lia].
  - split; [exact I2|]. split; [exact F02|]. split; [congruence|].
    intros a Ha _. rewrite K2, K1. exact Ha.
Qed.

Lemma free_upto_ok : forall c N nf lim ks s t,
  inv c N s -> NoDup ks -> (forall k, In k ks -> In k (map x_key (s_all s))) ->
  let '(s', t') := free_upto nf lim ks s t in
  inv c N s' /\ fewer s s' /\ s_last s' = s_last s /\
  (forall a, In a (map x_key (s_all s)) -> ~ In a ks -> In a (map x_key (s_all s'))).
Proof.
  intros c N nf lim. induction ks as [|k r IH]; intros s t HI HN HK; cbn [free_upto].
  - split; [exact HI|]. split; [apply fewer_refl|]. split; [reflexivity|].
    intros a Ha _. exact Ha.
  - destruct (lim <? k).
    { split; [exact HI|]. split; [apply fewer_refl|]. split; [reflexivity|].
      intros a Ha _. exact Ha. }
    pose proof (free_idx_ok c N nf s t k HI (HK k (or_introl eq_refl))) as H.
    destruct (free_idx nf s t k) as [s1 t1]. destruct H as (I1 & F1 & L1 & K1).
    inversion HN as [|? ? HN1 HN2]; subst.
    assert (HK1 : forall a, In a r -> In a (map x_key (s_all s1))).
    { intros a Ha. apply K1; [apply HK; right; exact Ha|].
      intros ->. apply HN1. exact Ha. }
    pose proof (IH s1 t1 I1 HN2 HK1) as H.
    destruct (free_upto nf lim r s1 t1) as [s2 t2]. destruct H as (I2 & F2 & L2 & K2).
    split; [exact I2|]. split; [eapply fewer_trans; eassumption|].
    split; [congruence|].
    intros a Ha Hn. apply K2.
    + apply K1; [exact Ha|]. intros ->. apply Hn. left. reflexivity.
    + intros H. apply Hn. right. exact H.
Qed.

Lemma ss_nodup : forall l, StronglySorted Z.lt l -> NoDup l.
Proof.
  induction l as [|a l IH]; intros H; [constructor|].
  inversion H as [|? ? HS HF]; subst. constructor; [|apply IH; exact HS].
  intros Ha. rewrite Forall_forall in HF. specialize (HF a Ha). lia.
Qed.

Lemma free_non_forced_ok : forall c N nf s,
  inv c N s ->
  inv c N (free_non_forced c nf s) /\ fewer s (free_non_forced c nf s) /\
  s_last (free_non_forced c nf s) = s_last s /\
  (forall a, In a (s_pend s) -> In a (map x_key (s_all (free_non_forced c nf s)))).
Proof.
  intros c N nf s HI. unfold free_non_forced.
  assert (HP : forall a, In a (s_pend s) -> In a (map x_key (s_all s))).
  { intros a Ha. apply (v_pin _ _ _ HI) in Ha. destruct Ha as (x & Hx & <- & _).
    apply in_map. exact Hx. }
  destruct (s_last s) as [l|] eqn:EL.
  2:{ split; [exact HI|]. split; [apply fewer_refl|]. split; [exact EL|exact HP]. }
  destruct (l <? c_force c).
  { split; [exact HI|]. split; [apply fewer_refl|]. split; [exact EL|exact HP]. }
  assert (HD : forall k, In k (s_done s) -> In k (map x_key (s_all s))).
  { intros a Ha. apply (v_din _ _ _ HI) in Ha. destruct Ha as (x & Hx & <- & _).
    apply in_map. exact Hx. }
  pose proof (free_upto_ok c N nf (l - c_force c) (s_done s) s 0 HI
    (ss_nodup _ (v_dsort _ _ _ HI)) HD) as H.
  destruct (free_upto nf (l - c_force c) (s_done s) s 0) as [s' t].
  destruct H as (I1 & F1 & L1 & K1).
  pose proof (soft_truncate s' t) as ST.
  split; [eapply soft_inv; [exact ST|exact I1]|].
  split; [eapply fewer_trans; [exact F1|apply soft_fewer; exact ST]|].
  split; [rewrite (f_last _ _ ST); congruence|].
  intros a Ha. rewrite (f_all _ _ ST). apply K1; [apply HP; exact Ha|].
  intros Hd. apply (v_pin _ _ _ HI) in Ha. apply (v_din _ _ _ HI) in Hd.
  destruct Ha as (x & Hx & E1 & E2), Hd as (y & Hy & E3 & E4).
  assert (x = y) by (eapply ss_inj; [apply (v_sort _ _ _ HI)|exact Hx|exact Hy|congruence]).
  subst y. contradiction.
Qed.

(* ------------------------------------------------------------------ *)
(* Starting the write of a snapshot                                     *)

(* A snapshot that may be written. *)
Definition fit_snap (s : st) (n : isnap) : Prop :=
  covered s (sn_max n) /\
  (forall f, In (EStart f) (s_out s) -> fi_max f < sn_max n) /\
  (forall p, s_psnap s = Some p -> sn_max p < sn_max n).

Lemma fit_snap_fewer : forall s s' n, fewer s s' -> fit_snap s n -> fit_snap s' n.
Proof.
  intros s s' n (A1 & A2 & A3 & A4 & A5 & A6 & A7) ([B1 B2] & B3 & B4). split; [|split].
  - split; [rewrite A1; exact B1|]. intros y Hy L.
    destruct (A7 y Hy) as (x & Hx & E1 & E2 & _). rewrite E2. apply B2; [exact Hx|lia].
  - intros f Hf. apply B3, A4. exact Hf.
  - intros p Hp. rewrite Hp in A5. destruct (s_psnap s) as [q|]; [|discriminate A5].
    cbn [option_map] in A5. injection A5 as A5. rewrite A5. apply B4. reflexivity.
Qed.

(* Nothing in the indexes or the queues changes. *)
Definition same_idx (s s' : st) : Prop :=
  s_all s' = s_all s /\ s_pend s' = s_pend s /\ s_done s' = s_done s /\
  s_last s' = s_last s /\ s_next s' = s_next s /\ s_min s' = s_min s /\
  s_top s' = s_top s /\ s_bucket s' = s_bucket s.

Lemma soft_same : forall s s', soft s s' -> same_idx s s'.
Proof. intros s s' []. repeat split; assumption. Qed.

Lemma close_write_ok : forall c N s n,
  inv c N s -> fit_snap s n ->
  inv c N (close_write c s n) /\ same_idx s (close_write c s n).
Proof.
  intros c N s n HI (HC & HF & HP). unfold close_write.
  destruct (s_wr s) as [w|] eqn:EW.
  - (* it waits *)
    set (s1 := match s_psnap s with Some p => close_free s p | None => s end).
    assert (S : soft s s1).
    { unfold s1. destruct (s_psnap s); [apply soft_close_free|apply soft_refl]. }
    pose proof (soft_inv _ _ _ _ S HI) as I1. split.
    + destruct I1 as []. split; try assumption.
      * cbn [set_psnap s_wr]. intros E. rewrite (f_wr _ _ S), EW in E. discriminate E.
      * intros m E. cbn [set_psnap s_psnap] in E. injection E as <-.
        split.
        -- destruct HC as [C1 C2].
           split; cbn [set_psnap s_top s_all];
             [rewrite (f_top _ _ S)|rewrite (f_all _ _ S)]; assumption.
        -- intros f Hf. apply HF, (f_out _ _ S). exact Hf.
    + destruct (soft_same _ _ S) as (A1 & A2 & A3 & A4 & A5 & A6 & A7 & A8).
      repeat split; assumption.
  - destruct (sn_max n <? s_min s) eqn:EM.
    { split; [eapply soft_inv; [apply soft_ack|exact HI]|apply soft_same, soft_ack]. }
    set (f := scope_of c s (sn_max n)).
    set (s1 := if fi_delta f then s else
               if s_hist s <=? sn_max n then set_hist s 0 (s_hv s) else s).
    assert (S1 : soft s s1).
    { unfold s1. destruct (fi_delta f); [apply soft_refl|].
      destruct (s_hist s <=? sn_max n); [apply soft_hist|apply soft_refl]. }
    pose proof (soft_pop s1) as S2. destruct (pop s1) as [b s2]. cbn [snd] in S2.
    pose proof (soft_trans _ _ _ S1 S2) as S. clear S1 S2.
    assert (EFM : fi_max f = sn_max n).
    { unfold f, scope_of. destruct (_ && _); reflexivity. }
    destruct b.
    2:{ pose proof (soft_trans _ _ _ S (soft_ack s2 (sn_fr n))) as S'.
        split; [eapply soft_inv; [exact S'|exact HI]|apply soft_same; exact S']. }
    split.
    2:{ destruct (soft_same _ _ S) as (A1 & A2 & A3 & A4 & A5 & A6 & A7 & A8).
        repeat split; assumption. }
    pose proof (soft_inv _ _ _ _ S HI) as I2.
    destruct (v_nowr _ _ _ HI EW) as [_ EP].
    assert (EP2 : s_psnap s2 = None).
    { pose proof (f_ps _ _ S) as E. rewrite EP in E.
      destruct (s_psnap s2); [discriminate E|reflexivity]. }
    clear HI. destruct I2 as []. split; try assumption.
    + intros g Hg. cbn [set_write emit s_out In] in Hg. destruct Hg as [E|Hg].
      * injection E as <-. rewrite EFM. destruct HC as [C1 C2].
        split; cbn [set_write emit s_top s_all];
          [rewrite (f_top _ _ S)|rewrite (f_all _ _ S)]; assumption.
      * apply v_low0. exact Hg.
    + intros g Hg. cbn [set_write emit s_wr] in Hg. injection Hg as <-.
      split; [left; reflexivity|discriminate].
    + discriminate.
    + intros m E. cbn [set_write emit s_psnap] in E. congruence.
Qed.
