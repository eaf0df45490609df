(* Histories of a channel that can be computed, for the examples. *)

From Coq Require Import ZArith List Bool Lia ZifyBool.
From Verif Require Import IdxModel IdxSpec.
Import ListNotations.
Open Scope Z_scope.

Definition runs (c : conf) (s : st) (ops : list op) : st := fold_left (step c) ops s.

Definition has_write (b : Z) (x : idx) : bool :=
  existsb (fun e => match e with CWrite a => a =? b | CRead _ => false end) (x_cln x).
Definition has_read (i : Z) (x : idx) : bool :=
  existsb (fun e => match e with CRead a => a =? i | CWrite _ => false end) (x_cln x).

Definition fitb (s : st) (o : op) : bool :=
  negb (s_err s) &&
  match o with
  | ICreate k => (s_next s <=? k) && (s_top s <? k) && (k <? 4294967295)
  | ISnap ok => ok && match last_idx (s_all s) with Some x => s_next s <=? x_key x | None => false end
  | IReady _ => true
  | IMediaDone b _ => existsb (has_write b) (s_all s)
  | ILock k i =>
      existsb (fun x => (x_key x =? k) && negb (x_free x)) (s_all s) &&
      forallb (fun y => negb (has_read i y)) (s_all s)
  | IUnlock _ => true
  | IWriteDone _ _ => match s_wr s with Some _ => true | None => false end
  | IWatermark => true
  | IExpire m => (s_min s <=? m) && (m <=? s_next s)
  | IHist => true
  | IInactive => forallb (fun x => x_key x <? s_next s) (s_all s)
  | IFree => false
  end.

Lemma fitb_ok : forall s o, fitb s o = true -> fits s o.
Proof.
  intros s o H. unfold fitb in H. apply andb_prop in H. destruct H as [HE H].
  split; [destruct (s_err s); [discriminate HE|reflexivity]|]. destruct o; try exact I.
  - lia.
  - apply andb_prop in H. destruct H as [H1 H2]. split; [exact H1|].
    destruct (last_idx (s_all s)) as [x|]; [|discriminate H2]. exists x. split; [reflexivity|lia].
  - apply existsb_exists in H. destruct H as (x & Hx & H). exists x. split; [exact Hx|].
    unfold has_write in H. apply existsb_exists in H. destruct H as (e & He & H).
    destruct e as [i|a]; [discriminate H|]. replace b with a by lia. exact He.
  - apply andb_prop in H. destruct H as [H1 H2].
    apply existsb_exists in H1. destruct H1 as (x & Hx & H1). exists x.
    split; [exact Hx|]. split; [lia|]. split; [destruct (x_free x); [lia|reflexivity]|].
    intros y Hy HI. rewrite forallb_forall in H2. specialize (H2 y Hy).
    unfold has_read in H2.
    assert (E : existsb (fun e => match e with CRead a => a =? id | CWrite _ => false end)
      (x_cln y) = true).
    { apply existsb_exists. exists (CRead id). split; [exact HI|lia]. }
    rewrite E in H2. discriminate H2.
  - destruct (s_wr s); [discriminate|discriminate H].
  - lia.
  - intros x Hx. rewrite forallb_forall in H. specialize (H x Hx). lia.
  - discriminate H.
Qed.

Definition calmb (s : st) (o : op) : bool :=
  fitb s o &&
  match o with
  | IReady ex => ex
  | IMediaDone _ ok => ok
  | IWriteDone ok _ => ok
  | IWatermark => false
  | IExpire m =>
      forallb (fun x => negb (x_key x <? m) || negb (is_none (x_per x))) (s_all s)
  | _ => true
  end.

Lemma calmb_ok : forall s o, calmb s o = true -> calm s o.
Proof.
  intros s o H. unfold calmb in H. apply andb_prop in H. destruct H as [HF H].
  split; [apply fitb_ok; exact HF|]. destruct o; try exact I; try exact H; try discriminate H.
  intros x Hx HL HP. rewrite forallb_forall in H. specialize (H x Hx).
  rewrite HP in H. cbn [is_none negb] in H. lia.
Qed.

Definition honestb (s : st) (o : op) : bool :=
  fitb s o && match o with IWriteDone ok stored => ok || negb stored | _ => true end.

Lemma honestb_ok : forall s o, honestb s o = true -> honest s o.
Proof.
  intros s o H. unfold honestb in H. apply andb_prop in H. destruct H as [HF H].
  split; [apply fitb_ok; exact HF|]. destruct o; try exact I.
  intros ->. destruct stored; [discriminate H|reflexivity].
Qed.

Fixpoint allb (c : conf) (p : st -> op -> bool) (s : st) (ops : list op) : bool :=
  match ops with
  | [] => true
  | o :: r => p s o && allb c p (step c s o) r
  end.

Lemma allb_reach : forall c ops s, reach c s -> allb c fitb s ops = true -> reach c (runs c s ops).
Proof.
  intros c. induction ops as [|o r IH]; intros s HR H; [exact HR|].
  cbn [allb] in H. apply andb_prop in H. destruct H as [H1 H2].
  apply (IH (step c s o)); [|exact H2]. apply reach_step; [exact HR|apply fitb_ok; exact H1].
Qed.

Lemma allb_calm : forall c ops s,
  reach_calm c s -> allb c calmb s ops = true -> reach_calm c (runs c s ops).
Proof.
  intros c. induction ops as [|o r IH]; intros s HR H; [exact HR|].
  cbn [allb] in H. apply andb_prop in H. destruct H as [H1 H2].
  apply (IH (step c s o)); [|exact H2]. apply calm_step; [exact HR|apply calmb_ok; exact H1].
Qed.

Lemma allb_honest : forall c ops s,
  reach_honest c s -> allb c honestb s ops = true -> reach_honest c (runs c s ops).
Proof.
  intros c. induction ops as [|o r IH]; intros s HR H; [exact HR|].
  cbn [allb] in H. apply andb_prop in H. destruct H as [H1 H2].
  apply (IH (step c s o)); [|exact H2]. apply honest_step; [exact HR|apply honestb_ok; exact H1].
Qed.

(* A history that is allowed, and what is seen of its end. *)
Lemma ex_reach : forall (A : Type) (view : st -> A) c orc ops v,
  allb c fitb (init c orc) ops = true -> view (runs c (init c orc) ops) = v ->
  exists s, reach c s /\ view s = v.
Proof.
  intros A view c orc ops v H1 H2. exists (runs c (init c orc) ops).
  split; [apply allb_reach; [apply reach_init|exact H1]|exact H2].
Qed.

Lemma ex_calm : forall (A : Type) (view : st -> A) c ops v,
  allb c calmb (init c []) ops = true -> view (runs c (init c []) ops) = v ->
  exists s, reach_calm c s /\ view s = v.
Proof.
  intros A view c ops v H1 H2. exists (runs c (init c []) ops).
  split; [apply allb_calm; [apply calm_init|exact H1]|exact H2].
Qed.

Lemma ex_honest : forall (A : Type) (view : st -> A) c orc ops v,
  allb c honestb (init c orc) ops = true -> view (runs c (init c orc) ops) = v ->
  exists s, reach_honest c s /\ view s = v.
Proof.
  intros A view c orc ops v H1 H2. exists (runs c (init c orc) ops).
  split; [apply allb_honest; [apply honest_init|exact H1]|exact H2].
Qed.
