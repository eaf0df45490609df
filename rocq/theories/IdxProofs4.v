(* Proofs about the segment index: every operation is a sequence of small steps.

   A small step changes a state and the list of the snapshots that are in the
   hand of the code, taken from one place and not yet put in another. *)

From Coq Require Import ZArith List Bool Lia ZifyBool Sorted.
From Verif Require Import IdxModel IdxSpec IdxProofs IdxProofs2 IdxProofs3.
Import ListNotations.
Open Scope Z_scope.

Inductive lab :=
| LQuiet
| LTrunc (t : Z)
| LAll
| LDrop (n : isnap)
| LAck (n : isnap)
| LWrite (n : isnap)
| LTake (k : Z) (n : isnap)
| LGive (k : Z) (n : isnap)
| LMark (k : Z) (ok : bool)
| LFree (k : Z) (p : pst)
| LRemove (k : Z)
| LEnd (b : Z)
| LCut (i : Z)
| LLock (k : Z) (b : Z).

(* The queues, the last bucket and what the world does next may change. *)
Definition quiet (s s' : st) : Prop :=
  exists p d b o, s' = set_orc (set_bucket (set_queues s p d) b) o /\
    (s_orc s = [] -> o = []).

Definition held (s : st) (k : Z) (x : idx) : Prop :=
  StronglySorted Z.lt (map x_key (s_all s)) /\ In x (s_all s) /\ x_key x = k.

Definition done_ev (k : Z) (ok : bool) : ev := if ok then EMedia k else ELost k.
Definition done_pst (ok : bool) : pst := if ok then POk else PErr.

Definition add_write (b : Z) (x : idx) : idx := idx_cln (x_cln x ++ [CWrite b]) x.

Definition hand := list isnap.

Inductive mic (c : conf) (N : Z) : lab -> st * hand -> st * hand -> Prop :=
| m_quiet : forall s s' e, quiet s s' -> mic c N LQuiet (s, e) (s', e)
| m_trunc : forall s e t, mic c N (LTrunc t) (s, e) (emit s (ETrunc t), e)
| m_all : forall s e, s_snaps s <= 0 -> mic c N LAll (s, e) (emit s EAckAll, e)
| m_drop : forall s e n, mic c N (LDrop n) (s, n :: e) (close_free s n, e)
| m_ack : forall s e n,
    (s_wr s <> None -> s_wfr s <> None) ->
    mic c N (LAck n) (s, n :: e) (close_ack s n, e)
| m_write : forall s e n,
    (s_wr s = None -> s_wfr s = None /\ s_psnap s = None) -> fit_snap s n ->
    mic c N (LWrite n) (s, n :: e) (close_write c s n, e)
| m_take : forall s e k x n,
    held s k x -> x_snap x = Some n -> k < N ->
    mic c N (LTake k n) (s, e) (upd k (idx_snap None) s, n :: e)
| m_give : forall s e k x n,
    held s k x -> x_snap x = None -> x_per x = PNone ->
    mic c N (LGive k n) (s, n :: e) (upd k (idx_snap (Some n)) s, e)
| m_mark : forall s e k x ok,
    held s k x -> x_per x = PNone -> x_key x / c_bucket c * c_bucket c + c_bucket c <= N ->
    mic c N (LMark k ok) (s, e)
      (emit (upd k (idx_per (done_pst ok)) s) (done_ev k ok), e)
| m_free : forall s e k x,
    held s k x -> x_free x = false ->
    mic c N (LFree k (x_per x)) (s, e) (emit (upd k idx_free s) (EFree k), e)
| m_remove : forall s e k x,
    held s k x -> x_free x = true -> x_cln x = [] -> x_snap x = None ->
    mic c N (LRemove k) (s, e) (remove k s, e)
| m_end : forall s e b, mic c N (LEnd b) (s, e) (unlock (is_cw b) s, e)
| m_cut : forall s e i, mic c N (LCut i) (s, e) (emit (unlock (is_cr i) s) (ECut i), e)
| m_lock : forall s e k b, mic c N (LLock k b) (s, e) (upd k (add_write b) s, e).

Inductive mics (c : conf) (N : Z) (P : lab -> Prop) : st * hand -> st * hand -> Prop :=
| mics_nil : forall a, mics c N P a a
| mics_cons : forall l a b d, P l -> mic c N l a b -> mics c N P b d -> mics c N P a d.

Lemma mics_one : forall c N (P : lab -> Prop) l a b, P l -> mic c N l a b -> mics c N P a b.
Proof. intros. eapply mics_cons; [eassumption|eassumption|constructor]. Qed.

Lemma mics_app : forall c N P a b d, mics c N P a b -> mics c N P b d -> mics c N P a d.
Proof.
  intros c N P a b d H. induction H as [|l a b' d' HP HM H IH]; intros H2; [exact H2|].
  eapply mics_cons; [exact HP|exact HM|apply IH; exact H2].
Qed.

Lemma mics_imp : forall c N (P Q : lab -> Prop) a b,
  (forall l, P l -> Q l) -> mics c N P a b -> mics c N Q a b.
Proof.
  intros c N P Q a b HPQ H. induction H as [|l a b' d' HP HM H IH]; [constructor|].
  eapply mics_cons; [apply HPQ; exact HP|exact HM|exact IH].
Qed.

(* Small steps and what is seen during them, the last first. *)
Definition run (c : conf) (N : Z) (P : list ev -> lab -> Prop) (a b : st * hand) : Prop :=
  exists L, s_out (fst b) = L ++ s_out (fst a) /\ mics c N (P L) a b.

Definition mono (P : list ev -> lab -> Prop) : Prop :=
  forall L L' l, incl L L' -> P L l -> P L' l.

Lemma run_nil : forall c N P a, run c N P a a.
Proof. intros c N P a. exists []. split; [reflexivity|constructor]. Qed.

Lemma run_app : forall c N P a b d, mono P -> run c N P a b -> run c N P b d -> run c N P a d.
Proof.
  intros c N P a b d HP (L1 & E1 & M1) (L2 & E2 & M2). exists (L2 ++ L1).
  split; [rewrite E2, E1, app_assoc; reflexivity|].
  eapply mics_app.
  - eapply mics_imp; [|exact M1]. intros l. apply HP. intros x Hx. apply in_or_app. tauto.
  - eapply mics_imp; [|exact M2]. intros l. apply HP. intros x Hx. apply in_or_app. tauto.
Qed.

Lemma run_imp : forall c N (P Q : list ev -> lab -> Prop) a b,
  (forall L l, P L l -> Q L l) -> run c N P a b -> run c N Q a b.
Proof.
  intros c N P Q a b HPQ (L & E & M). exists L. split; [exact E|].
  eapply mics_imp; [|exact M]. intros l. apply HPQ.
Qed.

(* ------------------------------------------------------------------ *)
(* The order of two changes                                             *)

Lemma close_free_upd : forall s k f n, close_free (upd k f s) n = upd k f (close_free s n).
Proof.
  intros s k f n. unfold close_free, frames_drop, frames_free.
  cbn [emit upd set_all s_snaps]. destruct (s_snaps s <=? 0); reflexivity.
Qed.

Lemma close_ack_upd : forall s k f n, close_ack (upd k f s) n = upd k f (close_ack s n).
Proof.
  intros s k f n. unfold close_ack, frames_drop, frames_ack, frames_free.
  cbn [emit upd set_all s_snaps s_psnap s_wr s_wfr].
  destruct (s_psnap s).
  - destruct (s_snaps s <=? 0); reflexivity.
  - destruct (s_wr s), (s_wfr s); destruct (s_snaps s <=? 0); reflexivity.
Qed.

Lemma upd_upd : forall k f g s, (forall x, x_key (g x) = x_key x) ->
  upd k f (upd k g s) = upd k (fun x => f (g x)) s.
Proof.
  intros k f g s HG. unfold upd. cbn [set_all s_all]. unfold set_all. cbn. f_equal.
  rewrite map_map. apply map_ext. intros x. destruct (x_key x =? k) eqn:E.
  - rewrite HG, E. reflexivity.
  - rewrite E. reflexivity.
Qed.

Lemma set_all_id : forall s, set_all s (s_all s) = s.
Proof. intros []. reflexivity. Qed.

Lemma upd_same : forall k f s,
  (forall x, In x (s_all s) -> x_key x = k -> f x = x) -> upd k f s = s.
Proof.
  intros k f s H. unfold upd. rewrite <- (set_all_id s) at 3. f_equal.
  rewrite <- map_id. apply map_ext_in. intros x Hx.
  destruct (x_key x =? k) eqn:E; [apply H; [exact Hx|lia]|reflexivity].
Qed.

Lemma upd_ext : forall k f g s,
  (forall x, In x (s_all s) -> x_key x = k -> f x = g x) -> upd k f s = upd k g s.
Proof.
  intros k f g s H. unfold upd. f_equal. apply map_ext_in. intros x Hx.
  destruct (x_key x =? k) eqn:E; [apply H; [exact Hx|lia]|reflexivity].
Qed.

Lemma upd_held : forall s k f x,
  (forall x, x_key (f x) = x_key x) -> held s k x -> held (upd k f s) k (f x).
Proof.
  intros s k f x HF (HS & Hx & E). split; [|split].
  - rewrite upd_all, upd_key; assumption.
  - rewrite upd_all. apply in_map_iff. exists x. split; [|exact Hx].
    rewrite E, Z.eqb_refl. reflexivity.
  - rewrite HF. exact E.
Qed.

Lemma soft_held : forall s s' k x, s_all s' = s_all s -> held s k x -> held s' k x.
Proof. intros s s' k x E (A & B & C). split; [|split]; rewrite ?E; assumption. Qed.

Lemma inv_held : forall c N s x, inv c N s -> In x (s_all s) -> held s (x_key x) x.
Proof. intros c N s x HI Hx. split; [apply (v_sort _ _ _ HI)|]. split; [exact Hx|reflexivity]. Qed.

Lemma find_held : forall s k x, held s k x -> find k (s_all s) = Some x.
Proof. intros s k x (A & B & C). apply find_in; assumption. Qed.

(* ------------------------------------------------------------------ *)
(* What is emitted                                                      *)

Lemma out_ff : forall s, s_out (frames_free s) = s_out s.
Proof. intros s. unfold frames_free. destruct (_ <=? 0); reflexivity. Qed.

Lemma out_ack : forall s k, s_out (frames_ack s k) = EAck k :: s_out s.
Proof. intros s k. unfold frames_ack. rewrite out_ff. reflexivity. Qed.

Lemma out_drop : forall s k, s_out (frames_drop s k) = EDrop k :: s_out s.
Proof. intros s k. unfold frames_drop. rewrite out_ff. reflexivity. Qed.

(* The events of a small step. *)
Definition ev_of (l : lab) (v : ev) : Prop :=
  match v with
  | EReady _ _ => False
  | ESnap _ => False
  | EAck k => match l with LAck n | LWrite n => k = sn_fr n | _ => False end
  | EAckAll => l = LAll
  | EDrop _ => match l with LDrop _ | LAck _ | LWrite _ => True | _ => False end
  | EFree k => exists p, l = LFree k p
  | ETrunc t => l = LTrunc t
  | EMedia k => l = LMark k true
  | ELost k => l = LMark k false
  | EStart f => exists n, l = LWrite n /\ fi_max f = sn_max n
  | EStored _ => False
  | ECut i => l = LCut i
  end.

Lemma mic_out : forall c N l a b, mic c N l a b ->
  exists L, s_out (fst b) = L ++ s_out (fst a) /\ Forall (ev_of l) L.
Proof.
  intros c N l a b H. destruct H; cbn [fst].
  - destruct H as (p & d & b & o & -> & _). exists []. split; [reflexivity|constructor].
  - exists [ETrunc t]. split; [reflexivity|]. constructor; [reflexivity|constructor].
  - exists [EAckAll]. split; [reflexivity|]. constructor; [reflexivity|constructor].
  - exists [EDrop (sn_fr n)]. unfold close_free. rewrite out_drop.
    split; [reflexivity|]. constructor; [exact I|constructor].
  - unfold close_ack. destruct (s_psnap s) as [p|].
    + exists [EDrop (sn_fr p)]. cbn [set_psnap s_out]. rewrite out_drop.
      split; [reflexivity|]. constructor; [exact I|constructor].
    + destruct (s_wr s); [destruct (s_wfr s) as [f'|]|].
      * exists [EDrop f']. cbn [set_write s_out]. rewrite out_drop.
        split; [reflexivity|]. constructor; [exact I|constructor].
      * exists []. split; [reflexivity|constructor].
      * exists [EAck (sn_fr n)]. rewrite out_ack.
        split; [reflexivity|]. constructor; [reflexivity|constructor].
  - unfold close_write. destruct (s_wr s).
    + destruct (s_psnap s) as [p|].
      * exists [EDrop (sn_fr p)]. cbn [set_psnap s_out]. unfold close_free. rewrite out_drop.
        split; [reflexivity|]. constructor; [exact I|constructor].
      * exists []. split; [reflexivity|constructor].
    + destruct (sn_max n <? s_min s).
      * exists [EAck (sn_fr n)]. rewrite out_ack.
        split; [reflexivity|]. constructor; [reflexivity|constructor].
      * set (f := scope_of c s (sn_max n)).
        set (s1 := if fi_delta f then s else
                   if s_hist s <=? sn_max n then set_hist s 0 (s_hv s) else s).
        assert (E1 : s_out s1 = s_out s).
        { unfold s1. destruct (fi_delta f); [reflexivity|].
          destruct (s_hist s <=? sn_max n); reflexivity. }
        assert (E2 : s_out (snd (pop s1)) = s_out s).
        { unfold pop. destruct (s_orc s1); exact E1. }
        destruct (pop s1) as [b s2]. cbn [snd] in E2. destruct b.
        -- exists [EStart f]. cbn [set_write emit s_out]. rewrite E2.
           split; [reflexivity|]. constructor; [|constructor].
           exists n. split; [reflexivity|]. unfold f, scope_of. destruct (_ && _); reflexivity.
        -- exists [EAck (sn_fr n)]. rewrite out_ack, E2.
           split; [reflexivity|]. constructor; [reflexivity|constructor].
  - exists []. split; [reflexivity|constructor].
  - exists []. split; [reflexivity|constructor].
  - exists [done_ev k ok]. split; [reflexivity|]. constructor; [|constructor].
    destruct ok; reflexivity.
  - exists [EFree k]. split; [reflexivity|]. constructor; [|constructor].
    exists (x_per x). reflexivity.
  - exists []. split; [reflexivity|constructor].
  - exists []. split; [reflexivity|constructor].
  - exists [ECut i]. split; [reflexivity|]. constructor; [reflexivity|constructor].
  - exists []. split; [reflexivity|constructor].
Qed.

Lemma mics_out : forall c N P a b, mics c N P a b ->
  exists L, s_out (fst b) = L ++ s_out (fst a) /\
    Forall (fun v => exists l, P l /\ ev_of l v) L.
Proof.
  intros c N P a b H. induction H as [a|l a b d HP HM H IH].
  - exists []. split; [reflexivity|constructor].
  - destruct (mic_out _ _ _ _ _ HM) as (L1 & E1 & F1). destruct IH as (L2 & E2 & F2).
    exists (L2 ++ L1). split; [rewrite E2, E1, app_assoc; reflexivity|].
    apply Forall_app. split; [exact F2|]. eapply Forall_impl; [|exact F1].
    intros v Hv. exists l. split; assumption.
Qed.

Lemma run_of : forall c N (P : lab -> Prop) a b,
  mics c N P a b -> run c N (fun _ => P) a b.
Proof.
  intros c N P a b H. destruct (mics_out _ _ _ _ _ H) as (L & E & _).
  exists L. split; assumption.
Qed.

Lemma run_all : forall c N (P : list ev -> lab -> Prop) a b,
  (forall L, mics c N (P L) a b) -> run c N P a b.
Proof.
  intros c N P a b H. destruct (mics_out _ _ _ _ _ (H [])) as (L & E & _).
  exists L. split; [exact E|apply H].
Qed.

(* ------------------------------------------------------------------ *)
(* Freeing                                                              *)

Definition frees (x : idx) (l : lab) : Prop :=
  match l with
  | LFree k p => k = x_key x /\ p = x_per x /\ x_free x = false
  | LTake k n => x_snap x = Some n
  | LAck n => x_snap x = Some n
  | LRemove k => k = x_key x
  | _ => False
  end.

Lemma wr_wfr : forall c N s, inv c N s -> s_wr s <> None -> s_wfr s <> None.
Proof.
  intros c N s HI H. destruct (s_wr s) as [f|] eqn:E; [|congruence].
  apply (v_wr _ _ _ HI f E).
Qed.

Lemma free_idx_mics : forall c N s t x e,
  inv c N s -> In x (s_all s) -> x_key x < N ->
  mics c N (frees x) (s, e) (fst (free_idx false s t (x_key x)), e) /\
  snd (free_idx false s t (x_key x)) =
    (if x_free x then t else if is_ok (x_per x) then t else x_key x) /\
  forall y, In y (s_all (fst (free_idx false s t (x_key x)))) ->
    (x_key y = x_key x -> x_free y = true) /\
    (x_key y <> x_key x -> In y (s_all s)).
Proof.
  intros c N s t x e HI Hx HL. unfold free_idx. set (k := x_key x) in *.
  pose proof (inv_held c N s x HI Hx) as H0. fold k in H0.
  rewrite (find_held _ _ _ H0), (v_bad _ _ _ HI x Hx).
  set (s1 := if x_free x then s else emit (upd k idx_free s) (EFree k)).
  set (x1 := idx_free x).
  assert (H1 : mics c N (frees x) (s, e) (s1, e) /\ held s1 k x1 /\
    (s_wr s1 = s_wr s /\ s_wfr s1 = s_wfr s) /\
    forall y, In y (s_all s1) -> (x_key y = k -> y = x1) /\ (x_key y <> k -> In y (s_all s))).
  { unfold s1. destruct (x_free x) eqn:EF.
    - assert (EX : x1 = x).
      { unfold x1, idx_free. rewrite <- EF. destruct x; reflexivity. }
      split; [constructor|]. rewrite EX. split; [exact H0|].
      split; [split; reflexivity|]. intros y Hy. split; [|intros _; exact Hy].
      intros E. eapply ss_inj; [apply (v_sort _ _ _ HI)|exact Hy|exact Hx|exact E].
    - split; [|split; [|split; [split; reflexivity|]]].
      + eapply mics_one; [|eapply m_free; [exact H0|exact EF]]. repeat split. exact EF.
      + eapply soft_held; [|eapply (upd_held s k idx_free x); [reflexivity|exact H0]].
        reflexivity.
      + intros y Hy. cbn [emit s_all] in Hy. rewrite upd_all in Hy.
        apply in_map_iff in Hy. destruct Hy as (z & EZ & Hz).
        destruct (x_key z =? k) eqn:EZK.
        * assert (z = x) by (eapply ss_inj; [apply (v_sort _ _ _ HI)|exact Hz|exact Hx|fold k; lia]).
          subst z. split; [intros _; symmetry; exact EZ|].
          intros NE. exfalso. apply NE. rewrite <- EZ. reflexivity.
        * subst z. split; [lia|intros _; exact Hz]. }
  destruct H1 as (M1 & D1 & W1 & A1).
  set (s2 := match x_snap x with
             | Some n => upd k (idx_snap None) (close_ack s1 n)
             | None => s1
             end).
  assert (H2 : mics c N (frees x) (s1, e) (s2, e) /\
    exists x2, held s2 k x2 /\ x_free x2 = true /\ x_cln x2 = x_cln x /\ x_snap x2 = None /\
    forall y, In y (s_all s2) -> (x_key y = k -> y = x2) /\ (x_key y <> k -> In y (s_all s1))).
  { unfold s2. destruct (x_snap x) as [n|] eqn:ES.
    - rewrite <- close_ack_upd. split.
      + eapply mics_cons; [|eapply (m_take c N s1 e k x1 n); [exact D1|exact ES|exact HL]|].
        * exact ES.
        * eapply mics_one; [|apply m_ack]; [exact ES|].
          cbn [upd set_all s_wr s_wfr]. destruct W1 as [-> ->]. apply (wr_wfr c N s HI).
      + exists (idx_snap None x1).
        assert (EA : s_all (close_ack (upd k (idx_snap None) s1) n) = s_all (upd k (idx_snap None) s1)).
        { rewrite close_ack_upd. rewrite !upd_all.
          assert (EI : inv c N s1).
          { pose proof (free_idx_ok c N false s t k HI) as _. unfold s1.
            destruct (x_free x); [exact HI|].
            eapply soft_inv; [apply soft_emit; discriminate|].
            eapply shrinks_inv; [|exact HI]. eapply upd_shrinks; [exact HI|]. intros y Hy _.
            cbn [idx_free x_key x_per x_bad x_snap x_cln].
            repeat split; try reflexivity; [apply (v_bad _ _ _ HI y Hy)|left; reflexivity|].
            apply incl_refl. }
          rewrite (f_all _ _ (soft_close_ack c N s1 n EI)). reflexivity. }
        split; [eapply soft_held; [exact EA|apply upd_held; [reflexivity|exact D1]]|].
        split; [reflexivity|]. split; [reflexivity|]. split; [reflexivity|].
        intros y Hy. rewrite EA, upd_all in Hy. apply in_map_iff in Hy.
        destruct Hy as (z & EZ & Hz). destruct (x_key z =? k) eqn:EZK.
        * destruct (A1 z Hz) as [B1 B2]. rewrite (B1 ltac:(lia)) in EZ.
          split; [intros _; symmetry; exact EZ|]. intros NE. exfalso. apply NE.
          rewrite <- EZ. reflexivity.
        * subst z. split; [lia|intros _; exact Hz].
    - split; [constructor|]. exists x1. split; [exact D1|]. split; [reflexivity|].
      split; [reflexivity|]. split; [exact ES|]. intros y Hy.
      destruct (A1 y Hy) as [B1 B2]. split; [exact B1|intros _; exact Hy]. }
  destruct H2 as (M2 & x2 & D2 & F2 & C2 & S2 & A2).
  assert (A02 : forall y, In y (s_all s2) ->
    (x_key y = k -> x_free y = true) /\ (x_key y <> k -> In y (s_all s))).
  { intros y Hy. destruct (A2 y Hy) as [B1 B2]. split.
    - intros E. rewrite (B1 E). exact F2.
    - intros NE. apply A1; [exact (B2 NE)|exact NE]. }
  destruct (x_cln x) eqn:EC; cbn [fst snd].
  - split; [|split; [reflexivity|]].
    + eapply mics_app; [exact M1|]. eapply mics_app; [exact M2|].
      eapply mics_one; [|eapply m_remove; [exact D2|exact F2|exact C2|exact S2]]. reflexivity.
    + intros y Hy. cbn [remove set_queues set_all s_all] in Hy. apply filter_In in Hy.
      apply A02. tauto.
  - split; [|split; [reflexivity|exact A02]].
    eapply mics_app; [exact M1|exact M2].
Qed.

(* Freeing segments whose media files were dealt with. *)
Definition fup (lim T : Z) (l : lab) : Prop :=
  match l with
  | LFree k p => p <> PNone /\ k <= lim /\ (p = POk \/ k <= T)
  | LRemove _ => True
  | _ => False
  end.

Definition is_done (s : st) (k : Z) : Prop :=
  exists x, In x (s_all s) /\ x_key x = k /\ x_per x <> PNone.

Lemma free_upto_mics : forall c N lim ks s t e,
  1 <= c_bucket c -> inv c N s -> StronglySorted Z.lt ks -> (forall k, In k ks -> is_done s k) ->
  (forall k, In k ks -> t <= k) ->
  t <= snd (free_upto false lim ks s t) /\
  mics c N (fup lim (snd (free_upto false lim ks s t))) (s, e)
    (fst (free_upto false lim ks s t), e) /\
  forall y, In y (s_all (fst (free_upto false lim ks s t))) ->
    (In (x_key y) ks -> x_key y <= lim -> x_free y = true) /\
    (~ In (x_key y) ks -> In y (s_all s)).
Proof.
  intros c N lim. induction ks as [|k r IH]; intros s t e HB HI HS HK HT; cbn [free_upto].
  - split; [cbn [snd]; lia|]. split; [constructor|]. intros y Hy. split; [intros []|intros _; exact Hy].
  - destruct (lim <? k) eqn:EL.
    { split; [cbn [snd]; lia|]. split; [constructor|]. intros y Hy.
      split; [|intros _; exact Hy]. intros Hk L. exfalso.
      inversion HS as [|? ? _ HF]; subst. rewrite Forall_forall in HF.
      destruct Hk as [Hk|Hk]; [lia|]. specialize (HF _ Hk). lia. }
    destruct (HK k (or_introl eq_refl)) as (x & Hx & EX & EP).
    pose proof (v_late _ _ _ HI x Hx EP) as HLT.
    assert (HLN : x_key x < N).
    { assert (x_key x / c_bucket c = x_key x / c_bucket c) as H by reflexivity.
      apply bucket_of in H; [lia|exact HB]. }
    pose proof (free_idx_ok c N false s t k HI) as HOK.
    destruct (free_idx_mics c N s t x e HI Hx HLN) as (M1 & T1 & A1).
    rewrite EX in M1, T1, A1.
    destruct (free_idx false s t k) as [s1 t1]. cbn [fst snd] in M1, T1, A1.
    destruct HOK as (I1 & F1 & L1 & K1).
    { rewrite <- EX. apply in_map. exact Hx. }
    inversion HS as [|a0 l0 HS' HF]. subst a0 l0 k. rewrite Forall_forall in HF.
    assert (HK1 : forall q, In q r -> is_done s1 q).
    { intros q Ha. destruct (HK q (or_intror Ha)) as (z & Hz & EZ & PZ).
      specialize (HF q Ha).
      assert (HM : In q (map x_key (s_all s1))).
      { apply K1; [rewrite <- EZ; apply in_map; exact Hz|lia]. }
      apply in_map_iff in HM. destruct HM as (y & EY & Hy). exists y.
      split; [exact Hy|]. split; [exact EY|].
      destruct F1 as (_ & _ & _ & _ & _ & _ & F1).
      destruct (F1 y Hy) as (w & Hw & E1 & E2 & _).
      assert (w = z) by (eapply ss_inj; [apply (v_sort _ _ _ HI)|exact Hw|exact Hz|congruence]).
      subst w. congruence. }
    assert (HT0 : t <= x_key x) by (apply HT; left; reflexivity).
    assert (HT1 : forall q, In q r -> t1 <= q).
    { intros q Ha. specialize (HF q Ha). specialize (HT q (or_intror Ha)).
      rewrite T1. destruct (x_free x); [exact HT|]. destruct (is_ok (x_per x)); lia. }
    destruct (IH s1 t1 e HB I1 HS' HK1 HT1) as (TT & M2 & A2).
    destruct (free_upto false lim r s1 t1) as [s2 t2]. cbn [fst snd] in *.
    split; [|split].
    + rewrite T1 in TT. destruct (x_free x); [exact TT|]. destruct (is_ok (x_per x)); lia.
    + eapply mics_app; [|exact M2]. eapply mics_imp; [|exact M1].
      intros l Hl. destruct l; cbn [frees fup] in *; try exact Hl; try exact I; try contradiction.
      * exfalso. apply (v_snap _ _ _ HI x n Hx) in Hl. tauto.
      * exfalso. apply (v_snap _ _ _ HI x n Hx) in Hl. tauto.
      * destruct Hl as (-> & -> & EFX). split; [exact EP|]. split; [lia|].
        rewrite EFX in T1.
        destruct (x_per x); cbn [is_ok] in T1; [congruence|left; reflexivity|right; lia].
    + intros y Hy. destruct (A2 y Hy) as [B1 B2].
      destruct (in_dec Z.eq_dec (x_key y) r) as [Hr|Hr].
      * split; [intros _ L; exact (B1 Hr L)|intros Hn; exfalso; apply Hn; right; exact Hr].
      * specialize (B2 Hr). destruct (A1 y B2) as [C1 C2]. split.
        -- intros [E|E] _; [apply C1; symmetry; exact E|contradiction].
        -- intros Hn. apply C2. intros E. apply Hn. left. symmetry. exact E.
Qed.

(* A segment is freed for a reason in F, after its media file was dealt with;
   if it is not in a file, the timelines are truncated after it. *)
Definition freed_ok (F : Z -> Prop) (L : list ev) (k : Z) (p : pst) : Prop :=
  p <> PNone /\ F k /\ (p = POk \/ k <= 0 \/ exists t, k <= t /\ In (ETrunc t) L).

Definition older (c : conf) (s : st) (k : Z) : Prop :=
  exists l, s_last s = Some l /\ k + c_force c <= l.

(* What is done with the result of a media file. *)
Definition pers (F : Z -> Prop) (ok : bool) (L : list ev) (l : lab) : Prop :=
  match l with
  | LFree k p => freed_ok F L k p
  | LMark _ b => b = ok
  | LAck _ => ok = false
  | LCut _ | LAll | LLock _ _ => False
  | _ => True
  end.

Lemma pers_mono : forall F ok, mono (pers F ok).
Proof.
  intros F ok L L' l HL H. destruct l; cbn [pers] in *; try exact H.
  destruct H as (A & B & C). split; [exact A|]. split; [exact B|].
  destruct C as [C|[C|(t & C & D)]]; [left; exact C|right; left; exact C|].
  right. right. exists t. split; [exact C|apply HL; exact D].
Qed.

Lemma free_non_forced_run : forall c N ok s e,
  1 <= c_bucket c -> 0 <= c_init c -> inv c N s ->
  run c N (pers (older c s) ok) (s, e) (free_non_forced c false s, e) /\
  forall y, In y (s_all (free_non_forced c false s)) ->
    x_per y <> PNone -> older c s (x_key y) -> x_free y = true.
Proof.
  intros c N ok s e HB HC HI. unfold free_non_forced.
  destruct (s_last s) as [l|] eqn:EL.
  2:{ split; [apply run_nil|]. intros y _ _ (l & E & _). congruence. }
  destruct (l <? c_force c) eqn:EF.
  { split; [apply run_nil|]. intros y Hy _ (l' & E & L).
    rewrite EL in E. injection E as <-.
    pose proof (v_top _ _ _ HI y Hy). lia. }
  assert (HD : forall k, In k (s_done s) -> is_done s k).
  { intros k Hk. apply (v_din _ _ _ HI) in Hk. exact Hk. }
  assert (H0 : forall k, In k (s_done s) -> 0 <= k).
  { intros k Hk. destruct (HD k Hk) as (x & Hx & <- & _).
    pose proof (v_top _ _ _ HI x Hx). lia. }
  pose proof (free_upto_ok c N false (l - c_force c) (s_done s) s 0 HI
    (ss_nodup _ (v_dsort _ _ _ HI))) as HOK.
  destruct (free_upto_mics c N (l - c_force c) (s_done s) s 0 e HB HI
    (v_dsort _ _ _ HI) HD H0) as (T0 & M & A).
  destruct (free_upto false (l - c_force c) (s_done s) s 0) as [s1 t].
  cbn [fst snd] in T0, M, A.
  destruct HOK as (I1 & (_ & _ & _ & _ & _ & _ & F1) & _ & _).
  { intros k Hk. destruct (HD k Hk) as (x & Hx & <- & _). apply in_map. exact Hx. }
  split.
  - destruct (mics_out _ _ _ _ _ M) as (L & E & _). cbn [fst] in E.
    unfold truncate. destruct (t =? 0) eqn:ET.
    + exists L. split; [exact E|]. eapply mics_imp; [|exact M].
      intros l' Hl. destruct l'; cbn [fup pers] in *; try contradiction; [|exact I].
      destruct Hl as (P1 & P2 & P3). split; [exact P1|]. split; [exists l; split; [exact EL|lia]|].
      destruct P3 as [P3|P3]; [left; exact P3|right; left; lia].
    + exists (ETrunc t :: L). split; [cbn [emit s_out fst app]; rewrite E; reflexivity|].
      eapply mics_app.
      * eapply mics_imp; [|exact M].
        intros l' Hl. destruct l'; cbn [fup pers] in *; try contradiction; [|exact I].
        destruct Hl as (P1 & P2 & P3). split; [exact P1|]. split; [exists l; split; [exact EL|lia]|].
        destruct P3 as [P3|P3]; [left; exact P3|]. right. right. exists t.
        split; [exact P3|left; reflexivity].
      * eapply mics_one; [|apply m_trunc]. exact I.
  - intros y Hy EP (l' & E & L). rewrite EL in E. injection E as <-.
    rewrite (f_all _ _ (soft_truncate s1 t)) in Hy.
    destruct (A y Hy) as [A1 _]. apply A1; [|lia].
    apply (v_din _ _ _ HI). destruct (F1 y Hy) as (x & Hx & E1 & E2 & _).
    exists x. split; [exact Hx|]. split; congruence.
Qed.

(* ------------------------------------------------------------------ *)
(* The result of a media file                                           *)

Definition marks (ok : bool) (l : lab) : Prop :=
  match l with
  | LMark _ b => b = ok
  | LDrop _ | LTake _ _ => True
  | _ => False
  end.

Definition olist (o : option isnap) : hand := match o with Some n => [n] | None => [] end.

Lemma mark_mics : forall c N ok ks s cur e,
  1 <= c_bucket c ->
  StronglySorted Z.lt ks -> StronglySorted Z.lt (map x_key (s_all s)) ->
  (forall x, In x (s_all s) -> x_bad x = false) ->
  (forall k, In k ks -> exists x, In x (s_all s) /\ x_key x = k /\ x_per x = PNone /\
     x_key x / c_bucket c * c_bucket c + c_bucket c <= N) ->
  mics c N (marks ok) (s, olist cur ++ e)
    (fst (mark ok ks s cur), olist (snd (mark ok ks s cur)) ++ e).
Proof.
  intros c N ok. induction ks as [|k r IH]; intros s cur e HB HK HS HBD HP; cbn [mark].
  - constructor.
  - inversion HK as [|? ? HK' HF]; subst. rewrite Forall_forall in HF.
    destruct (HP k (or_introl eq_refl)) as (x & Hx & EX & EP & HL).
    assert (H0 : held s k x) by (split; [exact HS|split; assumption]).
    fold (done_pst ok). fold (done_ev k ok).
    set (s2 := emit (upd k (idx_per (done_pst ok)) s) (done_ev k ok)).
    assert (M1 : forall h, mics c N (marks ok) (s, h) (s2, h)).
    { intros h. eapply mics_one; [|eapply m_mark; [exact H0|exact EP|exact HL]]. reflexivity. }
    assert (H2 : held s2 k (idx_per (done_pst ok) x)).
    { eapply soft_held; [|apply upd_held; [reflexivity|exact H0]]. reflexivity. }
    rewrite (find_held _ _ _ H2). cbn [idx_per x_bad x_snap]. rewrite (HBD x Hx).
    assert (KEEP : forall s3 f, s_all s3 = map (fun x => if x_key x =? k then f x else x) (s_all s2) ->
      (forall x, x_key (f x) = x_key x) -> (forall y, x_bad y = false -> x_bad (f y) = false) ->
      StronglySorted Z.lt (map x_key (s_all s3)) /\
      (forall y, In y (s_all s3) -> x_bad y = false) /\
      (forall a, In a r -> exists y, In y (s_all s3) /\ x_key y = a /\ x_per y = PNone /\
         x_key y / c_bucket c * c_bucket c + c_bucket c <= N)).
    { intros s3 f EA FK FB. split; [|split].
      - rewrite EA, upd_key by exact FK. apply H2.
      - intros y Hy. rewrite EA in Hy. apply in_map_iff in Hy. destruct Hy as (z & <- & Hz).
        unfold s2 in Hz. cbn [emit s_all] in Hz. rewrite upd_all in Hz.
        apply in_map_iff in Hz. destruct Hz as (w & <- & Hw). specialize (HBD w Hw).
        destruct (x_key w =? k) eqn:E; cbn [idx_per x_key]; rewrite E;
          [apply FB; exact HBD|exact HBD].
      - intros a Ha. destruct (HP a (or_intror Ha)) as (y & Hy & EY & PY & LY).
        specialize (HF a Ha). exists y. split; [|split; [exact EY|split; [exact PY|exact LY]]].
        assert (EK : x_key y =? k = false) by lia.
        rewrite EA. apply in_map_iff. exists y. rewrite EK. split; [reflexivity|].
        unfold s2. cbn [emit s_all]. rewrite upd_all. apply in_map_iff. exists y.
        rewrite EK. split; [reflexivity|exact Hy]. }
    destruct (x_snap x) as [n|] eqn:ES.
    + set (s3 := match cur with Some m => close_free s2 m | None => s2 end).
      assert (E3 : s_all s3 = s_all s2).
      { unfold s3. destruct cur; [apply (f_all _ _ (soft_close_free s2 i))|reflexivity]. }
      assert (M3 : mics c N (marks ok) (s2, olist cur ++ e) (s3, e)).
      { unfold s3. destruct cur as [m|]; cbn [olist app]; [|constructor].
        eapply mics_one; [|apply m_drop]. exact I. }
      assert (M4 : mics c N (marks ok) (s3, e) (upd k (idx_snap None) s3, n :: e)).
      { eapply mics_one; [|eapply (m_take c N s3 e k (idx_per (done_pst ok) x) n)].
        - exact I.
        - eapply soft_held; [exact E3|exact H2].
        - exact ES.
        - assert (x_key x / c_bucket c = x_key x / c_bucket c) as H by reflexivity.
          apply bucket_of in H; [lia|exact HB]. }
      destruct (KEEP (upd k (idx_snap None) s3) (idx_snap None)) as (K1 & K2 & K3).
      { rewrite upd_all, E3. reflexivity. }
      { reflexivity. }
      { reflexivity. }
      specialize (IH (upd k (idx_snap None) s3) (Some n) e HB HK' K1 K2 K3).
      cbn [olist app] in IH.
      eapply mics_app; [apply M1|]. eapply mics_app; [exact M3|].
      eapply mics_app; [exact M4|exact IH].
    + destruct (KEEP s2 (fun y => y)) as (K1 & K2 & K3).
      { rewrite <- map_id at 1. apply map_ext. intros y. destruct (x_key y =? k); reflexivity. }
      { reflexivity. }
      { intros y H. exact H. }
      eapply mics_app; [apply M1|]. apply IH; assumption.
Qed.

Lemma finish_mics : forall c N s s2 s3 hi ok snap prev ks e F L,
  inv c N s2 -> inv c N s3 -> fewer s2 s3 ->
  (forall a, In a (s_pend s2) -> In a (map x_key (s_all s3))) ->
  (forall n, snap = Some n -> in_hand s s2 ks prev n) ->
  (forall k x m, prev = Some k -> In x (s_all s3) -> x_key x = k -> x_snap x = Some m -> k < N) ->
  mics c N (pers F ok L) (s3, olist snap ++ e) (finish c s3 hi ok snap prev, e).
Proof.
  intros c N s s2 s3 hi ok snap prev ks e F L I2 I3 FW HP HH HN. unfold finish.
  destruct snap as [n|]; [|constructor]. specialize (HH n eq_refl). cbn [olist app].
  destruct (negb ok && negb (hi <=? sn_max n)) eqn:EO.
  { eapply mics_one; [|apply m_ack; apply (wr_wfr c N s3 I3)].
    cbn [pers]. destruct ok; [discriminate EO|reflexivity]. }
  destruct prev as [k|].
  - destruct (find k (s_all s3)) as [y|] eqn:EF.
    2:{ exfalso. destruct HH as (_ & HK & _). apply HP in HK. apply in_map_iff in HK.
        destruct HK as (y & E & Hy). eapply find_none; [exact EF|exact Hy|exact E]. }
    apply find_some in EF. destruct EF as [Hy EY]. rewrite (v_bad _ _ _ I3 y Hy).
    assert (H3 : held s3 k y) by (split; [apply (v_sort _ _ _ I3)|split; assumption]).
    assert (PY : x_per y = PNone).
    { destruct HH as (_ & HK & _).
      eapply (fewer_pend c N s2 s3 k I2 I3 FW HK); [|exact Hy|exact EY].
      rewrite <- EY. apply in_map. exact Hy. }
    destruct (x_snap y) as [m|] eqn:ES.
    + eapply mics_cons; [|eapply (m_take c N s3 (n :: e) k y m); [exact H3|exact ES|]|].
      * exact I.
      * exact (HN k y m eq_refl Hy EY ES).
      * (* the hand has m first *)
        eapply mics_cons; [|apply m_drop|]; [exact I|].
        assert (E : upd k (idx_snap (Some n)) (close_free s3 m) =
          upd k (idx_snap (Some n)) (close_free (upd k (idx_snap None) s3) m)).
        { rewrite close_free_upd, upd_upd by reflexivity. apply upd_ext. intros; reflexivity. }
        rewrite E. eapply mics_one; [|eapply (m_give c N _ e k (idx_snap None y) n)].
        -- exact I.
        -- eapply soft_held; [apply (f_all _ _ (soft_close_free _ m))|].
           apply upd_held; [reflexivity|exact H3].
        -- reflexivity.
        -- exact PY.
    + eapply mics_one; [|eapply (m_give c N s3 e k y n); [exact H3|exact ES|exact PY]]. exact I.
  - destruct HH as (_ & HFIT). eapply mics_one; [|apply m_write].
    + exact I.
    + apply (v_nowr _ _ _ I3).
    + eapply fit_snap_fewer; eassumption.
Qed.

Lemma queues_quiet : forall s p d, quiet s (set_queues s p d).
Proof.
  intros s p d. exists p, d, (s_bucket s), (s_orc s). split; [|tauto]. destruct s. reflexivity.
Qed.

Lemma pop_quiet : forall s, quiet s (snd (pop s)).
Proof.
  intros s. unfold pop. destruct (s_orc s) as [|b r] eqn:E; cbn [snd].
  - exists (s_pend s), (s_done s), (s_bucket s), []. split; [|reflexivity].
    destruct s; cbn in *; subst; reflexivity.
  - exists (s_pend s), (s_done s), (s_bucket s), r. split; [|congruence].
    destruct s; reflexivity.
Qed.

Lemma bucket_quiet : forall s b, quiet s (set_bucket s b).
Proof.
  intros s b. exists (s_pend s), (s_done s), b, (s_orc s). split; [|tauto]. destruct s; reflexivity.
Qed.

Lemma quiet_mics : forall c N (P : lab -> Prop) s s' e,
  P LQuiet -> quiet s s' -> mics c N P (s, e) (s', e).
Proof. intros c N P s s' e HP H. eapply mics_one; [exact HP|apply m_quiet; exact H]. Qed.

(* In a range that is written, or before it, everything was closed. *)
Lemma persisted_run : forall c N nf s b ok e,
  1 <= c_bucket c -> 0 <= c_init c -> inv c N s ->
  b * c_bucket c + c_bucket c <= N ->
  run c N (pers (fun k => nf = false /\ older c s k) ok) (s, e)
    (persisted c nf s (b * c_bucket c) (b * c_bucket c + c_bucket c) ok, e).
Proof.
  intros c N nf s b ok e HB HC HI HN.
  destruct (persisted_shape c N nf s b ok HB HI HN) as [[E _]|H].
  { rewrite E. apply run_nil. }
  destruct H as (x & ks & s2 & snap & prev & Hx & EPX & EXB & HK & HKS & HPS & EM & EA &
      ER & I2 & HH & _ & HPV & E).
  rewrite E. destruct (free_non_forced_ok c N nf s2 I2) as (I3 & F3 & L3 & P3).
  set (F := fun k => nf = false /\ older c s k).
  eapply run_app; [apply pers_mono| |].
  - eapply run_app; [apply pers_mono| |].
    + (* the queues *)
      instantiate (1 := (set_queues s (s_pend s2) (s_done s2), e)).
      apply run_all. intros L. apply quiet_mics; [exact I|apply queues_quiet].
    + (* the loop *)
      instantiate (1 := (s2, olist snap ++ e)).
      pose proof (mark_mics c N ok ks (set_queues s (s_pend s2) (s_done s2)) None e HB HKS
        (v_sort _ _ _ HI) (v_bad _ _ _ HI)) as M.
      rewrite EM in M. cbn [fst snd olist app] in M.
      apply run_of in M; [|].
      * eapply run_imp; [|exact M]. intros L l Hl.
        destruct l; cbn [marks pers] in *; try contradiction; try exact I. exact Hl.
      * intros k Hk. apply HK in Hk. destruct Hk as [Hk1 Hk2]. apply in_map_iff in Hk2.
        destruct Hk2 as (y & EY & Hy). exists y. split; [exact Hy|]. split; [exact EY|].
        split; [apply HPS; [exact Hy|apply HK; rewrite EY; split; [exact Hk1|]; rewrite <- EY; apply in_map; exact Hy]|].
        assert (EB : x_key y / c_bucket c = b) by (apply bucket_of; [exact HB|lia]).
        rewrite EB. exact HN.
  - eapply run_app; [apply pers_mono| |].
    + (* what is not forced is freed *)
      instantiate (1 := (free_non_forced c nf s2, olist snap ++ e)).
      destruct nf.
      * rewrite nofree_non_forced. apply run_nil.
      * destruct (free_non_forced_run c N ok s2 (olist snap ++ e) HB HC I2) as [R _].
        eapply run_imp; [|exact R]. intros L l Hl.
        destruct l; cbn [pers] in *; try exact Hl.
        destruct Hl as (A1 & A2 & A3). split; [exact A1|]. split; [|exact A3].
        split; [reflexivity|]. destruct A2 as (l & EL & LL). exists l. split; [|exact LL].
        rewrite (r_last _ _ ER) in EL. exact EL.
    + (* the snapshot *)
      assert (M : forall L, mics c N (pers F ok L) (free_non_forced c nf s2, olist snap ++ e)
        (finish c (free_non_forced c nf s2) (b * c_bucket c + c_bucket c) ok snap prev, e)).
      { intros L. apply (finish_mics c N s s2 _ _ ok snap prev ks e F L I2 I3 F3 P3 HH).
        intros k z m EP _ _ _. specialize (HPV k EP). lia. }
      apply run_all. exact M.
Qed.
