(* Proofs about the segment index: invariants of the small steps are invariants
   of the channel. *)

From Coq Require Import ZArith List Bool Lia ZifyBool Sorted.
From Verif Require Import IdxModel IdxSpec IdxProofs IdxProofs2 IdxProofs3 IdxProofs4 IdxProofs5.
Import ListNotations.
Open Scope Z_scope.

(* An operation and its small steps. *)
Definition decomp (c : conf) (P : lab -> Prop) (s : st) (o : op) : Prop :=
  match o with
  | IReady ex =>
      ready c s ex = fail s \/
      exists s', ready c s ex = set_next s' (s_next s + 1) /\ s_next s' = s_next s /\
        (exists x, In x (s_all s) /\ x_key x = s_next s) /\
        (forall l, s_last s = Some l -> l < s_next s) /\
        mics c (s_next s + 1) P (opened s ex, []) (s', [])
  | IMediaDone b ok => mics c (s_next s) P (s, []) (media_done c false s b ok, [])
  | IWriteDone _ _ => forall n, P (LWrite n)
  | IWatermark => mics c (s_next s) P (s, []) (watermark c s, [])
  | IExpire m => mics c (s_next s) P (set_min s m, []) (expire s m, [])
  | IInactive =>
      exists s', inactive c s = set_next s' (round_up (s_next s) (c_bucket c)) /\
        s_next s' = s_next s /\
        mics c (round_up (s_next s) (c_bucket c)) P (s, []) (s', [])
  | _ => True
  end.

Lemma decomp_any : forall c s o,
  1 <= c_bucket c -> 0 <= c_init c -> inv c (s_next s) s -> fits s o ->
  decomp c (fun _ => True) s o.
Proof.
  intros c s o HB HC HI [HE HF]. destruct o; cbn [decomp]; try exact I.
  - destruct (ready_run c s ex [] HB HC HI) as [E|(s' & A & B & D & D2 & (L & _ & M) & _)];
      [left; exact E|right].
    exists s'. split; [exact A|]. split; [exact B|]. split; [exact D|]. split; [exact D2|].
    eapply mics_imp; [|exact M]. intros l _. exact I.
  - destruct HF as (x & Hx & Hb).
    destruct (media_done_run c (s_next s) false s b ok [] HB HC HI (v_cw _ _ _ HI x b Hx Hb))
      as (L & _ & M).
    eapply mics_imp; [|exact M]. intros l _. exact I.
  - intros n. exact I.
  - destruct (watermark_run c (s_next s) s [] HB HC HI ltac:(lia)) as (L & _ & M).
    eapply mics_imp; [|exact M]. intros l _. exact I.
  - eapply mics_imp; [|apply (expire_mics c (s_next s) s m [] HI HF)]. intros l _. exact I.
  - destruct (inactive_run c s [] HB HC HI) as (s' & A & B & (L & _ & M)).
    exists s'. split; [exact A|]. split; [exact B|].
    eapply mics_imp; [|exact M]. intros l _. exact I.
Qed.

(* The end of the write of an index or delta file, before the snapshot that
   waits gets its turn. *)
Definition ended (s : st) (f : file) (fr : Z) (ok stored : bool) : st :=
  let s := set_write (frames_ack s fr) None None in
  let s := if ok || stored
           then if fi_delta f then set_files s (s_index s) (Some f)
                else set_files s (Some f) (s_delta s)
           else s in
  let s := if ok
           then emit (if fi_delta f then set_succ s (s_succ s) (fi_max f)
                      else set_succ s (fi_max f) (s_succd s)) (EStored f)
           else s in
  set_psnap s None.

Lemma set_psnap_id : forall s p, s_psnap s = p -> set_psnap s p = s.
Proof. intros [] p E. cbn in E. subst p. reflexivity. Qed.

Lemma ended_psnap : forall s f fr ok stored,
  let s1 := set_write (frames_ack s fr) None None in
  let s2 := if ok || stored
           then if fi_delta f then set_files s1 (s_index s1) (Some f)
                else set_files s1 (Some f) (s_delta s1)
           else s1 in
  let s3 := if ok
           then emit (if fi_delta f then set_succ s2 (s_succ s2) (fi_max f)
                      else set_succ s2 (fi_max f) (s_succd s2)) (EStored f)
           else s2 in
  s_psnap s3 = s_psnap s.
Proof.
  intros s f fr ok stored. cbv zeta.
  assert (E : s_psnap (set_write (frames_ack s fr) None None) = s_psnap s).
  { unfold frames_ack, frames_free. destruct (_ <=? 0); reflexivity. }
  rewrite <- E. set (s1 := set_write (frames_ack s fr) None None). clearbody s1.
  destruct ok, stored, (fi_delta f); reflexivity.
Qed.

Lemma write_done_ended : forall c s f fr ok stored,
  s_wr s = Some f -> s_wfr s = Some fr ->
  write_done c s ok stored =
  match s_psnap s with
  | Some n => close_write c (ended s f fr ok stored) n
  | None => ended s f fr ok stored
  end.
Proof.
  intros c s f fr ok stored EW EF. unfold write_done. rewrite EW, EF.
  pose proof (ended_psnap s f fr ok stored) as E. cbv zeta in E. rewrite E.
  destruct (s_psnap s) as [n|]; [reflexivity|].
  unfold ended. rewrite set_psnap_id; [reflexivity|exact E].
Qed.

(* The state in which the write ended can start the next. *)
Lemma ended_ok : forall c N s f fr ok stored,
  inv c N s -> s_wr s = Some f -> s_wfr s = Some fr ->
  inv c N (ended s f fr ok stored) /\ same_idx s (ended s f fr ok stored) /\
  (forall g, In (EStart g) (s_out (ended s f fr ok stored)) <-> In (EStart g) (s_out s)) /\
  s_wr (ended s f fr ok stored) = None /\ s_wfr (ended s f fr ok stored) = None /\
  (forall n, s_psnap s = Some n -> fit_snap (ended s f fr ok stored) n).
Proof.
  intros c N s f fr ok stored HI EW EF.
  pose proof (soft_ack s fr) as S. pose proof (soft_inv _ _ _ _ S HI) as I1.
  unfold ended. set (s1 := frames_ack s fr) in *.
  set (s2 := set_write s1 None None).
  set (s3 := if ok || stored
             then if fi_delta f then set_files s2 (s_index s2) (Some f)
                  else set_files s2 (Some f) (s_delta s2)
             else s2).
  set (s4 := if ok
             then emit (if fi_delta f then set_succ s3 (s_succ s3) (fi_max f)
                        else set_succ s3 (fi_max f) (s_succd s3)) (EStored f)
             else s3).
  assert (S4 : soft s2 s4).
  { assert (S3 : soft s2 s3).
    { unfold s3. destruct (ok || stored); [|apply soft_refl].
      destruct (fi_delta f); split; reflexivity. }
    eapply soft_trans; [exact S3|]. unfold s4. destruct ok; [|apply soft_refl].
    eapply soft_trans; [|apply soft_emit; intros g; discriminate].
    destruct (fi_delta f); split; reflexivity. }
  assert (W4 : s_wr s4 = None /\ s_wfr s4 = None).
  { split; [rewrite (f_wr _ _ S4); reflexivity|]. apply (f_wfr _ _ S4). reflexivity. }
  assert (SI : same_idx s s4).
  { destruct (soft_same _ _ S) as (A1 & A2 & A3 & A4 & A5 & A6 & A7 & A8).
    destruct (soft_same _ _ S4) as (B1 & B2 & B3 & B4 & B5 & B6 & B7 & B8).
    unfold s2 in *. cbn [set_write s_all s_pend s_done s_last s_next s_min s_top s_bucket] in *.
    repeat split; congruence. }
  assert (OUT : forall g, In (EStart g) (s_out s4) <-> In (EStart g) (s_out s)).
  { intros g. rewrite (f_out _ _ S4). unfold s2. cbn [set_write s_out].
    apply (f_out _ _ S). }
  assert (I5 : inv c N (set_psnap s4 None)).
  { assert (I2 : inv c N (set_psnap s2 None)).
    { destruct I1 as []. split; try assumption.
      - intros g E. discriminate E.
      - intros _. split; reflexivity.
      - intros n E. discriminate E. }
    eapply soft_inv; [|exact I2].
    destruct S4 as []. split; try assumption. reflexivity. }
  split; [exact I5|]. split; [exact SI|]. split; [exact OUT|].
  split; [apply W4|]. split; [apply W4|].
  intros p EPS. destruct (v_ps _ _ _ HI p EPS) as [HC HF].
  destruct SI as (A1 & A2 & A3 & A4 & A5 & A6 & A7 & A8).
  split; [|split].
  - destruct HC as [C1 C2].
    split; cbn [set_psnap s_top s_all]; [rewrite A7|rewrite A1]; assumption.
  - intros g Hg. apply HF, OUT. exact Hg.
  - intros q E. discriminate E.
Qed.

Section Gen.

Variable c : conf.
Variable P : lab -> Prop.
Variable J : Z -> st * hand -> Prop.
Variable Q : st -> op -> Prop.

Hypothesis HB : 1 <= c_bucket c.
Hypothesis HC : 0 <= c_init c.
Hypothesis J_mic : forall N l a b, P l -> J N a -> mic c N l a b -> J N b.
Hypothesis J_mono : forall N M s, N <= M -> J N (s, []) -> J M (s, []).
Hypothesis J_fail : forall N s, J N (s, []) -> J N (fail s, []).
Hypothesis J_open : forall s ex x,
  Q s (IReady ex) -> inv c (s_next s) s -> s_err s = false -> In x (s_all s) -> x_key x = s_next s ->
  (forall l, s_last s = Some l -> l < s_next s) ->
  J (s_next s) (s, []) -> J (s_next s + 1) (opened s ex, []).
Hypothesis J_next : forall N s, s_next s <= N -> J N (s, []) -> J N (set_next s N, []).
Hypothesis J_min : forall N s m, Q s (IExpire m) -> s_min s <= m <= N -> J N (s, []) -> J N (set_min s m, []).
Hypothesis J_create : forall s k,
  inv c (s_next s) s -> s_next s <= k -> s_top s < k -> k < 4294967295 ->
  J (s_next s) (s, []) ->
  J (s_next s) (create s k, []).
Hypothesis J_snap : forall s x,
  inv c (s_next s) s -> In x (s_all s) -> s_next s <= x_key x -> x_snap x = None ->
  J (s_next s) (s, []) ->
  J (s_next s) (set_snaps (emit (upd (x_key x) (idx_snap (Some (Isnap (x_key x) (x_key x)))) s)
    (ESnap (x_key x))) (s_snaps s + 1), []).
Hypothesis J_lock : forall N s k i,
  J N (s, []) -> J N (upd k (fun x => idx_cln (x_cln x ++ [CRead i]) x) s, []).
Hypothesis J_unlock : forall N s i, J N (s, []) -> J N (unlock (is_cr i) s, []).
Hypothesis J_done : forall N s f fr ok stored,
  Q s (IWriteDone ok stored) -> inv c N s -> s_wr s = Some f -> s_wfr s = Some fr ->
  (forall n, s_psnap s = Some n -> fit_snap (ended s f fr ok stored) n) ->
  J N (s, []) -> J N (ended s f fr ok stored, olist (s_psnap s)).
Hypothesis J_hist : forall s, J (s_next s) (s, []) -> J (s_next s) (history_changed s, []).

Lemma mics_J : forall N a b, mics c N P a b -> J N a -> J N b.
Proof using J J_mic P c.
  clear - J_mic.
  intros N a b H. induction H as [a|l a b d HP HM H IH]; intros HJ; [exact HJ|].
  apply IH. eapply J_mic; eassumption.
Qed.

Lemma step_J : forall s o,
  inv c (s_next s) s -> fits s o -> decomp c P s o -> Q s o ->
  J (s_next s) (s, []) -> J (s_next (step c s o)) (step c s o, []).
Proof using All.
  intros s o HI [HE HF] HD HQ HJ. destruct o; cbn [step decomp] in *.
  - destruct HF as (A & B & C). exact (J_create s k HI A B C HJ).
  - destruct HF as (-> & x & EL & HL).
    assert (E : s_next (create_snap s true) = s_next s).
    { unfold create_snap. rewrite EL. destruct (x_bad x); [reflexivity|].
      destruct (x_snap x); reflexivity. }
    rewrite E. unfold create_snap. rewrite EL.
    destruct (last_idx_some _ _ EL) as (r & ER).
    assert (Hx : In x (s_all s)) by (rewrite ER; apply in_or_app; right; left; reflexivity).
    rewrite (v_bad _ _ _ HI x Hx).
    destruct (x_snap x) as [n|] eqn:ES; [apply J_fail; exact HJ|].
    exact (J_snap s x HI Hx HL ES HJ).
  - destruct HD as [E|(s' & A & B & (x & Hx & EX) & D2 & M)].
    + rewrite E. apply J_fail. exact HJ.
    + rewrite A. cbn [set_next s_next]. apply J_next; [lia|].
      eapply mics_J; [exact M|]. exact (J_open s ex x HQ HI HE Hx EX D2 HJ).
  - destruct HF as (x & Hx & Hb).
    destruct (media_done_ok c (s_next s) false s b ok HB HI (v_cw _ _ _ HI x b Hx Hb))
      as (A & B & _).
    rewrite B. eapply mics_J; [exact HD|exact HJ].
  - apply (J_lock (s_next s) s k id HJ).
  - apply (J_unlock (s_next s) s id HJ).
  - destruct (write_done_ok c (s_next s) s ok stored HI HF) as (A & _ & _ & _ & _ & B & _).
    rewrite B. destruct (s_wr s) as [f|] eqn:EW; [|congruence].
    destruct (v_wr _ _ _ HI f EW) as [_ HWF].
    destruct (s_wfr s) as [fr|] eqn:EF; [|congruence].
    rewrite (write_done_ended c s f fr ok stored EW EF).
    destruct (ended_ok c (s_next s) s f fr ok stored HI EW EF) as (I5 & _ & _ & W1 & W2 & FS).
    pose proof (J_done (s_next s) s f fr ok stored HQ HI EW EF FS HJ) as JD.
    destruct (s_psnap s) as [n|]; cbn [olist] in JD; [|exact JD].
    eapply J_mic; [apply (HD n)|exact JD|]. apply m_write.
    + apply (v_nowr _ _ _ I5).
    + apply FS. reflexivity.
  - destruct (watermark_ok c (s_next s) s HB HI) as (A & B & _). rewrite B.
    eapply mics_J; [exact HD|exact HJ].
  - destruct (expire_ok c (s_next s) s m HI ltac:(tauto)) as (A & B). rewrite B.
    eapply mics_J; [exact HD|]. apply J_min; assumption.
  - exact (J_hist s HJ).
  - destruct HD as (s' & A & B & M). rewrite A. cbn [set_next s_next].
    pose proof (round_up_ge (s_next s) (c_bucket c) HB).
    apply J_next; [lia|]. eapply mics_J; [exact M|].
    eapply J_mono; [|exact HJ]. assumption.
  - destruct HF.
Qed.

End Gen.
