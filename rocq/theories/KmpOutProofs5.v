(* Where acknowledged positions come from, and the start of a connection. *)
From Coq Require Import ZArith List Bool Lia Arith.
From Coq Require Import ZifyBool ZifyNat.
From Verif Require Import Bytes KmpInModel KmpInSpec KmpOutModel KmpOutSpec KmpOutProofs
  KmpOutProofs2 KmpOutProofs3 KmpOutProofs4.
Import ListNotations.
Open Scope Z_scope.

(* Acknowledging does not touch the connection. *)
Lemma ack_packet_io c t u h :
  match ack_packet c t u h with PkOk u' | PkDone u' | PkErr u' => same_io u u' | PkBug => True end.
Proof.
  unfold ack_packet. repeat (destruct (_ =? _)); try (destruct (stream_read _ _ _ _));
    auto using same_io_refl; unfold same_io; cbn; auto 20.
Qed.

Lemma ack_loop_io fuel c t : forall u limit lft n,
  match ack_loop fuel c t u limit lft n with
  | LpDeclined u' _ _ | LpDone u' _ => same_io u u'
  | _ => True
  end.
Proof.
  induction fuel as [|fuel IH]; intros u limit lft n; cbn [ack_loop]; [exact Logic.I|].
  unfold read_packet. destruct (_ <? _); [apply same_io_refl|].
  destruct (stream_read _ _ _ _) as [h| | |]; try exact Logic.I.
  destruct (_ <? _); [apply same_io_refl|].
  set (u1 := set_reader _ _).
  assert (I1 : same_io u u1) by (unfold same_io; cbn; auto 20).
  pose proof (ack_packet_io c t u1 h) as P.
  destruct (ack_packet c t u1 h) as [u2|u2|u2|]; try exact Logic.I.
  - pose proof (same_io_trans _ _ _ I1 P) as I2.
    destruct (_ <=? _); [exact I2|].
    specialize (IH u2 limit (lft - packet_size h) (n + 1)).
    destruct (ack_loop _ _ _ _ _ _ _); try exact Logic.I; exact (same_io_trans _ _ _ I2 IH).
  - exact (same_io_trans _ _ _ I1 P).
Qed.

Lemma auto_ack_io c t u lft :
  match auto_ack c t u lft with AaOk u' _ => same_io u u' | _ => True end.
Proof.
  unfold auto_ack. pose proof (ack_loop_io (loop_fuel t) c t u (ack_limit t u) lft 0) as H.
  destruct (ack_loop _ _ _ _ _ _ _); auto.
Qed.

(* The bytes of a connection, sent and unsent, are not changed by sending. *)
Lemma send_chain_bytes c t u n :
  match send_chain c t u n with
  | UpOk u' => u_out u' ++ u_busy u' = u_out u ++ u_busy u /\ u_id u' = u_id u
  | UpErr _ | UpBug => True
  end.
Proof.
  unfold send_chain. destruct (u_queued u); cbn [negb]; [|auto].
  destruct n as [k|]; [|exact Logic.I].
  set (u1 := set_io _ _ _ _ _ _).
  assert (E : u_out u1 ++ u_busy u1 = u_out u ++ u_busy u /\ u_id u1 = u_id u).
  { unfold u1. cbn. rewrite <- app_assoc, firstn_skipn. auto. }
  destruct (is_acked (u_mode u)); [exact E|].
  pose proof (auto_ack_io c t u1 max_size) as H.
  destruct (auto_ack c t u1 max_size) as [u2 m|u2|]; auto.
  destruct H as (H1 & _ & _ & _ & _ & _ & _ & H8 & _ & _ & H11).
  rewrite H8, H11, H1. exact E.
Qed.

(* A failed automatic acknowledgement keeps the id and the mode. *)
Lemma ack_loop_err fuel c t : forall u limit lft n,
  match ack_loop fuel c t u limit lft n with
  | LpErr u' => u_id u' = u_id u /\ u_mode u' = u_mode u
  | _ => True
  end.
Proof.
  induction fuel as [|fuel IH]; intros u limit lft n; cbn [ack_loop]; [exact Logic.I|].
  unfold read_packet. destruct (_ <? _); [exact Logic.I|].
  destruct (stream_read _ _ _ _) as [h| | |]; try exact Logic.I; [|split; reflexivity].
  destruct (_ <? _); [exact Logic.I|].
  set (u1 := set_reader _ _).
  assert (I1 : u_id u1 = u_id u /\ u_mode u1 = u_mode u) by (split; reflexivity).
  pose proof (ack_packet_io c t u1 h) as P.
  destruct (ack_packet c t u1 h) as [u2|u2|u2|]; try exact Logic.I.
  - destruct P as (P1 & P2 & _).
    destruct (_ <=? _); [exact Logic.I|].
    specialize (IH u2 limit (lft - packet_size h) (n + 1)).
    destruct (ack_loop _ _ _ _ _ _ _); try exact Logic.I.
    destruct IH as [J1 J2]. destruct I1 as [K1 K2]. split; congruence.
  - destruct P as (P1 & P2 & _). destruct I1. cbn. split; congruence.
Qed.

Lemma auto_ack_err c t u lft :
  match auto_ack c t u lft with
  | AaErr u' => u_id u' = u_id u /\ u_mode u' = u_mode u
  | _ => True
  end.
Proof.
  unfold auto_ack. pose proof (ack_loop_err (loop_fuel t) c t u (ack_limit t u) lft 0) as H.
  destruct (ack_loop _ _ _ _ _ _ _); auto.
Qed.

(* [quiet u u']: an upstream that waits for acknowledgements got none. *)
Definition quiet (u u' : upstream) : Prop :=
  u_id u' = u_id u /\ u_mode u' = u_mode u /\
  (u_mode u = LastAcked -> u_acked_id u' = u_acked_id u).

Lemma quiet_refl u : quiet u u.
Proof. unfold quiet; auto. Qed.
Lemma quiet_trans u v x : quiet u v -> quiet v x -> quiet u x.
Proof.
  unfold quiet. intros (A1 & A2 & A3) (B1 & B2 & B3).
  split; [congruence|]. split; [congruence|]. intros H. rewrite B3, A3; congruence.
Qed.

Lemma auto_ack_quiet c t u lft :
  u_mode u <> LastAcked -> match auto_ack c t u lft with AaOk u' _ => quiet u u' | _ => True end.
Proof.
  intros Hm. pose proof (auto_ack_io c t u lft) as H.
  destruct (auto_ack c t u lft) as [u' n|u'|]; auto.
  destruct H as (H1 & H2 & _). unfold quiet. split; [exact H1|]. split; [exact H2|].
  intros E. contradiction.
Qed.

Lemma republish_quiet c t w u :
  match republish c t w u with
  | RepOk u' => quiet u u' /\ u_queued u' = false
  | RepDeclined u' => u' = u
  | RepErr u' => u_id u' = u_id u
  | RepBug => True
  end.
Proof.
  unfold republish. destruct (t_active t); [|reflexivity]. cbn [negb].
  destruct (negb (c_republish_url c) || u_no_republish u); [reflexivity|].
  destruct (w_allowed w (u_id u)); [|reflexivity]. cbn [negb].
  assert (G : forall u2, quiet u u2 -> u_queued u2 = false -> u_id u2 = u_id u ->
    match
      (if is_written (u_mode u2) then
         match auto_ack c t u2 max_size with
         | AaOk u3 _ => if w_now w (u_id u) then republish_send w u3 else RepOk (set_calling u3 true)
         | AaErr u3 => RepErr u3
         | AaBug => RepBug
         end
       else if w_now w (u_id u) then republish_send w u2 else RepOk (set_calling u2 true))
    with
    | RepOk u' => quiet u u' /\ u_queued u' = false
    | RepDeclined u' => u' = u
    | RepErr u' => u_id u' = u_id u
    | RepBug => True
    end).
  { intros u2 Q2 Hq Hid.
    assert (S : forall u3, quiet u u3 -> u_queued u3 = false ->
      match (if w_now w (u_id u) then republish_send w u3 else RepOk (set_calling u3 true)) with
      | RepOk u' => quiet u u' /\ u_queued u' = false
      | RepDeclined u' => u' = u
      | RepErr u' => u_id u' = u_id u
      | RepBug => True
      end).
    { intros u3 Q3 Hq3. unfold republish_send.
      destruct (w_now w (u_id u)); [destruct (w_http w (u_id u3))|]; try apply Q3;
        (split; [exact Q3|exact Hq3]). }
    destruct (is_written (u_mode u2)) eqn:M; [|apply S; assumption].
    pose proof (auto_ack_io c t u2 max_size) as H.
    assert (Hm : u_mode u2 <> LastAcked) by (intros E; rewrite E in M; discriminate).
    pose proof (auto_ack_quiet c t u2 max_size Hm) as Hqq.
    pose proof (auto_ack_err c t u2 max_size) as He.
    destruct (auto_ack c t u2 max_size) as [u3 n|u3|]; [|destruct He; congruence|exact Logic.I].
    apply S; [eapply quiet_trans; eassumption|].
    destruct H as (_ & _ & _ & _ & _ & _ & H7 & _). congruence. }
  destruct (u_queued u) eqn:Q.
  - destruct (u_busy u) eqn:Bz.
    + split; [|reflexivity]. unfold quiet. cbn. auto.
    + apply (G (set_io (set_io u (u_sent_base u) None true (z :: l) (u_out u))
                 (u_sent_base u) None false [] (u_out u))); [|reflexivity|reflexivity].
      unfold quiet. cbn. auto.
  - apply (G (set_io u (u_sent_base u) None false (u_busy u) (u_out u)));
      [|reflexivity|reflexivity].
    unfold quiet. cbn. auto.
Qed.

Lemma send_chain_quiet c t u n :
  match send_chain c t u n with UpOk u' => quiet u u' | _ => True end.
Proof.
  unfold send_chain. destruct (u_queued u); cbn [negb]; [|apply quiet_refl].
  destruct n as [k|]; [|exact Logic.I].
  set (u1 := set_io _ _ _ _ _ _).
  assert (Q1 : quiet u u1) by (unfold quiet, u1; cbn; auto).
  destruct (is_acked (u_mode u)) eqn:M; [exact Q1|].
  assert (Hm : u_mode u1 <> LastAcked).
  { unfold u1. cbn. intros E. rewrite E in M. discriminate. }
  pose proof (auto_ack_quiet c t u1 max_size Hm) as H.
  destruct (auto_ack c t u1 max_size); auto.
Qed.

Lemma send_chain_err c t u n u' :
  u_mode u = LastAcked -> send_chain c t u n = UpErr u' -> u' = u.
Proof.
  intros M. unfold send_chain. rewrite M. destruct (u_queued u); cbn [negb is_acked]; [|discriminate].
  destruct n; [discriminate|]. congruence.
Qed.

Lemma send_chain_err_id c t u n u' :
  send_chain c t u n = UpErr u' -> u_id u' = u_id u /\ u_mode u' = u_mode u.
Proof.
  unfold send_chain. destruct (u_queued u); cbn [negb]; [|discriminate].
  destruct n as [k|]; [|intros H; inversion H; auto].
  set (u1 := set_io _ _ _ _ _ _).
  destruct (is_acked (u_mode u)); [discriminate|].
  unfold auto_ack. pose proof (ack_loop_err (loop_fuel t) c t u1 (ack_limit t u1) max_size 0) as H.
  destruct (ack_loop _ _ _ _ _ _ _); try discriminate. intros E. inversion E; subst. exact H.
Qed.

Lemma err_quiet c t u n u' : send_chain c t u n = UpErr u' -> quiet u u'.
Proof.
  intros E. destruct (send_chain_err_id _ _ _ _ _ E) as [E1 E2].
  split; [exact E1|]. split; [exact E2|]. intros M. rewrite (send_chain_err _ _ _ _ _ M E). reflexivity.
Qed.

Lemma send_quiet c t w u : match send c t w u with UpOk u' => quiet u u' | _ => True end.
Proof.
  unfold send. destruct (u_conn u); [|apply quiet_refl].
  pose proof (send_chain_quiet c t u (w_send w (u_id u))) as H.
  destruct (send_chain c t u (w_send w (u_id u))) as [u1|u1|] eqn:E; [exact H| |exact Logic.I].
  apply err_quiet in E. pose proof (republish_quiet c t w u1) as R.
  destruct (republish c t w u1) as [u2|u2|u2|]; try exact Logic.I.
  destruct R as [R _]. eapply quiet_trans; eassumption.
Qed.

Lemma append_buffer_quiet c t w u data :
  match append_buffer c t w u data with UpOk u' => quiet u u' | _ => True end.
Proof.
  unfold append_buffer. destruct (u_queued u); [unfold quiet; cbn; auto|].
  assert (S : forall u1, quiet u u1 ->
    match
      match u_conn u1 with
      | Some _ => UpOk u1
      | None => if u_calling u1 then UpOk u1
                else match republish_send w u1 with
                     | RepOk u2 => UpOk u2
                     | RepDeclined u2 | RepErr u2 => UpErr u2
                     | RepBug => UpBug
                     end
      end
    with UpOk u' => quiet u u' | _ => True end).
  { intros u1 Q. destruct (u_conn u1); [exact Q|]. destruct (u_calling u1); [exact Q|].
    unfold republish_send. destruct (w_http w (u_id u1)); [exact Q|exact Logic.I]. }
  destruct (is_written (u_mode u)) eqn:M; [|apply S, quiet_refl].
  assert (Hm : u_mode u <> LastAcked) by (intros E; rewrite E in M; discriminate).
  pose proof (auto_ack_quiet c t u max_size Hm) as H.
  destruct (auto_ack c t u max_size); try exact Logic.I. apply S. exact H.
Qed.

(* every upstream of us' is an upstream of us *)
Definition from (us us' : list upstream) : Prop :=
  forall u', In u' us' -> exists u, In u us /\ quiet u u'.

Lemma from_refl us : from us us.
Proof. intros u H. exists u. auto using quiet_refl. Qed.
Lemma from_trans a b x : from a b -> from b x -> from a x.
Proof.
  intros H1 H2 u Hu. destruct (H2 u Hu) as (v & Hv & Q). destruct (H1 v Hv) as (y & Hy & Q').
  exists y. split; [exact Hy|]. eapply quiet_trans; eassumption.
Qed.

Lemma for_all_from f us us' :
  (forall u, match f u with UpOk u' => quiet u u' | _ => True end) ->
  for_all f us = AllOk us' -> from us us'.
Proof.
  intros Hf. revert us'. induction us as [|u us IH]; intros us' H; cbn [for_all] in H.
  - inversion H; subst. apply from_refl.
  - pose proof (Hf u) as Q. destruct (f u) as [u'|u'|]; try discriminate.
    destruct (for_all f us) as [r| |]; try discriminate. inversion H; subst.
    intros v [<-|Hv]; [exists u; split; [left; reflexivity|exact Q]|].
    destruct (IH r eq_refl v Hv) as (y & Hy & Qy). exists y. split; [right; exact Hy|exact Qy].
Qed.

Lemma append_all_from c t w t' : append_all c t w = Next t' -> from (t_ups t) (t_ups t').
Proof.
  unfold append_all. destruct (_ <=? _); [intros H; inversion H; subst; apply from_refl|].
  destruct (for_all _ _) as [us| |] eqn:E; [|intros H; inversion H; subst; apply from_refl|discriminate].
  apply for_all_from in E; [|intros u; apply append_buffer_quiet].
  cbv zeta. destruct (min_acked us); intros H; inversion H; subst; exact E.
Qed.

Lemma send_all_from c t w t' : send_all c t w = Next t' -> from (t_ups t) (t_ups t').
Proof.
  unfold send_all. destruct (w_pending w); cbn [negb]; [|intros H; inversion H; subst; apply from_refl].
  destruct (for_all _ _) as [us| |] eqn:E; [|intros H; inversion H; subst; apply from_refl|discriminate].
  apply for_all_from in E; [|intros u; apply send_quiet].
  intros H; inversion H; subst; exact E.
Qed.

Lemma write_loop_from c w fuel : forall t data t',
  write_loop fuel c t w data = Next t' -> from (t_ups t) (t_ups t').
Proof.
  induction fuel as [|fuel IH]; intros t data t'; cbn [write_loop]; [discriminate|].
  destruct data as [|b data]; [apply send_all_from|]. cbv zeta.
  set (t1 := set_stream _ _).
  destruct (_ <=? _).
  - destruct (append_all c t1 w) as [t2|] eqn:E; [|discriminate].
    apply append_all_from in E. change (t_ups t1) with (t_ups t) in E.
    destruct (t_dead t2); [intros H; inversion H; subst; exact E|].
    destruct (w_get w (t_nbufs t2)).
    + intros H. apply IH in H. eapply from_trans; [exact E|exact H].
    + intros H; inversion H; subst; exact E.
  - intros H. apply IH in H. exact H.
Qed.

Lemma replace_from us u u1 :
  In u us -> u_id u1 = u_id u -> quiet u u1 ->
  from us (replace us u1).
Proof.
  intros Hu Hid Q v Hv. unfold replace in Hv. apply in_map_iff in Hv.
  destruct Hv as (x & E & Hx). destruct (Nat.eqb_spec (u_id x) (u_id u1)) as [Ex|Ex].
  - subst v. exists u. auto.
  - subst v. exists x. auto using quiet_refl.
Qed.

Lemma remove_from us id : from us (remove us id).
Proof.
  intros v Hv. apply filter_In in Hv. exists v. split; [apply Hv|apply quiet_refl].
Qed.

Lemma free_notify_from t u : from (t_ups t) (t_ups (free_notify t u)).
Proof.
  unfold free_notify. destruct (u_required u); [apply remove_from|].
  destruct (remove (t_ups t) (u_id u)) eqn:E; cbn [t_ups set_ups set_dead]; [intros v []|].
  rewrite <- E. apply remove_from.
Qed.

Lemma upstream_error_from c t w u u1 t' :
  In u (t_ups t) -> u_id u1 = u_id u -> (quiet u u1 \/ u_no_republish u1 = true) ->
  upstream_error c t w u1 = Next t' -> from (t_ups t) (t_ups t').
Proof.
  intros Hu Hid Q. unfold upstream_error. destruct Q as [Q|Q].
  - pose proof (republish_quiet c t w u1) as R. destruct (republish c t w u1) as [u2|u2|u2|];
      intros H; inversion H; subst; try apply free_notify_from.
    destruct R as [R _]. cbn [t_ups set_ups]. pose proof (quiet_trans _ _ _ Q R) as QQ.
    apply (replace_from _ u); [exact Hu|apply QQ|exact QQ].
  - rewrite republish_declined by exact Q. intros H. inversion H; subst. apply free_notify_from.
Qed.

(* acknowledging a frame *)
Lemma ack_packet_id c t u h :
  match ack_packet c t u h with
  | PkOk u' => u_acked_id u <= u_acked_id u' <= u_acked_id u + 1
  | _ => True
  end.
Proof.
  unfold ack_packet. repeat (destruct (_ =? _)); try (destruct (stream_read _ _ _ _));
    cbn; auto; lia.
Qed.

Lemma ack_frames_loop_id fuel c t sent f : forall u,
  match ack_frames_loop fuel c t u sent f with
  | UpOk u' => same_io u u' /\ u_acked_id u' = Z.max (u_acked_id u) f
  | UpErr u' => u_id u' = u_id u /\ u_no_republish u' = true
  | UpBug => True
  end.
Proof.
  induction fuel as [|fuel IH]; intros u; cbn [ack_frames_loop]; [exact Logic.I|].
  destruct (f <=? u_acked_id u) eqn:L; [split; [apply same_io_refl|lia]|].
  destruct (sent <? _); [split; reflexivity|].
  destruct (stream_read _ _ _ _) as [h| | |]; try exact Logic.I; [|split; reflexivity].
  destruct (sent <? _); [split; reflexivity|].
  set (u1 := set_reader _ _).
  assert (I1 : same_io u u1) by (unfold same_io; cbn; auto 20).
  pose proof (ack_packet_io c t u1 h) as P. pose proof (ack_packet_id c t u1 h) as N.
  destruct (ack_packet c t u1 h) as [u2|u2|u2|]; try exact Logic.I.
  - specialize (IH u2). change (u_acked_id u1) with (u_acked_id u) in N.
    pose proof (same_io_trans _ _ _ I1 P) as I2.
    destruct (ack_frames_loop fuel c t u2 sent f) as [u3|u3|]; [| |exact Logic.I].
    + destruct IH as [J1 J2]. split; [eapply same_io_trans; eassumption|lia].
    + destruct IH as [J1 J2]. split; [destruct I2 as (E & _); congruence|exact J2].
  - cbn. split; [|reflexivity]. destruct P as (P & _). rewrite P. reflexivity.
  - cbn. split; [|reflexivity]. destruct P as (P & _). rewrite P. reflexivity.
Qed.

Lemma from_origin c t o us u' :
  from (t_ups t) us -> In u' us -> u_mode u' = LastAcked -> origin c t o u'.
Proof.
  intros F Hu M. destruct (F u' Hu) as (u & Hin & Q1 & Q2 & Q3).
  eapply origin_kept; eauto. apply Q3. congruence.
Qed.

Lemma publish_origin c l : forall t u',
  In u' (t_ups (publish c t l)) ->
  In u' (t_ups t) \/ u_acked_id u' = c_initial c.
Proof.
  induction l as [|[[m r] d] l IH]; intros t u' H; cbn [publish] in H; [left; exact H|].
  apply IH in H. destruct H as [H|H]; [|right; exact H].
  unfold add_upstream in H. cbn [t_ups] in H. apply in_app_iff in H.
  destruct H as [H|[<-|[]]]; [left; exact H|right; reflexivity].
Qed.

Lemma step_origin c t o t' u' :
  (forall w, op_world o = Some w -> w_mem w = []) ->
  step c t o = Next t' -> In u' (t_ups t') -> u_mode u' = LastAcked ->
  origin c t o u'.
Proof.
  intros Hw E Hu M. unfold step in E.
  destruct (t_dead t); [inversion E; subst; eapply from_origin; eauto using from_refl|].
  destruct o as [data w| |w|l|src m r d|id|id w|id f up off w|id w|id d|id].
  - unfold write_chain in E. rewrite (Hw w eq_refl) in E. cbn [mem_watermark] in E.
    destruct (t_dead t); [inversion E; subst; eapply from_origin; eauto using from_refl|].
    apply write_loop_from in E. eapply from_origin; eauto.
  - inversion E; subst. eapply from_origin; eauto using from_refl.
  - unfold flush in E. destruct (append_all c t w) as [t1|] eqn:A; [|discriminate].
    apply append_all_from in A. destruct (t_dead t1); [inversion E; subst; eapply from_origin; eauto|].
    apply send_all_from in E. eapply from_origin; [eapply from_trans; eassumption|exact Hu|exact M].
  - destruct (t_published t || (t_nbufs t =? 0));
      [inversion E; subst; eapply from_origin; eauto using from_refl|].
    destruct l as [|x l]; [inversion E; subst; eapply from_origin; eauto using from_refl|].
    apply (f_equal (fun o => match o with Next t => t | Bug => t end)) in E. subst t'.
    cbn [t_ups] in Hu. apply publish_origin in Hu. destruct Hu as [Hu|Hu].
    + eapply from_origin; eauto using from_refl.
    + eapply origin_published; eauto.
  - set (s := match src with Some id => get (t_ups t) id | None => min_acked (t_ups t) end) in E.
    destruct s as [v|] eqn:Es; [|inversion E; subst; eapply from_origin; eauto using from_refl].
    inversion E; subst t'. cbn [t_ups add_upstream] in Hu. apply in_app_iff in Hu.
    destruct Hu as [Hu|[<-|[]]]; [eapply from_origin; eauto using from_refl|].
    unfold s in Es. eapply (origin_copied c t _ _ v); [reflexivity| | |reflexivity].
    + destruct src as [id|]; [apply (get_in _ _ _ Es)|apply (min_acked_spec _ _ Es)].
    + destruct src as [id|]; [left; f_equal; symmetry; apply (get_in _ _ _ Es)|right].
      split; [reflexivity|]. apply (min_acked_spec _ _ Es).
  - destruct (get (t_ups t) id) as [u|] eqn:G; [|inversion E; subst; eapply from_origin; eauto using from_refl].
    destruct (remove (t_ups t) id) eqn:R; inversion E; subst; [destruct Hu|].
    cbn [t_ups set_ups] in Hu. rewrite <- R in Hu. eapply from_origin; eauto using remove_from.
  - destruct (get (t_ups t) id) as [u|] eqn:G; [|inversion E; subst; eapply from_origin; eauto using from_refl].
    destruct (get_in _ _ _ G) as [Gi Gid].
    destruct (u_conn u); [|inversion E; subst; eapply from_origin; eauto using from_refl].
    apply (from_origin c t _ (t_ups t')); [|exact Hu|exact M].
    unfold write_handler in E.
    assert (X : exists u1, (if u_queued u then UpOk u else send_buffered c t u) = UpOk u1 /\ quiet u u1
        \/ (if u_queued u then UpOk u else send_buffered c t u) = UpBug).
    { destruct (u_queued u); [exists u; left; split; [reflexivity|apply quiet_refl]|].
      unfold send_buffered. destruct (_ <? _); [exists u; right; reflexivity|].
      eexists; left; split; [reflexivity|]. unfold quiet; cbn; auto. }
    destruct X as (u1 & [(X & Q1)|X]); rewrite X in E; [|discriminate].
    pose proof (send_chain_quiet c t u1 (w_send w (u_id u))) as Sq.
    destruct (send_chain c t u1 (w_send w (u_id u))) as [u2|u2|] eqn:SC; [| |discriminate].
    + inversion E; subst. cbn [t_ups set_ups]. pose proof (quiet_trans _ _ _ Q1 Sq) as Q2.
      eapply replace_from; [exact Gi|apply Q2|exact Q2].
    + apply err_quiet in SC. pose proof (quiet_trans _ _ _ Q1 SC) as Q2.
      eapply upstream_error_from; [exact Gi| |left; exact Q2|exact E]. apply Q2.
  - destruct (get (t_ups t) id) as [u|] eqn:G; [|inversion E; subst; eapply from_origin; eauto using from_refl].
    destruct (get_in _ _ _ G) as [Gi Gid].
    destruct (u_conn u); [|inversion E; subst; eapply from_origin; eauto using from_refl].
    unfold ack_handler in E. destruct (is_acked (u_mode u)); cbn [negb] in E;
      [|inversion E; subst; eapply from_origin; eauto using from_refl].
    unfold ack_frames in E.
    pose proof (ack_frames_loop_id (loop_fuel t) c t (u_sent_base u + conn_sent u) f u) as A.
    destruct (ack_frames_loop _ _ _ _ _ _) as [u1|u1|]; [| |discriminate].
    + inversion E; subst t'. cbn [t_ups set_ups] in Hu. unfold replace in Hu.
      apply in_map_iff in Hu. destruct Hu as (x & Ex & Hx). destruct A as [(I1 & I2 & _) A2].
      cbn [u_id set_up_id] in Ex. destruct (Nat.eqb (u_id x) (u_id u1)) eqn:Q.
      * subst u'. eapply (origin_acked c t _ _ u f up off w); auto.
        rewrite Gid. reflexivity.
      * subst x. eapply from_origin; eauto using from_refl.
    + destruct A as [A1 A2]. apply (upstream_error_from _ _ _ u) in E; auto.
      eapply from_origin; eauto.
  - destruct (get (t_ups t) id) as [u|] eqn:G; [|inversion E; subst; eapply from_origin; eauto using from_refl].
    destruct (get_in _ _ _ G) as [Gi Gid].
    destruct (u_conn u); [|inversion E; subst; eapply from_origin; eauto using from_refl].
    apply (upstream_error_from _ _ _ u) in E; auto using quiet_refl. eapply from_origin; eauto.
  - destruct (get (t_ups t) id) as [u|] eqn:G; [|inversion E; subst; eapply from_origin; eauto using from_refl].
    destruct (get_in _ _ _ G) as [Gi Gid].
    destruct (u_conn u); [inversion E; subst; eapply from_origin; eauto using from_refl|].
    destruct (u_calling u); [|inversion E; subst; eapply from_origin; eauto using from_refl].
    apply (from_origin c t _ (t_ups t')); [|exact Hu|exact M].
    inversion E; subst t'. cbn [t_ups set_ups].
    apply (replace_from _ u); [exact Gi| |]; destruct d; try reflexivity; unfold quiet; cbn; auto.
  - destruct (get (t_ups t) id) as [u|] eqn:G; [|inversion E; subst; eapply from_origin; eauto using from_refl].
    destruct (u_conn u); [inversion E; subst; eapply from_origin; eauto using from_refl|].
    destruct (u_calling u); [|inversion E; subst; eapply from_origin; eauto using from_refl].
    inversion E; subst t'. eapply from_origin; eauto using free_notify_from.
Qed.

Lemma nodup_ids us u v :
  NoDup (map u_id us) -> In u us -> In v us -> u_id v = u_id u -> v = u.
Proof.
  induction us as [|x us IH]; cbn; intros H Hu Hv E; [destruct Hu|].
  inversion H; subst. destruct Hu as [->|Hu], Hv as [->|Hv]; auto.
  - exfalso. apply H2. rewrite <- E. apply in_map. exact Hv.
  - exfalso. apply H2. rewrite E. apply in_map. exact Hu.
Qed.

Lemma free_notify_gone t u v : In v (t_ups (free_notify t u)) -> u_id v <> u_id u.
Proof.
  intros H. unfold free_notify in H.
  assert (Hr : In v (remove (t_ups t) (u_id u))).
  { destruct (u_required u); [exact H|].
    destruct (remove (t_ups t) (u_id u)); [destruct H|exact H]. }
  unfold remove in Hr. apply filter_In in Hr. destruct Hr as [_ Hr].
  intros E. rewrite E, Nat.eqb_refl in Hr. discriminate.
Qed.

Lemma up_ok_inj a b : UpOk a = UpOk b -> b = a.
Proof. congruence. Qed.

(* A write event on a connection whose connect packet was not sent yet. *)
Lemma start_bytes c t u w t' u' pk :
  ok_conf c -> NoDup (map u_id (t_ups t)) -> In u (t_ups t) -> t_dead t = false ->
  u_conn u <> None -> u_queued u = false -> u_out u = [] -> acknowledged c pk u ->
  step c t (OWritable (u_id u) w) = Next t' ->
  In u' (t_ups t') -> u_id u' = u_id u -> u_queued u' = true ->
  u_out u' ++ u_busy u' =
    greeting c pk (u_up_id u) (u_offset u) (u_connect_data u)
    ++ slice (u_reader u) (t_appended t) (t_stream t).
Proof.
  intros Hconf Hnd Hin Hd Hc Hq Ho HA E Hu' Hid Hq'. unfold step in E. rewrite Hd in E.
  assert (G : get (t_ups t) (u_id u) = Some u).
  { unfold get. destruct (find _ _) as [v|] eqn:F.
    - apply find_some in F. destruct F as [Fi Fe]. apply Nat.eqb_eq in Fe.
      f_equal. eapply nodup_ids; eauto.
    - eapply find_none in F; [|exact Hin]. rewrite Nat.eqb_refl in F. discriminate. }
  rewrite G in E. destruct (u_conn u) as [n|]; [|contradiction].
  unfold write_handler in E. rewrite Hq in E.
  destruct (send_buffered c t u) as [u1|u1|] eqn:SB; [| |discriminate].
  2:{ unfold send_buffered in SB. destruct (_ <? _); discriminate. }
  assert (B1 : u_out u1 ++ u_busy u1 =
    greeting c pk (u_up_id u) (u_offset u) (u_connect_data u)
    ++ slice (u_reader u) (t_appended t) (t_stream t)).
  { unfold send_buffered in SB. destruct (_ <? _); [discriminate|]. apply up_ok_inj in SB. subst u1.
    cbn [u_out u_busy set_io]. rewrite Ho, <- (connect_packet_wire c Hconf u pk HA), <- !app_assoc. reflexivity. }
  assert (I1 : u_id u1 = u_id u).
  { unfold send_buffered in SB. destruct (_ <? _); [discriminate|]. apply up_ok_inj in SB. subst u1. reflexivity. }
  pose proof (send_chain_bytes c t u1 (w_send w (u_id u))) as SB2.
  destruct (send_chain c t u1 (w_send w (u_id u))) as [u2|u2|] eqn:SC; [| |discriminate].
  - inversion E; subst t'. cbn [t_ups set_ups] in Hu'. unfold replace in Hu'.
    apply in_map_iff in Hu'. destruct Hu' as (x & Ex & Hx). destruct SB2 as [SB2 I2].
    destruct (Nat.eqb_spec (u_id x) (u_id u2)) as [Q|Q].
    + subst u'. rewrite SB2. exact B1.
    + subst x. rewrite I2, I1 in Q. contradiction.
  - unfold upstream_error in E. pose proof (republish_quiet c t w u2) as R.
    destruct (send_chain_err_id _ _ _ _ _ SC) as [I2 _].
    destruct (republish c t w u2) as [u3|u3|u3|]; [| | |discriminate].
    + inversion E; subst t'. destruct R as [(R1 & _) R2]. cbn [t_ups set_ups] in Hu'.
      unfold replace in Hu'. apply in_map_iff in Hu'. destruct Hu' as (x & Ex & Hx).
      destruct (Nat.eqb_spec (u_id x) (u_id u3)) as [Q|Q]; [congruence|].
      subst x. congruence.
    + exfalso. inversion E; subst t'. apply free_notify_gone in Hu'. apply Hu'. congruence.
    + exfalso. inversion E; subst t'. apply free_notify_gone in Hu'. apply Hu'. congruence.
Qed.
