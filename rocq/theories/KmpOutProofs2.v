(* The invariant of a track and its upstreams. *)
From Coq Require Import ZArith List Bool Lia Arith.
From Coq Require Import ZifyBool ZifyNat.
From Verif Require Import Bytes KmpInModel KmpInSpec KmpOutModel KmpOutSpec KmpOutProofs.
Import ListNotations.
Open Scope Z_scope.

Inductive kind := KAcked | KSingle.

Lemma prefix_compare {A} (l a b : list A) :
  is_prefix a l -> is_prefix b l -> is_prefix a b \/ is_prefix b a.
Proof.
  revert a b. induction l as [|x l IH]; intros a b [r Ha] [s Hb].
  - symmetry in Ha, Hb. apply app_eq_nil in Ha. apply app_eq_nil in Hb.
    destruct Ha as [-> _]. left. exists b. reflexivity.
  - destruct a as [|y a]; [left; exists b; reflexivity|].
    destruct b as [|z b]; [right; exists (y :: a); reflexivity|].
    cbn in Ha, Hb. injection Ha as <- Ha. injection Hb as <- Hb.
    destruct (IH a b) as [[q ->]|[q ->]]; [exists r; exact Ha|exists s; exact Hb| |].
    + left. exists q. reflexivity.
    + right. exists q. reflexivity.
Qed.

Lemma frames_sent_nonneg ps : 0 <= frames_sent ps.
Proof. unfold frames_sent. lia. Qed.

(* two sets of packets that end with a frame and have as many frames *)
Lemma ends_with_frame_unique l a b :
  is_prefix a l -> is_prefix b l -> ends_with_frame a -> ends_with_frame b ->
  frames_sent a = frames_sent b -> a = b.
Proof.
  assert (W : forall a b, is_prefix a b -> ends_with_frame b ->
    frames_sent a = frames_sent b -> a = b).
  { intros x y [r ->] Hy E. rewrite frames_sent_app in E.
    destruct r as [|q r] using rev_ind; [rewrite app_nil_r; reflexivity|exfalso].
    destruct Hy as [Hy|(pk1 & fr & ext & d & Hy)].
    - apply app_eq_nil in Hy. destruct Hy as [_ Hy]. apply app_eq_nil in Hy.
      destruct Hy; discriminate.
    - rewrite app_assoc in Hy. apply app_inj_tail in Hy. destruct Hy as [_ ->].
      rewrite frames_sent_app in E. pose proof (frames_sent_nonneg r).
      change (frames_sent [PFrame fr ext d]) with 1 in E. lia. }
  intros Ha Hb Ea Eb E. destruct (prefix_compare l a b Ha Hb) as [P|P].
  - apply W; assumption.
  - symmetry. apply W; auto.
Qed.

Lemma frames_sent_le l a b :
  is_prefix a l -> is_prefix b l -> frames_sent a < frames_sent b -> is_prefix a b.
Proof.
  intros Ha Hb E. destruct (prefix_compare l a b Ha Hb) as [P|[r ->]]; [exact P|].
  rewrite frames_sent_app in E. pose proof (frames_sent_nonneg r). lia.
Qed.

Section Inv.

Variable c : conf.
Variable pkts : list pkt.
Variable kd : kind.
Variable strict : bool.
Hypothesis Hconf : ok_conf c.
Hypothesis Hsend : Forall sendable pkts.
Hypothesis Hkd : kd = KAcked -> strict = true.

Local Notation B := (c_bufsize c).

Lemma HB : 0 < B.
Proof. exact (proj1 Hconf). Qed.

Definition linked (t : track) (u : upstream) (pk0 : list pkt) : Prop :=
  exists sent up off data,
    u_conn u = Some sent /\ zlen (u_out u) = sent /\
    u_out u ++ u_busy u =
      greeting c pk0 up off data ++ slice (zlen (encode_all pk0)) (t_appended t) (t_stream t) /\
    u_sent_base u + zlen (greeting c pk0 up off data) = zlen (encode_all pk0) /\
    zlen (encode_all pk0) <= t_appended t /\
    (u_reader u = zlen (encode_all pk0) \/ u_reader u <= u_sent_base u + sent).

Definition uinv (t : track) (u : upstream) : Prop :=
  exists pk, is_prefix pk pkts /\ acknowledged c pk u /\
    u_reader u <= zlen (t_stream t) /\ t_base t * B <= u_reader u /\
    u_reader u < t_nbufs t * B /\
    u_sent_base u <= u_acked_bytes u /\
    (u_queued u = false ->
       u_busy u = [] /\ (u_conn u = None \/ u_conn u = Some 0 /\ u_out u = [])) /\
    (u_queued u = true -> exists pk0, is_prefix pk0 pk /\ linked t u pk0) /\
    (kd = KAcked -> u_mode u = LastAcked /\ ends_with_frame pk) /\
    (strict = true -> u_mode u <> LastWritten /\ u_reader u <= t_appended t).

Definition env (t : track) : Prop :=
  planned pkts t /\ 0 <= t_appended t <= zlen (t_stream t) /\
  t_last_frame t <= zlen (t_stream t) /\ t_last_frame t < t_nbufs t * B.

Definition room (t : track) : Prop := zlen (t_stream t) < t_nbufs t * B.

Lemma planned_ext t t' : t_stream t' = t_stream t -> planned pkts t -> planned pkts t'.
Proof. unfold planned. intros ->. auto. Qed.

Lemma uinv_mono t t' u x :
  t_stream t' = t_stream t ++ x -> t_appended t' = t_appended t ->
  t_nbufs t <= t_nbufs t' -> t_base t' = t_base t ->
  t_appended t <= zlen (t_stream t) ->
  uinv t u -> uinv t' u.
Proof.
  intros Es Ea En Eb Hap (pk & P & A & R1 & R2 & R3 & R4 & R5 & R6 & R7 & R8).
  pose proof HB. pose proof (zlen_nonneg x).
  exists pk. rewrite Es, Ea, Eb, zlen_app.
  split; [exact P|]. split; [exact A|]. split; [lia|]. split; [lia|]. split; [nia|].
  split; [lia|]. split; [exact R5|]. split; [|split; [exact R7|exact R8]].
  intros Q. destruct (R6 Q) as (pk0 & P0 & sent & up & off & data & L1 & L2 & L3 & L4 & L5 & L6).
  exists pk0. split; [exact P0|]. exists sent, up, off, data.
  rewrite Es, Ea, slice_app_l; [repeat split; auto|exact Hap|apply zlen_nonneg].
Qed.

Lemma uinv_same t t' u :
  t_stream t' = t_stream t -> t_appended t' = t_appended t ->
  t_nbufs t' = t_nbufs t -> t_base t' = t_base t ->
  t_appended t <= zlen (t_stream t) -> uinv t u -> uinv t' u.
Proof.
  intros E1 E2 E3 E4 H. apply (uinv_mono t t' u []); rewrite ?app_nil_r; auto; lia.
Qed.

Lemma uinv_base t u b : b * B <= u_reader u -> uinv t u -> uinv (set_base t b) u.
Proof.
  intros H (pk & P & A & R1 & R2 & R3 & R4 & R5 & R6 & R7 & R8).
  exists pk. cbn [t_stream set_base t_base t_nbufs t_appended].
  split; [exact P|]. split; [exact A|]. split; [exact R1|]. split; [exact H|].
  split; [exact R3|]. split; [exact R4|]. split; [exact R5|]. split; [|split; auto].
  intros Q. destruct (R6 Q) as (pk0 & P0 & L). exists pk0. split; [exact P0|exact L].
Qed.

(* the limit of automatic acknowledgement on a connection *)
Lemma linked_limit t u pk0 : 0 <= t_appended t <= zlen (t_stream t) ->
  linked t u pk0 -> u_sent_base u + conn_sent u <= t_appended t.
Proof.
  intros Hap (sent & up & off & data & L1 & L2 & L3 & L4 & L5 & L6).
  unfold conn_sent. rewrite L1.
  apply (f_equal (@zlen Z)) in L3. rewrite !zlen_app in L3.
  rewrite slice_length in L3 by (try lia; apply zlen_nonneg).
  pose proof (zlen_nonneg (u_busy u)). lia.
Qed.

Lemma uinv_acked t u u' pk' limit :
  env t -> uinv t u -> (kd = KAcked -> u_reader u' = u_reader u \/ ends_with_frame pk') ->
  is_prefix pk' pkts -> acknowledged c pk' u' -> same_io u u' ->
  (forall pk, is_prefix pk pkts -> acknowledged c pk u -> is_prefix pk pk') ->
  (u_reader u' = u_reader u \/ u_reader u <= u_reader u' <= limit) ->
  limit <= zlen (t_stream t) -> limit < t_nbufs t * B ->
  (u_queued u = true -> limit = u_sent_base u + conn_sent u) ->
  (strict = true -> limit <= t_appended t) ->
  uinv t u'.
Proof.
  intros He (pk & P & A & R1 & R2 & R3 & R4 & R5 & R6 & R7 & R8) HK P' A' IO MV Hmv Hl1 Hl2 Hq Hs.
  pose proof IO as (I1 & I2 & I3 & I4 & I5 & I6 & I7 & I8 & I9 & I10 & I11).
  specialize (MV pk P A).
  pose proof A as (A1 & A2 & A3 & A4). pose proof A' as (B1 & B2 & B3 & B4).
  exists pk'. split; [exact P'|]. split; [exact A'|].
  split; [lia|]. split; [lia|]. split; [lia|]. split; [rewrite I4; lia|].
  split; [rewrite I7, I8, I6, I11; exact R5|]. split; [|split].
  - rewrite I7. intros Q. destruct (R6 Q) as (pk0 & P0 & sent & up & off & data & L1 & L2 & L3 & L4 & L5 & L6).
    exists pk0. split; [eapply is_prefix_trans; eassumption|].
    exists sent, up, off, data. rewrite I6, I11, I8, I4.
    split; [exact L1|]. split; [exact L2|]. split; [exact L3|]. split; [exact L4|].
    split; [exact L5|].
    destruct Hmv as [E|E]; [rewrite E; exact L6|].
    right. specialize (Hq Q). unfold conn_sent in Hq. rewrite L1 in Hq. lia.
  - intros K. rewrite I2. split; [apply R7; exact K|].
    destruct (HK K) as [E|E]; [|exact E].
    destruct (R7 K) as [_ Ef].
    assert (E' : pk' = pk); [|rewrite E'; exact Ef].
    destruct MV as [r ->]. destruct r as [|q r]; [apply app_nil_r|exfalso].
    rewrite encode_all_app, zlen_app, encode_all_cons, zlen_app in B1.
    pose proof (encode_ge16 q). pose proof (zlen_nonneg (encode_all r)). lia.
  - intros S. rewrite I2. specialize (R8 S). specialize (Hs S). split; [apply R8|]. lia.
Qed.

Lemma ack_prefix pk pk1 u : is_prefix pk pkts -> acknowledged c pk u ->
  is_prefix pk1 pkts -> acknowledged c pk1 u -> pk = pk1.
Proof.
  intros P (A1 & _) P1 (B1 & _).
  assert (W : forall a b, is_prefix a b -> zlen (encode_all a) = zlen (encode_all b) -> a = b).
  { intros a b [r ->] E. rewrite encode_all_app, zlen_app in E.
    destruct r as [|q r]; [rewrite app_nil_r; reflexivity|exfalso].
    rewrite encode_all_cons, zlen_app in E.
    pose proof (encode_ge16 q). pose proof (zlen_nonneg (encode_all r)). lia. }
  destruct (prefix_compare pkts pk pk1 P P1) as [Q|Q].
  - apply W; [exact Q|lia].
  - symmetry. apply W; [exact Q|lia].
Qed.

(* a run of the acknowledgement loop *)
Lemma loop_inv t u limit left count :
  env t -> uinv t u -> kd <> KAcked ->
  limit <= zlen (t_stream t) -> limit < t_nbufs t * B ->
  (u_queued u = true -> limit = u_sent_base u + conn_sent u) ->
  (strict = true -> limit <= t_appended t) ->
  exists u', uinv t u' /\ same_io u u' /\
    ((exists l n, ack_loop (loop_fuel t) c t u limit left count = LpDeclined u' l n) \/
     (exists n, ack_loop (loop_fuel t) c t u limit left count = LpDone u' n)).
Proof.
  intros He Hu HK Hl1 Hl2 Hq Hs.
  pose proof Hu as (pk & P & A & R1 & R2 & R3 & R4 & _).
  pose proof A as (A1 & _). pose proof (zlen_nonneg (encode_all pk)).
  destruct (ack_loop_spec c pkts Hsend (loop_fuel t) t pk u limit left count)
    as (u' & pk' & P' & A' & IO & [M1 M2] & R); auto.
  - apply He.
  - unfold loop_fuel, zlen in *. lia.
  - unfold loop_fuel; lia.
  - exists u'. split; [|split; [exact IO|]].
    + apply (uinv_acked t u u' pk' limit); auto.
      * intros K. contradiction.
      * intros pk1 P1 A1'. rewrite (ack_prefix pk1 pk u P1 A1' P A). exact M1.
      * pose proof A' as (B1 & _). destruct M2 as [->|M2]; [left; lia|right].
        split; [|lia]. rewrite A1, B1. apply prefix_zlen. exact M1.
    + destruct R as [(l & n & E & _)|R]; [left; exists l, n; exact E|right; exact R].
Qed.

Lemma auto_ack_inv t u left :
  env t -> uinv t u -> kd <> KAcked -> (u_queued u = true -> room t) ->
  (strict = true -> u_queued u = true) ->
  exists u' n, auto_ack c t u left = AaOk u' n /\ uinv t u' /\ same_io u u'.
Proof.
  intros He Hu HK Hroom Hs.
  pose proof Hu as (pk & P & A & R1 & R2 & R3 & R4 & R5 & R6 & R7 & R8).
  pose proof He as (E1 & E2 & E3 & E4).
  assert (HL : ack_limit t u <= zlen (t_stream t) /\ ack_limit t u < t_nbufs t * B /\
    (u_queued u = true -> ack_limit t u = u_sent_base u + conn_sent u) /\
    (strict = true -> ack_limit t u <= t_appended t)).
  { unfold ack_limit. destruct (u_queued u) eqn:Q.
    - destruct (R6 eq_refl) as (pk0 & _ & L). apply linked_limit in L; [|exact E2].
      specialize (Hroom eq_refl). unfold room in Hroom. repeat split; intros; lia.
    - split; [exact E3|]. split; [exact E4|]. split; [discriminate|].
      intros S. specialize (Hs S). discriminate. }
  destruct HL as (L1 & L2 & L3 & L4).
  destruct (loop_inv t u (ack_limit t u) left 0 He Hu HK L1 L2 L3 L4)
    as (u' & U' & IO & [(l & n & E)|(n & E)]).
  - exists u', n. unfold auto_ack. rewrite E. auto.
  - exists u', n. unfold auto_ack. rewrite E. auto.
Qed.

(* closing the connection *)
Lemma uinv_close t u : uinv t u -> forall base, base = u_sent_base u ->
  uinv t (set_io u base None false [] (u_out u)).
Proof.
  intros (pk & P & A & R1 & R2 & R3 & R4 & R5 & R6 & R7 & R8) base ->.
  exists pk. cbn. split; [exact P|]. split; [exact A|].
  split; [exact R1|]. split; [exact R2|]. split; [exact R3|]. split; [exact R4|].
  split; [auto|]. split; [discriminate|]. split; [exact R7|exact R8].
Qed.

Lemma uinv_calling t u b : uinv t u -> uinv t (set_calling u b).
Proof. intros (pk & H). exists pk. exact H. Qed.

Lemma set_io_id t u : u_queued u = false -> uinv t u ->
  uinv t (set_io u (u_sent_base u) None (u_queued u) (u_busy u) (u_out u)).
Proof.
  intros Q H. rewrite Q.
  assert (Eb : u_busy u = []).
  { destruct H as (pk & P & A & R1 & R2 & R3 & R4 & R5 & _). apply R5. exact Q. }
  rewrite Eb. apply uinv_close; auto.
Qed.

(* reconnecting *)
Lemma republish_inv t w u :
  env t -> uinv t u ->
  match republish c t w u with
  | RepOk u' => uinv t u' /\ u_queued u' = false /\ u_id u' = u_id u /\
                u_required u' = u_required u /\ u_no_republish u = false /\ u_mode u' = u_mode u
  | RepDeclined u' => u' = u
  | RepErr u' => u_id u' = u_id u /\ u_required u' = u_required u
  | RepBug => False
  end.
Proof.
  intros He Hu. unfold republish.
  destruct (t_active t); [|reflexivity]. cbn [negb].
  destruct (negb (c_republish_url c) || u_no_republish u) eqn:N; [reflexivity|].
  apply orb_false_iff in N. destruct N as [_ N].
  destruct (w_allowed w (u_id u)); [|reflexivity]. cbn [negb].
  set (go := fun u2 : upstream =>
      let send (u3 : upstream) :=
        if w_now w (u_id u) then republish_send w u3 else RepOk (set_calling u3 true) in
      if is_written (u_mode u2) then
        match auto_ack c t u2 max_size with
        | AaOk u3 _ => send u3
        | AaErr u3 => RepErr u3
        | AaBug => RepBug
        end
      else send u2).
  assert (G : forall u2, uinv t u2 -> u_queued u2 = false -> u_id u2 = u_id u ->
     u_required u2 = u_required u -> u_mode u2 = u_mode u ->
     match go u2 with
     | RepOk u' => uinv t u' /\ u_queued u' = false /\ u_id u' = u_id u /\
                u_required u' = u_required u /\ u_no_republish u = false /\ u_mode u' = u_mode u
     | RepDeclined u' => u' = u
     | RepErr u' => u_id u' = u_id u /\ u_required u' = u_required u
     | RepBug => False
     end).
  { intros u2 H2 Q2 I2 J2 M2. unfold go. cbv zeta.
    assert (S : forall u3, uinv t u3 -> u_queued u3 = false -> u_id u3 = u_id u ->
      u_required u3 = u_required u -> u_mode u3 = u_mode u ->
      match (if w_now w (u_id u) then republish_send w u3 else RepOk (set_calling u3 true)) with
      | RepOk u' => uinv t u' /\ u_queued u' = false /\ u_id u' = u_id u /\
                u_required u' = u_required u /\ u_no_republish u = false /\ u_mode u' = u_mode u
      | RepDeclined u' => u' = u
      | RepErr u' => u_id u' = u_id u /\ u_required u' = u_required u
      | RepBug => False
      end).
    { intros u3 H3 Q3 I3 J3 M3. unfold republish_send.
      destruct (w_now w (u_id u)); [destruct (w_http w (u_id u3))|];
        cbn; auto; repeat split; auto; apply uinv_calling; exact H3. }
    destruct (is_written (u_mode u2)) eqn:W; [|apply S; auto].
    assert (HK : kd <> KAcked).
    { intros K. pose proof H2 as (pk & _ & _ & _ & _ & _ & _ & _ & _ & R7 & _).
      destruct (R7 K) as [E _]. rewrite E in W. discriminate. }
    assert (Hs : strict = true -> u_queued u2 = true).
    { intros ST. exfalso. pose proof H2 as (pk & _ & _ & _ & _ & _ & _ & _ & _ & _ & R8).
      destruct (R8 ST) as [E _]. destruct (u_mode u2); try discriminate. congruence. }
    destruct (auto_ack_inv t u2 max_size He H2 HK) as (u3 & n & -> & U3 & IO); auto.
    { intros Q. congruence. }
    destruct IO as (I3 & M3 & J3 & _ & _ & _ & Q3 & _).
    apply S; auto; congruence. }
  change (match
    (if u_queued u then
       match u_busy u with
       | [] => RepOk (set_io (set_io u (u_sent_base u) None (u_queued u) (u_busy u) (u_out u))
                        (u_sent_base u) None false [] (u_out u))
       | _ :: _ => go (set_io (set_io u (u_sent_base u) None (u_queued u) (u_busy u) (u_out u))
                        (u_sent_base u) None false [] (u_out u))
       end
     else go (set_io u (u_sent_base u) None (u_queued u) (u_busy u) (u_out u))) with
    | RepOk u' => uinv t u' /\ u_queued u' = false /\ u_id u' = u_id u /\
                u_required u' = u_required u /\ u_no_republish u = false /\ u_mode u' = u_mode u
    | RepDeclined u' => u' = u
    | RepErr u' => u_id u' = u_id u /\ u_required u' = u_required u
    | RepBug => False
    end).
  change (set_io (set_io u (u_sent_base u) None (u_queued u) (u_busy u) (u_out u))
            (u_sent_base u) None false [] (u_out u))
    with (set_io u (u_sent_base u) None false [] (u_out u)).
  destruct (u_queued u) eqn:Q.
  - pose proof (uinv_close t u Hu _ eq_refl) as Hc.
    destruct (u_busy u).
    + cbn. auto 10.
    + apply G; auto.
  - apply G; auto. rewrite <- Q. apply set_io_id; auto.
Qed.

Lemma auto_ack_force_inv t w u left :
  env t -> uinv t u -> strict = false -> room t ->
  match auto_ack_force c t w u left with
  | AaOk u' n => uinv t u' /\ u_id u' = u_id u
  | AaErr u' => True
  | AaBug => False
  end.
Proof.
  intros He Hu Hs Hroom.
  assert (HK : kd <> KAcked). { intros K. specialize (Hkd K). congruence. }
  pose proof Hu as (pk & P & A & R1 & R2 & R3 & R4 & R5 & R6 & R7 & R8).
  pose proof He as (E1 & E2 & E3 & E4).
  assert (HL : ack_limit t u <= zlen (t_stream t) /\ ack_limit t u < t_nbufs t * B /\
    (u_queued u = true -> ack_limit t u = u_sent_base u + conn_sent u) /\
    (strict = true -> ack_limit t u <= t_appended t)).
  { unfold ack_limit. unfold room in Hroom. destruct (u_queued u) eqn:Q.
    - destruct (R6 eq_refl) as (pk0 & _ & L). apply linked_limit in L; [|exact E2].
      repeat split; intros; lia.
    - split; [exact E3|]. split; [exact E4|]. split; [discriminate|].
      intros S. congruence. }
  destruct HL as (L1 & L2 & L3 & L4). unfold auto_ack_force.
  destruct (loop_inv t u (ack_limit t u) left 0 He Hu HK L1 L2 L3 L4)
    as (u1 & U1 & IO & [(l & n & E)|(n & E)]); rewrite E.
  2:{ split; [exact U1|apply IO]. }
  destruct (u_queued u1) eqn:Q1.
  2:{ split; [exact U1|apply IO]. }
  pose proof (republish_inv t w u1 He U1) as RI.
  destruct (republish c t w u1) as [u2|u2|u2|]; auto.
  - destruct RI as (U2 & Q2 & I2 & _). rewrite Q2.
    destruct (loop_inv t u2 (t_last_frame t) l (n + 1) He U2 HK E3 E4)
      as (u3 & U3 & IO3 & R).
    + intros Q. congruence.
    + intros S. congruence.
    + assert (I3 : u_id u3 = u_id u).
      { destruct IO3 as (-> & _). rewrite I2. apply IO. }
      destruct R as [(l' & n' & ->)|(n' & ->)]; auto.
  - subst u2. rewrite Q1. split; [exact U1|apply IO].
Qed.

(* sending *)
Lemma firstn_skipn_out (a b : list Z) k : (a ++ firstn k b) ++ skipn k b = a ++ b.
Proof. rewrite <- app_assoc, firstn_skipn. reflexivity. Qed.

Lemma send_chain_inv t u n :
  env t -> uinv t u -> room t ->
  match send_chain c t u n with
  | UpOk u' => uinv t u' /\ u_id u' = u_id u /\ u_mode u' = u_mode u /\ u_required u' = u_required u
  | UpErr u' => u' = u
  | UpBug => False
  end.
Proof.
  intros He Hu Hroom. unfold send_chain.
  destruct (u_queued u) eqn:Q; cbn [negb].
  2:{ auto. }
  destruct n as [k|]; [|reflexivity].
  set (u1 := set_io u (u_sent_base u) (Some (conn_sent u + zlen (firstn k (u_busy u)))) true
               (skipn k (u_busy u)) (u_out u ++ firstn k (u_busy u))).
  assert (U1 : uinv t u1).
  { pose proof Hu as (pk & P & A & R1 & R2 & R3 & R4 & R5 & R6 & R7 & R8).
    exists pk. cbn.
    split; [exact P|]. split; [exact A|].
    split; [exact R1|]. split; [exact R2|]. split; [exact R3|]. split; [exact R4|].
    split; [discriminate|]. split; [|split; [exact R7|exact R8]].
    intros _. destruct (R6 Q) as (pk0 & P0 & sent & up & off & data & L1 & L2 & L3 & L4 & L5 & L6).
    exists pk0. split; [exact P0|].
    exists (conn_sent u + zlen (firstn k (u_busy u))), up, off, data. cbn.
    split; [reflexivity|].
    assert (CS : conn_sent u = sent) by (unfold conn_sent; rewrite L1; reflexivity).
    split; [rewrite zlen_app, CS, L2; reflexivity|].
    split; [rewrite firstn_skipn_out; exact L3|].
    split; [exact L4|]. split; [exact L5|].
    pose proof (zlen_nonneg (firstn k (u_busy u))).
    destruct L6 as [L6|L6]; [left; exact L6|right; lia]. }
  destruct (is_acked (u_mode u)) eqn:MA; [cbn; auto|].
  assert (HK : kd <> KAcked).
  { intros K. pose proof Hu as (pk & _ & _ & _ & _ & _ & _ & _ & _ & R7 & _).
    destruct (R7 K) as [E _]. rewrite E in MA. discriminate. }
  destruct (auto_ack_inv t u1 max_size He U1 HK) as (u2 & m & -> & U2 & IO); auto.
  destruct IO as (I & M & J & _). auto.
Qed.

Lemma send_inv t w u :
  env t -> uinv t u -> room t ->
  match send c t w u with
  | UpOk u' => uinv t u' /\ u_id u' = u_id u
  | UpErr u' => True
  | UpBug => False
  end.
Proof.
  intros He Hu Hroom. unfold send.
  destruct (u_conn u); [|auto].
  pose proof (send_chain_inv t u (w_send w (u_id u)) He Hu Hroom) as S.
  destruct (send_chain c t u (w_send w (u_id u))) as [u1|u1|]; auto.
  - destruct S as (S1 & S2 & _). auto.
  - subst u1. pose proof (republish_inv t w u He Hu) as R.
    destruct (republish c t w u) as [u2|u2|u2|]; auto.
    destruct R as (R1 & _ & R2 & _). auto.
Qed.

(* the connect packet *)
Lemma connect_packet_wire u pk : acknowledged c pk u ->
  connect_packet c u ++ u_connect_data u ++ u_media_info u =
  greeting c pk (u_up_id u) (u_offset u) (u_connect_data u).
Proof.
  intros (A1 & A2 & A3 & A4). unfold greeting, connect_packet, encode_connect, wire, wire_header,
    connect_fields. cbn [k_channel k_track k_initial k_upstream k_offset k_flags k_ext k_data].
  rewrite A3, A4, app_nil_r. rewrite !app_assoc.
  rewrite <- (app_assoc _ (firstn 32 _) (skipn 32 _)), firstn_skipn.
  rewrite !app_length, !le_length.
  replace (length (c_names c)) with 64%nat by (symmetry; apply Hconf).
  reflexivity.
Qed.

Lemma greeting_zlen pk up off data :
  zlen (greeting c pk up off data) = 104 + zlen data + zlen (last_media_info pk).
Proof.
  unfold greeting, encode_connect, wire, wire_header, connect_fields.
  cbn [k_channel k_track k_initial k_upstream k_offset k_flags k_ext k_data].
  unfold zlen. rewrite !app_length, !le_length.
  assert (H : (length (firstn 32 (c_names c)) + length (skipn 32 (c_names c)) = 64)%nat).
  { rewrite <- app_length, firstn_skipn. apply Hconf. }
  cbn [length]. lia.
Qed.

Lemma send_buffered_inv t u :
  env t -> uinv t u -> u_conn u = Some 0 -> u_queued u = false -> u_out u = [] ->
  u_reader u <= t_appended t ->
  exists u', send_buffered c t u = UpOk u' /\ uinv t u' /\ u_id u' = u_id u /\
    u_required u' = u_required u /\ u_queued u' = true /\ u_out u' = [] /\
    u_acked_id u' = u_acked_id u /\ u_reader u' = u_reader u /\ u_mode u' = u_mode u.
Proof.
  intros He Hu Hc Hq Ho Hap. pose proof Hu as (pk & P & A & R1 & R2 & R3 & R4 & R5 & R6 & R7 & R8).
  unfold send_buffered.
  destruct (Z.ltb_spec (u_reader u) (t_base t * B)); [lia|].
  eexists. split; [reflexivity|]. split; [|cbn; auto 10].
  pose proof A as (A1 & A2 & A3 & A4).
  pose proof (zlen_nonneg (u_connect_data u)). pose proof (zlen_nonneg (u_media_info u)).
  assert (CS : conn_sent u = 0) by (unfold conn_sent; rewrite Hc; reflexivity).
  change (Z.of_nat connect_packet_size) with 104.
  exists pk. cbn [u_reader u_mode u_queued u_busy u_sent_base u_acked_bytes u_conn u_out set_io].
  split; [exact P|]. split; [exact A|].
  split; [exact R1|]. split; [exact R2|]. split; [exact R3|]. split; [lia|].
  split; [discriminate|]. split; [|split; [exact R7|exact R8]].
  intros _. exists pk. split; [apply is_prefix_refl|].
  exists 0, (u_up_id u), (u_offset u), (u_connect_data u).
  cbn [u_conn u_out u_busy u_sent_base u_reader set_io].
  split; [exact Hc|]. rewrite Ho. split; [reflexivity|].
  split. { cbn [app]. rewrite <- (connect_packet_wire u pk A), <- !app_assoc, A1. reflexivity. }
  split. { rewrite greeting_zlen, <- A4. lia. }
  split; [lia|]. left. exact A1.
Qed.

(* appending: t1 is the track after the append *)
Lemma append_buffer_inv t t1 w u :
  env t -> uinv t u ->
  t_stream t1 = t_stream t -> t_nbufs t1 = t_nbufs t -> t_base t1 = t_base t ->
  t_appended t1 = zlen (t_stream t) ->
  match append_buffer c t w u (slice (t_appended t) (zlen (t_stream t)) (t_stream t)) with
  | UpOk u' => uinv t1 u' /\ u_id u' = u_id u
  | UpErr _ => True
  | UpBug => False
  end.
Proof.
  intros He Hu T1 T2 T3 T4. pose proof He as (E1 & E2 & E3 & E4).
  assert (NQ : forall v, uinv t v -> u_queued v = false -> uinv t1 v).
  { intros v (pk & P & A & R1 & R2 & R3 & R4 & R5 & R6 & R7 & R8) Q.
    exists pk. rewrite T1, T2, T3, T4. repeat (split; [assumption|]).
    split; [intros; congruence|]. split; [exact R7|].
    intros S. split; [apply R8; exact S|exact R1]. }
  unfold append_buffer.
  destruct (u_queued u) eqn:Q.
  - cbn. split; [|reflexivity].
    pose proof Hu as (pk & P & A & R1 & R2 & R3 & R4 & R5 & R6 & R7 & R8).
    exists pk. cbn. rewrite T1, T2, T3, T4.
    split; [exact P|]. split; [exact A|]. split; [exact R1|]. split; [exact R2|].
    split; [exact R3|]. split; [exact R4|]. split; [discriminate|].
    split; [|split; [exact R7|]].
    + intros _. destruct (R6 Q) as (pk0 & P0 & sent & up & off & data & L1 & L2 & L3 & L4 & L5 & L6).
      exists pk0. split; [exact P0|]. exists sent, up, off, data.
      cbn [u_conn u_out u_busy u_sent_base u_reader set_io]. rewrite T1, T4.
      split; [exact L1|]. split; [exact L2|].
      split. { rewrite app_assoc, L3, <- app_assoc. f_equal.
               apply slice_join; try lia; apply zlen_nonneg. }
      split; [exact L4|]. split; [lia|]. exact L6.
    + intros S. split; [apply R8; exact S|exact R1].
  - cbv zeta.
    assert (ST : forall v, uinv t v -> u_queued v = false -> u_id v = u_id u ->
      match
        match u_conn v with
        | None =>
            if u_calling v then UpOk v
            else match republish_send w v with
                 | RepOk u2 => UpOk u2
                 | RepDeclined u2 | RepErr u2 => UpErr u2
                 | RepBug => UpBug
                 end
        | Some _ => UpOk v
        end
      with
      | UpOk u' => uinv t1 u' /\ u_id u' = u_id u
      | UpErr _ => True
      | UpBug => False
      end).
    { intros v Hv Qv Iv. specialize (NQ v Hv Qv).
      destruct (u_conn v); [auto|]. destruct (u_calling v); [auto|].
      unfold republish_send. destruct (w_http w (u_id v)); [|exact Logic.I].
      cbn. split; [apply uinv_calling; exact NQ|exact Iv]. }
    destruct (is_written (u_mode u)) eqn:W; [|apply ST; auto].
    assert (HK : kd <> KAcked).
    { intros K. pose proof Hu as (pk & _ & _ & _ & _ & _ & _ & _ & _ & R7 & _).
      destruct (R7 K) as [E _]. rewrite E in W. discriminate. }
    assert (Hs : strict = true -> u_queued u = true).
    { intros S. exfalso. pose proof Hu as (pk & _ & _ & _ & _ & _ & _ & _ & _ & _ & R8).
      destruct (R8 S) as [E _]. destruct (u_mode u); try discriminate. congruence. }
    destruct (auto_ack_inv t u max_size He Hu HK) as (u1 & n & -> & U1 & IO); auto.
    { intros; congruence. }
    destruct IO as (I & _ & _ & _ & _ & _ & Q1 & _).
    apply ST; auto; congruence.
Qed.

(* acknowledgement packets *)
Lemma ack_frames_inv t u f up off :
  env t -> uinv t u -> room t -> u_conn u <> None ->
  match ack_frames c t u f up off with
  | UpOk u' => uinv t u' /\ u_id u' = u_id u /\ u_mode u' = u_mode u /\
               u_acked_id u' = Z.max (u_acked_id u) f /\ u_queued u' = u_queued u
  | UpErr u' => u_no_republish u' = true /\ u_id u' = u_id u /\ u_required u' = u_required u
  | UpBug => False
  end.
Proof.
  intros He Hu Hroom Hc.
  pose proof Hu as (pk & P & A & R1 & R2 & R3 & R4 & R5 & R6 & R7 & R8).
  pose proof He as (E1 & E2 & E3 & E4). pose proof A as (A1 & A2 & A3 & A4).
  unfold ack_frames.
  assert (US : forall v, uinv t v -> uinv t (set_up_id v up off)).
  { intros v (q & H). exists q. exact H. }
  destruct (Z.le_gt_cases f (u_acked_id u)) as [Lf|Lf].
  { unfold loop_fuel. cbn [ack_frames_loop].
    destruct (Z.leb_spec f (u_acked_id u)); [|lia].
    split; [apply US; exact Hu|]. cbn. repeat split; lia. }
  destruct (Z.lt_ge_cases (u_sent_base u + conn_sent u) (u_acked_bytes u + 16)) as [Ls|Ls].
  { unfold loop_fuel. cbn [ack_frames_loop].
    change (Z.of_nat packet_header_size) with 16.
    destruct (Z.leb_spec f (u_acked_id u)); [lia|].
    destruct (Z.ltb_spec (u_sent_base u + conn_sent u) (u_acked_bytes u + 16)); [|lia].
    cbn. auto. }
  destruct (u_queued u) eqn:Q.
  2:{ exfalso. destruct (R5 eq_refl) as [_ [Hn|[Hn _]]]; [contradiction|].
      unfold conn_sent in Ls. rewrite Hn in Ls. lia. }
  destruct (R6 eq_refl) as (pk0 & P0 & L). pose proof (linked_limit t u pk0 E2 L) as LL.
  unfold room in Hroom. pose proof (zlen_nonneg (encode_all pk)).
  destruct (ack_frames_loop_spec c pkts Hsend (loop_fuel t) t pk u (u_sent_base u + conn_sent u) f)
    as [(u' & E & N & I1 & I2)|(u' & pk' & E & P' & A' & IO & [M1 M2] & Id & X)]; auto; try lia.
  - unfold loop_fuel, zlen in *. lia.
  - unfold loop_fuel; lia.
  - rewrite E. auto.
  - rewrite E. cbn. pose proof IO as (I & M & J & _ & _ & _ & Q' & _).
    split; [|repeat split; auto; congruence]. apply US.
    apply (uinv_acked t u u' pk' (u_sent_base u + conn_sent u)); auto; try lia.
    + intros K. destruct X as [->|X]; [left|right; exact X].
      destruct A' as (B1 & _). lia.
    + intros pk1 P1 A1'. rewrite (ack_prefix pk1 pk u P1 A1' P A). exact M1.
    + destruct A' as (B1 & _). destruct M2 as [->|M2]; [left; lia|right].
      split; [|lia]. rewrite A1, B1. apply prefix_zlen. exact M1.
Qed.

End Inv.
