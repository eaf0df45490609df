(* The sending side of KMP: C19 (reconnecting), C20 (releasing buffers) and C21
   (automatic acknowledgements). *)
From Coq Require Import ZArith List Bool Lia Arith.
From Verif Require Import Bytes KmpInModel KmpInSpec KmpOutModel KmpOutSpec KmpOutProofs
  KmpOutProofs2 KmpOutProofs3 KmpOutProofs4 KmpOutProofs5.
Import ListNotations.
Open Scope Z_scope.

(* In every covered history the track is never in the undefined state [Bug], and
   a live track satisfies the invariant. *)
Lemma covered_inv c pkts ops :
  ok_conf c -> Forall sendable pkts -> writes pkts ops -> covered c ops ->
  exists kd strict t, run c init_track ops = Next t /\ (kd = KAcked -> strict = true) /\
    (t_dead t = true \/
     tinv c pkts kd strict t /\ t_stream t = written ops).
Proof.
  intros Hc Hs Hw H.
  assert (X : exists kd strict, (kd = KAcked -> strict = true) /\
    ops_ok c pkts kd strict init_track ops).
  { destruct H as [H|[H|H]].
    - exists KAcked, true. split; [auto|]. apply acked_only_ok; assumption.
    - exists KSingle, true. split; [auto|]. apply one_sender_ok; assumption.
    - exists KSingle, false. split; [discriminate|]. apply one_upstream_ok; assumption. }
  destruct X as (kd & strict & Hkd & Hok).
  destruct (init_inv c pkts kd strict Hc) as [I1 I2].
  destruct (run_inv c pkts kd strict Hc Hs Hkd ops init_track I1 I2 eq_refl Hok)
    as (t & E & R).
  exists kd, strict, t. split; [exact E|]. split; [exact Hkd|].
  destruct R as [R|(R1 & _ & _ & R4)]; [left; exact R|right]. split; [exact R1|exact R4].
Qed.

(* --- C19 --- *)

(* What a connection carries: from some acknowledged point on, the greeting and
   then exactly the bytes of the track, in order, up to the point where the
   track has handed over its data.  [u_out] are the bytes the connection has
   taken, [u_busy] those that wait. *)
Theorem C19_connection_bytes_partial : forall c pkts ops t u,
  ok_conf c -> Forall sendable pkts -> writes pkts ops -> covered c ops ->
  run c init_track ops = Next t -> t_dead t = false -> In u (t_ups t) -> u_queued u = true ->
  exists pk0 pk up off data,
    is_prefix pk0 pk /\ is_prefix pk pkts /\ acknowledged c pk u /\
    zlen (encode_all pk0) <= t_appended t <= zlen (written ops) /\
    u_out u ++ u_busy u =
      greeting c pk0 up off data
      ++ slice (zlen (encode_all pk0)) (t_appended t) (written ops).
Proof.
  intros c pkts ops t u Hc Hs Hw Hcov E Hd Hin Hq.
  destruct (covered_inv c pkts ops Hc Hs Hw Hcov) as (kd & strict & t1 & E1 & _ & R).
  rewrite E in E1. inversion E1; subst t1. destruct R as [R|[T Es]]; [congruence|].
  pose proof (tinv_uinv _ _ _ _ _ _ T Hin) as (pk & P & A & R1 & R2 & R3 & R4 & R5 & R6 & _).
  pose proof T as (_ & T2 & _).
  destruct (R6 Hq) as (pk0 & P0 & sent & up & off & data & L1 & L2 & L3 & L4 & L5 & L6).
  exists pk0, pk, up, off, data. rewrite Es in *. repeat split; try assumption; try apply A; lia.
Qed.
Print Assumptions C19_connection_bytes_partial.

(* A flush hands over everything that was written. *)
Lemma append_all_appended c t w t' :
  append_all c t w = Next t' -> t_dead t' = false -> t_dead t = false ->
  t_appended t <= zlen (t_stream t) -> t_appended t' = zlen (t_stream t).
Proof.
  unfold append_all. intros H Hd' Hd Hle. destruct (zlen (t_stream t) <=? t_appended t) eqn:L.
  - inversion H; subst. apply Z.leb_le in L. lia.
  - destruct (for_all _ _) as [us| |]; [|inversion H; subst; cbn in Hd'; discriminate|discriminate].
    cbv zeta in H. destruct (min_acked us); inversion H; subst; reflexivity.
Qed.

Lemma flush_appended c t w t' :
  step c t (OFlush w) = Next t' -> t_dead t' = false -> t_dead t = false ->
  t_appended t <= zlen (t_stream t) -> t_appended t' = zlen (t_stream t).
Proof.
  intros H Hd' Hd Hle. unfold step in H. rewrite Hd in H. unfold flush in H.
  destruct (append_all c t w) as [t1|] eqn:A; [|discriminate].
  destruct (t_dead t1) eqn:D1; [inversion H; subst; congruence|].
  apply append_all_appended in A; auto. rewrite <- A.
  unfold send_all in H. destruct (w_pending w); cbn [negb] in H; [|inversion H; reflexivity].
  destruct (for_all _ _) as [us| |]; [| |discriminate]; inversion H; reflexivity.
Qed.

Lemma run_app c a : forall b t,
  run c t (a ++ b) = match run c t a with Next t' => run c t' b | Bug => Bug end.
Proof.
  induction a as [|o a IH]; intros b t; cbn [app run]; [reflexivity|].
  destruct (step c t o); [apply IH|reflexivity].
Qed.

Lemma written_app a b : written (a ++ b) = written a ++ written b.
Proof.
  induction a as [|x a IH]; [reflexivity|].
  cbn [app]. rewrite (written_cons x (a ++ b)), IH, (written_cons x a), app_assoc. reflexivity.
Qed.

Lemma modes_app a b : modes (a ++ b) = modes a ++ modes b.
Proof. unfold modes. rewrite map_app, concat_app. reflexivity. Qed.

Lemma covered_app c a b : covered c (a ++ b) -> covered c a.
Proof.
  unfold covered, acked_only, one_sender, one_upstream. rewrite modes_app, app_length.
  assert (M : memory_ok (a ++ b) -> memory_ok a).
  { intros H x w Hx. apply H. apply in_or_app. left. exact Hx. }
  intros [(H1 & H2)|[(H1 & H2 & H3)|(H1 & H2)]].
  - left. split; [auto|]. apply Forall_app in H2. apply H2.
  - right. left. split; [auto|]. split; [lia|]. apply Forall_app in H3. apply H3.
  - right. right. split; [lia|]. clear -H2. revert H2. generalize init_track.
    induction a as [|o a IH]; intros t; cbn [app resumes_behind]; [auto|].
    intros [H1 H2]. split; [exact H1|]. intros t' E. apply IH, H2, E.
Qed.

Theorem C19_flush_partial : forall c pkts ops w t u,
  ok_conf c -> Forall sendable pkts -> writes pkts ops -> covered c (ops ++ [OFlush w]) ->
  run c init_track (ops ++ [OFlush w]) = Next t -> t_dead t = false ->
  In u (t_ups t) -> u_queued u = true ->
  exists pk0 up off data,
    is_prefix pk0 pkts /\
    u_out u ++ u_busy u =
      greeting c pk0 up off data ++ skipn (length (encode_all pk0)) (written ops).
Proof.
  intros c pkts ops w t u Hc Hs Hw Hcov E Hd Hin Hq.
  assert (Ew : written (ops ++ [OFlush w]) = written ops).
  { rewrite written_app. cbn [written]. apply app_nil_r. }
  assert (Hw2 : writes pkts (ops ++ [OFlush w])) by (unfold writes; rewrite Ew; exact Hw).
  destruct (C19_connection_bytes_partial c pkts _ t u Hc Hs Hw2 Hcov E Hd Hin Hq)
    as (pk0 & pk & up & off & data & P0 & P & A & L & Eb).
  exists pk0, up, off, data. split; [eapply is_prefix_trans; eassumption|].
  rewrite Eb, Ew. f_equal.
  destruct (covered_inv c pkts ops Hc Hs Hw (covered_app _ _ _ Hcov))
    as (kd & strict & t1 & E1 & _ & R).
  rewrite run_app, E1 in E. cbn [run] in E.
  destruct (step c t1 (OFlush w)) as [t2|] eqn:E2; [|discriminate]. inversion E; subst t2.
  destruct (t_dead t1) eqn:D1.
  { unfold step in E2. rewrite D1 in E2. inversion E2; subst. congruence. }
  destruct R as [R|[T Es]]; [congruence|].
  assert (T2 := proj2 T). destruct T2 as [T2 _].
  apply flush_appended in E2; auto; [|lia]. rewrite E2, Es.
  unfold slice, zlen. rewrite Nat2Z.id, firstn_all2; [reflexivity|].
  rewrite skipn_length. lia.
Qed.
Print Assumptions C19_flush_partial.

(* A new connection starts exactly at the acknowledged position: its first
   bytes are the greeting for the acknowledged packets [pk], and then come the
   bytes after them. *)
Theorem C19_resume_partial : forall c pkts ops t u w t' u',
  ok_conf c -> Forall sendable pkts -> writes pkts ops ->
  covered c ops ->
  run c init_track ops = Next t -> t_dead t = false ->
  In u (t_ups t) -> u_conn u <> None -> u_queued u = false ->
  step c t (OWritable (u_id u) w) = Next t' ->
  In u' (t_ups t') -> u_id u' = u_id u -> u_queued u' = true ->
  exists pk, is_prefix pk pkts /\ acknowledged c pk u /\
    u_out u' ++ u_busy u' =
      greeting c pk (u_up_id u) (u_offset u) (u_connect_data u)
      ++ slice (zlen (encode_all pk)) (t_appended t) (written ops).
Proof.
  intros c pkts ops t u w t' u' Hc Hs Hw Hcov E Hd Hin Hcn Hq Est Hin' Hid Hq'.
  destruct (covered_inv c pkts ops Hc Hs Hw Hcov) as (kd & strict & t1 & E1 & _ & R).
  rewrite E in E1. inversion E1; subst t1. destruct R as [R|[T Es]]; [congruence|].
  pose proof (tinv_uinv _ _ _ _ _ _ T Hin) as (pk & P & A & R1 & R2 & R3 & R4 & R5 & R6 & _).
  pose proof T as (_ & _ & _ & _ & _ & T6 & _).
  exists pk. split; [exact P|]. split; [exact A|].
  destruct (R5 Hq) as [_ [Hn|[_ Ho]]]; [contradiction|].
  pose proof A as (A1 & _). rewrite <- A1, <- Es.
  eapply start_bytes; eauto.
Qed.
Print Assumptions C19_resume_partial.

(* The position an upstream resumes from moves only when its receiver
   acknowledges a frame, and then exactly to that frame; a new upstream starts
   at the beginning or where the one it is copied from stands.  This holds for
   every upstream that waits for acknowledgements, in any state, whatever the
   other upstreams do, as long as memory is not low. *)
Theorem C19_acked_position : forall c t o t' u',
  (forall w, op_world o = Some w -> w_mem w = []) ->
  step c t o = Next t' -> In u' (t_ups t') -> u_mode u' = LastAcked ->
  origin c t o u'.
Proof. intros. eapply step_origin; eassumption. Qed.
Print Assumptions C19_acked_position.

(* Hence no upstream ever resumes after a frame that was not acknowledged. *)
Theorem C19_never_early_partial : forall c pkts ops t u,
  ok_conf c -> Forall sendable pkts -> writes pkts ops -> acked_only ops ->
  run c init_track ops = Next t -> t_dead t = false -> In u (t_ups t) ->
  In (u_acked_id u) (c_initial c :: acks ops).
Proof.
  intros c pkts ops t u Hc Hs Hw Hao.
  assert (G : forall ops, memory_ok ops -> writes pkts ops ->
    Forall (fun m => m = LastAcked) (modes ops) -> forall t u,
    run c init_track ops = Next t -> t_dead t = false -> In u (t_ups t) ->
    In (u_acked_id u) (c_initial c :: acks ops)).
  2:{ intros. eapply G; eauto; apply Hao. }
  clear t u Hao Hw ops. induction ops as [|o ops IH] using rev_ind; intros Hm Hw Hmo t u E Hd Hin.
  { cbn in E. inversion E; subst. destruct Hin. }
  assert (Hcov : covered c (ops ++ [o])) by (left; split; assumption).
  destruct (covered_inv c pkts _ Hc Hs Hw (or_introl (conj Hm Hmo)))
    as (kd0 & strict0 & t0 & E0 & _ & R0).
  assert (A : acks (ops ++ [o]) = acks ops ++ acks [o]).
  { clear. induction ops as [|x ops IH]; [reflexivity|].
    destruct x; cbn [app acks]; rewrite ?IH; reflexivity. }
  assert (Hw' : writes pkts ops).
  { destruct Hw as (r & Hr).
    exists (written [o] ++ r). rewrite Hr, written_app, <- app_assoc. reflexivity. }
  assert (Hm' : memory_ok ops).
  { intros x w Hx. apply Hm. apply in_or_app. left. exact Hx. }
  assert (Hmo' : Forall (fun m => m = LastAcked) (modes ops)).
  { unfold modes in *. rewrite map_app, concat_app in Hmo. apply Forall_app in Hmo. apply Hmo. }
  rewrite run_app in E. destruct (run c init_track ops) as [t1|] eqn:E1; [|discriminate].
  cbn [run] in E. destruct (step c t1 o) as [t2|] eqn:E2; [|discriminate].
  inversion E; subst t2.
  destruct (t_dead t1) eqn:D1.
  { unfold step in E2. rewrite D1 in E2. inversion E2; subst. congruence. }
  pose proof (IH Hm' Hw' Hmo' t1) as IH'. specialize (fun v => IH' v eq_refl D1).
  assert (Hmode : u_mode u = LastAcked).
  { destruct (init_inv c pkts KAcked true Hc) as [I1 I2].
    destruct (run_inv c pkts KAcked true Hc Hs (fun _ => eq_refl) (ops ++ [o]) init_track I1 I2
                eq_refl (acked_only_ok c pkts _ Hw (conj Hm Hmo))) as (t3 & E3 & R3).
    rewrite run_app, E1 in E3. cbn [run] in E3. rewrite E2 in E3. inversion E3; subst t3.
    destruct R3 as [R3|(R3 & _)]; [congruence|].
    pose proof (tinv_uinv _ _ _ _ _ _ R3 Hin) as (pk & _ & _ & _ & _ & _ & _ & _ & _ & R7 & _).
    apply R7. reflexivity. }
  destruct (step_origin c t1 o t u) as [v Hv _ _ Ev|v f up off w Hv _ _ Eo Ev|l Eo Ev|v src m r d Eo Hv _ Ev];
    auto.
  { intros w. apply Hm. apply in_or_app. right. left. reflexivity. }
  - rewrite Ev, A. specialize (IH' v Hv). destruct IH' as [H|H]; [left; exact H|right].
    apply in_or_app. left. exact H.
  - rewrite Ev, A. destruct (Z.max_spec (u_acked_id v) f) as [[_ ->]|[_ ->]].
    + right. apply in_or_app. right. subst o. left. reflexivity.
    + specialize (IH' v Hv). destruct IH' as [H|H]; [left; exact H|right].
      apply in_or_app. left. exact H.
  - left. congruence.
  - rewrite Ev, A. specialize (IH' v Hv). destruct IH' as [H|H]; [left; exact H|right].
    apply in_or_app. left. exact H.
Qed.
Print Assumptions C19_never_early_partial.

(* --- C20 --- *)

(* The released bytes all lie before the acknowledged position of every
   upstream, and the track never reads a released buffer or a byte that was not
   written. *)
Theorem C20_released_partial : forall c pkts ops,
  ok_conf c -> Forall sendable pkts -> writes pkts ops -> covered c ops ->
  exists t, run c init_track ops = Next t /\
    (t_dead t = false -> forall u, In u (t_ups t) ->
       exists pk, is_prefix pk pkts /\ acknowledged c pk u /\
         released c t <= zlen (encode_all pk)).
Proof.
  intros c pkts ops Hc Hs Hw Hcov.
  destruct (covered_inv c pkts ops Hc Hs Hw Hcov) as (kd & strict & t & E & _ & R).
  exists t. split; [exact E|]. intros Hd u Hin. destruct R as [R|[T _]]; [congruence|].
  pose proof (tinv_uinv _ _ _ _ _ _ T Hin) as (pk & P & A & R1 & R2 & _).
  exists pk. split; [exact P|]. split; [exact A|]. destruct A as (A1 & _). unfold released. lia.
Qed.
Print Assumptions C20_released_partial.

(* --- C21 --- *)

(* The acknowledged position is the end of a whole packet, the reader is there
   too, and it is either where the connection started or within the bytes the
   connection has taken. *)
Theorem C21_acknowledged_partial : forall c pkts ops t u,
  ok_conf c -> Forall sendable pkts -> writes pkts ops -> covered c ops ->
  run c init_track ops = Next t -> t_dead t = false -> In u (t_ups t) ->
  exists pk, is_prefix pk pkts /\ acknowledged c pk u /\
    (u_queued u = true ->
     exists pk0 up off data,
       is_prefix pk0 pk /\
       u_out u ++ u_busy u =
         greeting c pk0 up off data
         ++ slice (zlen (encode_all pk0)) (t_appended t) (written ops) /\
       (zlen (encode_all pk) = zlen (encode_all pk0) \/
        zlen (encode_all pk) - zlen (encode_all pk0)
          <= zlen (u_out u) - zlen (greeting c pk0 up off data))).
Proof.
  intros c pkts ops t u Hc Hs Hw Hcov E Hd Hin.
  destruct (covered_inv c pkts ops Hc Hs Hw Hcov) as (kd & strict & t1 & E1 & _ & R).
  rewrite E in E1. inversion E1; subst t1. destruct R as [R|[T Es]]; [congruence|].
  pose proof (tinv_uinv _ _ _ _ _ _ T Hin) as (pk & P & A & R1 & R2 & R3 & R4 & R5 & R6 & _).
  exists pk. split; [exact P|]. split; [exact A|]. intros Hq.
  destruct (R6 Hq) as (pk0 & P0 & sent & up & off & data & L1 & L2 & L3 & L4 & L5 & L6).
  exists pk0, up, off, data. split; [exact P0|]. rewrite <- Es. split; [exact L3|].
  destruct A as (A1 & A2 & _). destruct L6 as [L6|L6]; [left; congruence|right]. lia.
Qed.
Print Assumptions C21_acknowledged_partial.

(* --- Examples --- *)

Definition ex_conf : conf := mkConf 64 (repeat 1 64) 0 100 7 true.
Definition ex_mi : list Z := le 4 0 ++ repeat 0 4 ++ le 4 1000 ++ repeat 0 20.
Definition ex_pkts : list pkt :=
  [PMediaInfo ex_mi [] (repeat 5 30); PFrame (mkFrame 1 10 1 0) [] (repeat 6 50);
   PNull [] []; PFrame (mkFrame 2 20 0 0) [] [7; 8]; PFrame (mkFrame 3 30 0 0) [] [9]].
Definition ex_world (n : nat) : world :=
  mkWorld [] (fun _ => true) true (fun _ => Some n) (fun _ => true) (fun _ => true) (fun _ => true).
Definition ex_w : world := ex_world 1000.
Definition ex_write (i n : nat) : op :=
  OWrite (encode (nth i ex_pkts (PNull [] []))) (ex_world n).
Definition ex_result (ops : list op) : track :=
  match run ex_conf init_track ops with Next t => t | Bug => init_track end.
Definition ex_up (i : nat) (t : track) : upstream :=
  nth i (t_ups t) (new_upstream ex_conf t None LastAcked true []).

Ltac parts := unfold acknowledged; repeat match goal with |- _ /\ _ => split end.

Lemma ex_ok : ok_conf ex_conf.
Proof. split; vm_compute; reflexivity. Qed.
Lemma ex_sendable : Forall sendable ex_pkts.
Proof. repeat constructor. Qed.

(* Two receivers; the first acknowledges one frame, breaks, and is connected
   again: it announces frame 101 and gets the keepalive and frames 101, 102. *)
Definition ex_before : list op :=
  [ex_write 0 1000; OPublish [(LastAcked, true, [1; 2]); (LastAcked, false, [])];
   OWritable 0 ex_w; OWritable 1 (ex_world 10);
   ex_write 1 1000; OFrameDone; ex_write 2 1000; OFlush ex_w; ex_write 3 1000; OFrameDone;
   OFlush ex_w; OAck 0 101 8 0 ex_w; OAck 1 102 9 3 ex_w;
   OClosed 0 ex_w; ex_write 4 1000; OFrameDone; OFlush ex_w; OConnected 0 (Some [3])].
Definition ex_ops : list op := ex_before ++ [OWritable 0 (ex_world 130)].

Ltac mem_ok :=
  let o := fresh in let w := fresh in let H := fresh in let E := fresh in
  intros o w H E; cbn [In app] in H;
  repeat (destruct H as [H|H]; [subst o; inversion E; subst w; reflexivity|]); destruct H.

Example C19_ex :
  ok_conf ex_conf /\ Forall sendable ex_pkts /\ writes ex_pkts ex_ops /\ acked_only ex_ops /\
  (exists t, run ex_conf init_track ex_ops = Next t /\ t_dead t = false /\
     released ex_conf t = 128 /\
     exists u u2, t_ups t = [u; u2] /\ u_queued u = true /\
       u_acked_id u = 101 /\ u_acked_id u2 = 102 /\
       u_out u ++ u_busy u =
         greeting ex_conf (firstn 2 ex_pkts) 8 0 [3] ++ encode_all (skipn 2 ex_pkts) /\
       u_out u2 = greeting ex_conf [] 7 0 [] ++ encode_all ex_pkts).
Proof.
  split; [apply ex_ok|]. split; [apply ex_sendable|].
  split; [exists []; vm_compute; reflexivity|].
  split; [split; [mem_ok|repeat constructor]|].
  exists (ex_result ex_ops). split; [vm_compute; reflexivity|]. split; [vm_compute; reflexivity|].
  split; [vm_compute; reflexivity|].
  exists (ex_up 0 (ex_result ex_ops)), (ex_up 1 (ex_result ex_ops)).
  parts; vm_compute; reflexivity.
Qed.

(* The event that starts the new connection in this history. *)
Example C19_resume_ex :
  exists t t', run ex_conf init_track ex_before = Next t /\ t_dead t = false /\
    u_conn (ex_up 0 t) = Some 0 /\ u_queued (ex_up 0 t) = false /\
    In (ex_up 0 t) (t_ups t) /\
    step ex_conf t (OWritable (u_id (ex_up 0 t)) (ex_world 130)) = Next t' /\
    In (ex_up 0 t') (t_ups t') /\ u_id (ex_up 0 t') = u_id (ex_up 0 t) /\
    u_queued (ex_up 0 t') = true.
Proof.
  exists (ex_result ex_before), (ex_result ex_ops).
  parts; try (vm_compute; reflexivity); vm_compute; left; reflexivity.
Qed.

(* One receiver that is taken to have what was sent. *)
Definition ex_sender : list op :=
  [ex_write 0 1000; OPublish [(LastSent, true, [1; 2])]; OWritable 0 ex_w;
   ex_write 1 1000; OFrameDone; OFlush (ex_world 70); OWritable 0 (ex_world 8);
   ex_write 2 0; ex_write 3 0; OFrameDone; OFlush ex_w].
Example C21_ex :
  writes ex_pkts ex_sender /\ one_sender ex_sender /\
  exists t, run ex_conf init_track ex_sender = Next t /\ t_dead t = false /\
    exists u, t_ups t = [u] /\ u_acked_id u = 102 /\ u_reader u = 226 /\
      acknowledged ex_conf (firstn 4 ex_pkts) u /\ released ex_conf t = 128.
Proof.
  split; [exists (encode (nth 4 ex_pkts (PNull [] []))); vm_compute; reflexivity|].
  split; [split; [mem_ok|split; [vm_compute; lia|]]|].
  { repeat constructor; discriminate. }
  exists (ex_result ex_sender). split; [vm_compute; reflexivity|]. split; [vm_compute; reflexivity|].
  exists (ex_up 0 (ex_result ex_sender)). parts; vm_compute; reflexivity.
Qed.

(* One receiver that gets only what is written while it is connected, with low
   memory: the connection is given up to release a buffer. *)
Definition ex_low : list op :=
  [ex_write 0 1000; OPublish [(LastWritten, true, [1; 2])]; OWritable 0 ex_w;
   ex_write 1 0; OFrameDone;
   OWrite (encode (nth 2 ex_pkts (PNull [] [])))
     (mkWorld [100; 10] (fun _ => true) true (fun _ => Some 0%nat) (fun _ => true) (fun _ => true)
        (fun _ => true));
   OFlush ex_w; ex_write 3 0; OFrameDone; OFlush ex_w; OConnected 0 None; OWritable 0 ex_w].
Example C20_ex :
  writes ex_pkts ex_low /\ one_upstream ex_conf ex_low /\
  exists t, run ex_conf init_track ex_low = Next t /\ t_dead t = false /\
    exists u, t_ups t = [u] /\ u_queued u = true /\ released ex_conf t = 192.
Proof.
  split; [exists (encode (nth 4 ex_pkts (PNull [] []))); vm_compute; reflexivity|].
  split.
  { split; [vm_compute; lia|].
    unfold ex_low. cbn [resumes_behind].
    repeat (split; [intros id w u E; try discriminate E; intros Hin Hid Hq|
                    let t' := fresh in let E := fresh in
                    intros t' E; vm_compute in E; injection E as <-]); try exact Logic.I.
    all: vm_compute in Hin; destruct Hin as [<-|[]]; vm_compute in Hq |- *; congruence. }
  exists (ex_result ex_low). split; [vm_compute; reflexivity|]. split; [vm_compute; reflexivity|].
  exists (ex_up 0 (ex_result ex_low)). parts; vm_compute; reflexivity.
Qed.

(* --- What does not hold in general --- *)

(* C20 fails with two upstreams of which one does not wait for acknowledgements.
   Both have acknowledged 0 frames, but the first is past the media info and the
   second is not.  The buffer to keep is chosen by the number of frames alone,
   so the buffer the second upstream still needs is released, and its next
   connection reads it. *)
Definition ex_two : list op :=
  [ex_write 0 1000; OPublish [(LastSent, true, [1; 2]); (LastAcked, true, [])];
   OWritable 0 ex_w; OWritable 1 ex_w; OFlush ex_w; OWritable 0 ex_w; ex_write 1 1000; OFlush ex_w].
Theorem C20_mixed_modes_refuted :
  exists c pkts ops t u w more,
    ok_conf c /\ Forall sendable pkts /\ writes pkts (ops ++ more) /\ memory_ok (ops ++ more) /\
    modes (ops ++ more) = [LastSent; LastAcked] /\
    run c init_track ops = Next t /\ t_dead t = false /\ In u (t_ups t) /\
    acknowledged c [] u /\ 0 < released c t /\
    run c init_track (ops ++ more ++ [OWritable (u_id u) w]) = Bug.
Proof.
  exists ex_conf, ex_pkts, ex_two, (ex_result ex_two), (ex_up 1 (ex_result ex_two)), ex_w,
    [OClosed 1 ex_w; ex_write 2 1000; OFlush ex_w; OConnected 1 None].
  split; [apply ex_ok|]. split; [apply ex_sendable|].
  split; [exists (encode_all (skipn 3 ex_pkts)); vm_compute; reflexivity|].
  split; [mem_ok|]. split; [reflexivity|]. split; [vm_compute; reflexivity|].
  split; [vm_compute; reflexivity|].
  split; [vm_compute; right; left; reflexivity|].
  split; [parts; vm_compute; reflexivity|]. split; [vm_compute; reflexivity|].
  vm_compute. reflexivity.
Qed.
Print Assumptions C20_mixed_modes_refuted.

(* C21 fails at the end of the stream: passing the end of stream packet moves
   the reader but not the acknowledged position, so the next automatic
   acknowledgement reads past the data. *)
Definition ex_end : list op :=
  [ex_write 0 1000; OPublish [(LastSent, true, [1; 2])];
   OWritable 0 ex_w; OWrite (encode (PEnd [] [])) ex_w; OFlush ex_w].
Theorem C21_end_of_stream_refuted :
  exists c p ops t u,
    ok_conf c /\ sendable p /\ written ops = encode p ++ encode (PEnd [] []) /\ one_sender ops /\
    run c init_track ops = Next t /\ t_dead t = false /\ In u (t_ups t) /\
    u_reader u <> u_acked_bytes u /\
    run c init_track (ops ++ [OWritable (u_id u) ex_w]) = Bug.
Proof.
  exists ex_conf, (nth 0 ex_pkts (PNull [] [])), ex_end, (ex_result ex_end),
    (ex_up 0 (ex_result ex_end)).
  split; [apply ex_ok|]. split; [repeat constructor|]. split; [vm_compute; reflexivity|].
  split; [split; [mem_ok|split; [vm_compute; lia|repeat constructor; discriminate]]|].
  split; [vm_compute; reflexivity|]. split; [vm_compute; reflexivity|].
  split; [vm_compute; left; reflexivity|]. split; [vm_compute; discriminate|].
  vm_compute. reflexivity.
Qed.
Print Assumptions C21_end_of_stream_refuted.

(* C19 and C21 fail for an upstream that resumes from the last frame written,
   when it is connected again before the frame was handed over: the connection
   announces the number of the next frame and then carries the frame before it,
   and the next automatic acknowledgement goes beyond the data that was sent and
   reads bytes that were never written. *)
Definition ex_written : list op :=
  [ex_write 0 1000; OPublish [(LastWritten, true, [1; 2])];
   OFlush ex_w; OWritable 0 (ex_world 10); ex_write 3 10; OFrameDone;
   OClosed 0 ex_w; OConnected 0 None; OWritable 0 ex_w; OFlush (ex_world 0)].
Theorem C19_last_written_refuted :
  exists c pk p q ops t u up off data more,
    ok_conf c /\ Forall sendable (pk ++ [p; q]) /\ memory_ok ops /\ modes ops = [LastWritten] /\
    written ops = encode_all (pk ++ [p]) /\
    run c init_track ops = Next t /\ t_dead t = false /\ In u (t_ups t) /\
    acknowledged c (pk ++ [p]) u /\
    u_out u ++ u_busy u = greeting c (pk ++ [p]) up off data ++ encode p /\
    written (ops ++ more) = encode_all (pk ++ [p; q]) /\
    run c init_track (ops ++ more) = Bug.
Proof.
  exists ex_conf, [nth 0 ex_pkts (PNull [] [])], (nth 3 ex_pkts (PNull [] [])),
    (nth 4 ex_pkts (PNull [] [])), ex_written, (ex_result ex_written),
    (ex_up 0 (ex_result ex_written)), 7, 0, [1; 2],
    [ex_write 4 1000; OFrameDone; OFlush ex_w].
  split; [apply ex_ok|]. split; [repeat constructor|]. split; [mem_ok|]. split; [reflexivity|].
  split; [vm_compute; reflexivity|]. split; [vm_compute; reflexivity|].
  split; [vm_compute; reflexivity|]. split; [vm_compute; left; reflexivity|].
  split; [parts; vm_compute; reflexivity|]. split; [vm_compute; reflexivity|].
  split; vm_compute; reflexivity.
Qed.
Print Assumptions C19_last_written_refuted.
