(* The properties of an RTMP upstream. *)

From Coq Require Import List ZArith Lia Bool Arith Permutation.
From Coq Require Import ZifyBool ZifyNat.
From Verif Require Import BufQueueModel BufQueueSpec BufQueueProofs UpModel UpSpec UpProofs UpProofs2 UpProofs3 UpProofs4.
From Verif Require Import Lists Bytes RtmpModel RtmpSpec EncModel EncSpec EncProperties.
Import ListNotations.
Open Scope Z_scope.

(* ---- C65: what is written is what is sent ---- *)

Lemma run_inv size max_free limit u w ok : up_run size max_free limit u w ok ->
  inv size u /\ prefix_of (data u) w /\ (u_err u = false -> data u = w) /\ (ok = true -> data u = w) /\ (ok = true -> timed u).
Proof.
  induction 1 as [mem u HI|u w ok op u' ok' R (I & P & E & K & T) OK O].
  - unfold up_init, bq_init in HI. destruct (size <=? node_size) eqn:C; [discriminate|]. injection HI as <-. unfold node_size in C.
    split.
    { split; [reflexivity|]. split; [lia|]. split; [exact Logic.I|]. split; [discriminate|]. split; [apply placed_nil|].
      split; [left; auto|constructor]. }
    split; [exists []; reflexivity|]. split; [reflexivity|]. split; [reflexivity|]. intros _ H. cbn in H. lia.
  - destruct (op_ok size u op I OK) as (u1 & ok1 & O1 & I1 & (pre & A1 & A2 & A3 & A4 & A5) & T1 & _).
    rewrite O in O1. injection O1 as <- <-. split; [exact I1|].
    assert (DA : (u_err u = false \/ ok = true) -> pre = asked op -> data u' = w ++ asked op).
    { intros [H|H] ->; rewrite A2; [rewrite (E H)|rewrite (K H)]; reflexivity. }
    split; [|split; [|split]].
    + destruct (u_err u) eqn:EE.
      * destruct (A5 eq_refl) as (-> & _). rewrite app_nil_r in A2. destruct P as (s & ->). exists (s ++ asked op). rewrite A2, app_assoc. reflexivity.
      * destruct A1 as (s & A1). exists s. rewrite A2, (E eq_refl), <- app_assoc, <- A1. reflexivity.
    + intros HE. apply DA; [|apply (A3 HE)]. left. destruct (u_err u); [destruct (A5 eq_refl); congruence|reflexivity].
    + intros HK. apply andb_prop in HK as (HK1 & HK2). apply DA; [right; exact HK1|apply (A4 HK2)].
    + intros HK. apply andb_prop in HK as (HK1 & HK2). apply (T1 HK2 (T HK1)).
Qed.

(* nothing is written outside the buffers in use, no buffer is given back while
   it is used, no list is taken for longer than it is, and loops end *)
Theorem C65_safe size max_free limit u w ok op :
  up_run size max_free limit u w ok -> uop_ok u op -> up_op u op <> None.
Proof.
  intros R OK. destruct (run_inv _ _ _ _ _ _ R) as (I & _). destruct (op_ok size u op I OK) as (u1 & ok1 & O1 & _). congruence.
Qed.
Print Assumptions C65_safe.

(* at any time, what the connection took, followed by what is to be sent, is the
   beginning of what was written; it is all of it unless something failed *)
Theorem C65_order size max_free limit u w ok :
  up_run size max_free limit u w ok ->
  exists lost, w = u_wire u ++ pending u ++ lost /\ (ok = true -> lost = []).
Proof.
  intros R. destruct (run_inv _ _ _ _ _ _ R) as (_ & (s & P) & _ & K & _). exists s. rewrite app_assoc. split; [exact P|].
  intros HK. specialize (K HK). rewrite P in K. rewrite <- (app_nil_r (data u)) in K at 1. apply app_inv_head in K. congruence.
Qed.
Print Assumptions C65_order.

(* bytes that are not on the way to the connection have the flush timer running *)
Theorem C65_timer size max_free limit u w :
  up_run size max_free limit u w true -> u_pos u < u_last u -> u_timer u = true.
Proof. intros R. destruct (run_inv _ _ _ _ _ _ R) as (_ & _ & _ & _ & T). apply (T eq_refl). Qed.
Print Assumptions C65_timer.

(* when the timer fires and the connection takes everything, everything was
   sent *)
Theorem C65_flush size max_free limit u w k u' :
  up_run size max_free limit u w true -> up_op u (UFlush (Takes k)) = Some (u', true) -> zl (pending u) <= k -> u_wire u' = w.
Proof.
  intros R O HK. destruct (run_inv _ _ _ _ _ _ R) as (I & _ & _ & K & _).
  destruct (flush_ok size (set_timer u false) (Takes k) I) as (u1 & ok & E & J1 & J2 & _ & _ & _ & _ & _ & _ & J9 & _).
  cbn [up_op] in O. rewrite O in E. injection E as <- <-. specialize (J9 k eq_refl eq_refl HK).
  unfold data in J2 at 1. rewrite J9, app_nil_r in J2. rewrite J2. exact (K eq_refl).
Qed.
Print Assumptions C65_flush.

(* the connection is closed as "done" only after everything was sent; messages
   are put into the buffer while there is a stream, or before connecting *)
Theorem C65_done size max_free limit u w op u' :
  up_run size max_free limit u w true -> uop_ok u op -> up_op u op = Some (u', true) ->
  (match op with UFill _ _ a => u_none u = false \/ a = Idle | _ => True end) ->
  u_done u = false -> u_done u' = true -> u_wire u' = w ++ asked op.
Proof.
  intros R OK O HF D0 D1. destruct (run_inv _ _ _ _ _ _ R) as (I & _ & _ & K & _).
  assert (R' : up_run size max_free limit u' (w ++ asked op) true) by exact (up_step size max_free limit u w true op u' true R OK O).
  destruct (run_inv _ _ _ _ _ _ R') as (_ & _ & _ & K' & _). specialize (K' eq_refl).
  destruct (op_ok size u op I OK) as (u1 & ok1 & O1 & I1 & _ & _ & DN). rewrite O in O1. injection O1 as <- <-.
  assert (G : done_ok u u').
  { destruct op as [l al a|l al a|a|a| |none|mem]; try (apply DN; assumption). cbn [up_op] in O. injection O as <-. intros H. left. exact H. }
  destruct (G D1) as [H|H]; [congruence|]. unfold data in K'. rewrite H, app_nil_r in K'. exact K'.
Qed.
Print Assumptions C65_done.

Lemma send_closes size u k u' : inv size u -> send u (Takes k) = Some (u', true) -> u_busy u <> [] -> u_busy u' = [] ->
  u_none u = true -> u_last u <= u_pos u -> u_done u' = true.
Proof.
  intros I S HB HB' HN HL. unfold send in S. destruct (u_cerr u); [discriminate|].
  destruct (u_busy u) as [|b0 br] eqn:EB; [congruence|]. clear HB.
  destruct (send_chain (u_mem u) k (b0 :: br)) as [[o s] rest].
  match type of S with match ?m with _ => _ end = _ => destruct m as [lim|]; [|discriminate] end.
  destruct (bq_free_upto (u_q u) lim) as [q r1 r2|]; [|discriminate].
  destruct rest as [|x rest].
  - cbn [set_chains set_q u_none u_last u_pos] in S. rewrite HN in S. replace (u_last u <=? u_pos u) with true in S by lia.
    cbn [andb] in S. injection S as <-. reflexivity.
  - injection S as <-. cbn in HB'. discriminate.
Qed.

(* the connection is closed once there is no stream and everything was sent *)
Theorem C65_closes size max_free limit u w k u' :
  up_run size max_free limit u w true -> u_none u = true -> pending u <> [] ->
  up_op u (UFlush (Takes k)) = Some (u', true) -> zl (pending u) <= k -> u_done u' = true.
Proof.
  intros R HN HP O HK. destruct (run_inv _ _ _ _ _ _ R) as (I & _). cbn [up_op] in O. unfold flush in O.
  pose proof (append_ok size (set_timer u false) I) as A. destruct (append (set_timer u false)) as [u1 ok1].
  destruct A as (A1 & A2 & A3 & A4 & A5 & A6 & A7 & A8 & A9 & A10 & A11). destruct ok1; cbn [negb] in O; [|discriminate].
  specialize (A10 eq_refl) as (A10 & A12). destruct (outer_eq _ _ A4) as (_ & O2 & _).
  assert (EP : pending (set_timer u false) = pending u) by reflexivity. rewrite EP in A12.
  destruct (send_ok size u1 (Takes k) A1) as (u2 & ok2 & S1 & S2 & S3 & S4 & S5 & S6 & S7 & S8 & S9 & S10 & S11 & S12).
  rewrite O in S1. injection S1 as <- <-.
  apply (send_closes size u1 k u' A1 O).
  - intros HB. rewrite HB in A12. cbn in A12. congruence.
  - apply (S11 k eq_refl eq_refl). rewrite A12. exact HK.
  - rewrite O2. exact HN.
  - lia.
Qed.
Print Assumptions C65_closes.

(* the buffers and the links of the chains stay within the limit, and nothing is
   charged twice or forgotten *)
Theorem C65_memory size max_free limit u w ok : 0 <= limit ->
  up_run size max_free limit u w ok ->
  exists left, bq_mem_left (u_q u) = Some left /\ 0 <= left /\
    size * zl (held (u_q u)) + 96 * (zl (u_busy u) + zl (u_free u)) + left = limit.
Proof.
  intros HL R.
  assert (G : good limit size u).
  { induction R as [mem u HI|u w ok op u' ok' R IH OK O].
    - unfold up_init, bq_init in HI. destruct (size <=? node_size) eqn:C; [discriminate|]. injection HI as <-.
      split; [reflexivity|]. exists limit. split; [reflexivity|]. split; [exact HL|]. cbn. lia.
    - destruct (run_inv _ _ _ _ _ _ R) as (I & _). pose proof I as (_ & I2 & _).
      pose proof (good_op limit size I2 u op IH) as H. rewrite O in H. exact H. }
  destruct G as (_ & m & M & P & E). exists m. split; [exact M|]. split; [exact P|]. unfold links, link_size, zl in *. lia.
Qed.
Print Assumptions C65_memory.

(* With C63: when the bytes written are those of the encoder, a server of this
   project that reads what the connection took gets the expected messages. *)
Theorem C65_server size max_free limit u u' k fill cf connect ops net c ks :
  ecfg_ok (max_message c) cf -> body_ok (max_message c) 0 connect -> 4 <= max_message c -> Forall (eop_ok (max_message c)) ops ->
  opens ops + 3 < max_streams c -> opens ops <= 60 -> (forall l, accept c l = true) ->
  encode fill cf connect ops = Some net -> up_run size max_free limit u net true ->
  up_op u (UFlush (Takes k)) = Some (u', true) -> zl (pending u) <= k ->
  exists s rest e, run c (init c T3Off) (u_wire u') ks = Some (Go s, rest) /\
    expect cf connect ops = map view (s_out s) ++ e /\ (rest = [] -> e = []).
Proof.
  intros H1 H2 H3 H4 H5 H6 H7 E R O HK. rewrite (C65_flush _ _ _ _ _ _ _ R O HK).
  destruct (C63_received fill cf connect ops c ks H1 H2 H3 H4 H5 H6 H7) as (net' & s & rest & e & E' & G).
  rewrite E in E'. injection E' as <-. exists s, rest, e. exact G.
Qed.
Print Assumptions C65_server.

(* ---- a case ---- *)

(* buffers of 20 bytes, 12 of them usable; the connection takes what it likes *)
Definition ex_mem : Z -> Z := fun a => a mod 7.

Fixpoint ex_steps (u : up) (ops : list uop) : option (up * bool) :=
  match ops with
  | [] => Some (u, true)
  | op :: r =>
      match up_op u op with
      | Some (u', ok) => match ex_steps u' r with Some (u'', ok') => Some (u'', ok && ok') | None => None end
      | None => None
      end
  end.

Definition ex_uops : list uop :=
  [UFill [1; 2; 3; 4; 5] [Some 1000] Idle; UAdded; UFill [6; 7; 8] [Some 2000] Idle;
   UWrite (map Z.of_nat (seq 10 30)) [Some 3000; Some 2000; Some 500] (Takes 7); UReady (Takes 4); UReady (Takes 100);
   UWrite [50; 51] [] Idle; UFlush (Takes 1); UWrite (map Z.of_nat (seq 60 20)) [Some 7000; Some 8000] (Takes 3);
   UFill [90; 91] [Some 9000] (Takes 2); URemoved true; UFlush (Takes 1000)].

Definition ex_view (r : option (up * bool)) : option (list Z * list Z * bool * bool) :=
  match r with Some (u, ok) => Some (u_wire u, pending u, u_done u, ok) | None => None end.

(* the answers of the allocator are apart from what is held at each step *)
Fixpoint apartb (size : Z) (l : list Z) : bool :=
  match l with [] => true | a :: r => forallb (fun b => (a + size <=? b) || (b + size <=? a)) r && apartb size r end.

Lemma apartb_ok size l : apartb size l = true -> all_apart size l.
Proof.
  induction l as [|a r IH]; cbn [apartb all_apart]; [exact (fun _ => Logic.I)|]. intros H. apply andb_prop in H as (H1 & H2).
  split; [|exact (IH H2)]. apply Forall_forall. intros b HB. rewrite forallb_forall in H1. specialize (H1 b HB). unfold apart. lia.
Qed.

Fixpoint ex_okb (u : up) (ops : list uop) : bool :=
  match ops with
  | [] => true
  | op :: r =>
      match op with
      | UWrite _ al _ | UFill _ al _ => apartb (bq_alloc_size (u_q u)) (somes al ++ held (u_q u))
      | UOther _ => false
      | _ => true
      end && match up_op u op with Some (u', _) => ex_okb u' r | None => false end
  end.

Lemma ex_run_ok size max_free limit : forall ops u w ok u' ok',
  up_run size max_free limit u w ok -> ex_okb u ops = true -> ex_steps u ops = Some (u', ok') ->
  up_run size max_free limit u' (w ++ flat_map asked ops) (ok && ok').
Proof.
  induction ops as [|op r IH]; intros u w ok u' ok' R HB HS; cbn [ex_okb ex_steps flat_map] in *.
  - injection HS as <- <-. rewrite app_nil_r, andb_true_r. exact R.
  - apply andb_prop in HB as (HB1 & HB2). destruct (up_op u op) as [[u1 ok1]|] eqn:E; [|discriminate].
    destruct (ex_steps u1 r) as [[u2 ok2]|] eqn:E2; [|discriminate]. injection HS as <- <-.
    rewrite app_assoc, andb_assoc. apply (IH u1 _ _ u2 ok2); [|exact HB2|exact E2].
    apply (up_step _ _ _ u w ok op u1 ok1 R); [|exact E]. destruct op; cbn [uop_ok]; try exact Logic.I; try (apply apartb_ok; exact HB1). discriminate.
Qed.

Lemma ex_glue size max_free limit mem ops v :
  match up_init size max_free limit mem with Some u => ex_view (ex_steps u ops) | None => None end = Some (fst (fst (fst v)), snd (fst (fst v)), snd (fst v), snd v) ->
  match up_init size max_free limit mem with Some u => ex_okb u ops | None => false end = true ->
  exists u, up_run size max_free limit u (flat_map asked ops) (snd v) /\ u_wire u = fst (fst (fst v)) /\ pending u = snd (fst (fst v)) /\ u_done u = snd (fst v).
Proof.
  intros H1 H2. destruct (up_init size max_free limit mem) as [u|] eqn:EI; [|discriminate].
  destruct (ex_steps u ops) as [[u' ok']|] eqn:E; [|discriminate]. cbn [ex_view] in H1. injection H1 as V1 V2 V3 V4.
  exists u'. split; [|auto]. rewrite <- V4. exact (ex_run_ok _ _ _ ops u [] true u' ok' (up_start _ _ _ mem u EI) H2 E).
Qed.

(* all that was written was sent, in order, and the connection is closed *)
Example C65_ex : exists u, up_run 20 2 1000 u (flat_map asked ex_uops) true /\ u_wire u = flat_map asked ex_uops /\ pending u = [] /\ u_done u = true.
Proof. apply (ex_glue 20 2 1000 ex_mem ex_uops (flat_map asked ex_uops, [], true, true)); vm_compute; reflexivity. Qed.

(* part of it is on the way *)
Example C65_ex_part : exists u, up_run 20 2 1000 u (flat_map asked (firstn 4 ex_uops)) true /\
  u_wire u = [1; 2; 3; 4; 5; 6; 7] /\ pending u = 8 :: map Z.of_nat (seq 10 30) /\ u_done u = false.
Proof. apply (ex_glue 20 2 1000 ex_mem (firstn 4 ex_uops) ([1; 2; 3; 4; 5; 6; 7], 8 :: map Z.of_nat (seq 10 30), false, true)); vm_compute; reflexivity. Qed.

(* ---- C66: a connection that closes is not used again ---- *)

(* "done" only posts an event (upstream.c:1183-1197).  A track that connects
   before the event is handled finds the upstream by its name, its messages are
   accepted, and are then lost. *)
Theorem C66_reuse_refuted : ~ (forall size max_free limit u w,
  up_run size max_free limit u w true -> u_done u = true -> u_wire u = w).
Proof.
  intros H.
  assert (CASE : exists u', up_run 20 2 1000 u' (flat_map asked (ex_uops ++ [UAdded; UFill [7] [Some 20000] Idle])) true /\
    u_wire u' = flat_map asked ex_uops /\ pending u' = [7] /\ u_done u' = true).
  { apply (ex_glue 20 2 1000 ex_mem (ex_uops ++ [UAdded; UFill [7] [Some 20000] Idle]) (flat_map asked ex_uops, [7], true, true)); vm_compute; reflexivity. }
  destruct CASE as (u & R & EW & _ & ED). specialize (H _ _ _ _ _ R ED). rewrite EW in H. vm_compute in H. discriminate.
Qed.
Print Assumptions C66_reuse_refuted.
