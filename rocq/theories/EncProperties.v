(* The properties of the RTMP encoder. *)

From Coq Require Import List ZArith Lia Bool Arith.
From Coq Require Import ZifyBool ZifyNat.
From Verif Require Import Lists Bytes RtmpModel RtmpSpec RtmpProofs RtmpProofs4 RtmpProperties.
From Verif Require Import EncModel EncSpec EncProofs EncProofs2 EncProofs3 EncProofs4.
Import ListNotations.
Open Scope Z_scope.

(* ---- C63: what is pushed is what the server gets ---- *)

(* the bytes are chunks of exactly the expected messages, in this order; the
   sizes that are computed match what is written, nothing is written outside
   the memory, and what was in the memory before does not matter *)
Theorem C63_sent fill cf connect ops ms mm :
  ecfg_ok mm cf -> body_ok mm 0 connect -> 4 <= mm -> Forall (eop_ok mm) ops -> opens ops + 3 < ms -> opens ops <= 60 ->
  exists acts, encode fill cf connect ops = Some (wire false sender0 acts) /\
    acts_ok 4 ms mm sender0 acts /\ sent sender0 acts = expect cf connect ops.
Proof.
  intros HC HB HMM F HM HK.
  destruct (encode_steps ms mm cf fill HC connect ops HB HMM HM HK F) as (o & n' & E & acts & A1 & A2 & A3 & A4).
  exists acts. split; [congruence|]. split; [exact A1|]. rewrite sent_acts, <- A3, A4. reflexivity.
Qed.
Print Assumptions C63_sent.

Lemma expect_known cf connect ops : filter known (expect cf connect ops) = expect cf connect ops.
Proof.
  assert (G : forall x, filter known (expect_ops cf x ops) = expect_ops cf x ops).
  { induction ops as [|op ops' IH]; intros x; cbn [expect_ops]; [reflexivity|].
    destruct (expect_op cf x op) as [x1 m] eqn:E. rewrite filter_app, IH. f_equal.
    destruct op as [rel fcp cre pub|k codec rate bits channels|k meta v a|k f c|k fc del]; cbn [expect_op] in E.
    - injection E as <- <-. reflexivity.
    - destruct (nth_error x k) as [y|]; [destruct (y_open y)|]; injection E as <- <-; reflexivity.
    - destruct (nth_error x k) as [y|]; [destruct (y_open y); [destruct (y_meta y)|]|]; injection E as <- <-; try reflexivity.
      destruct v, a; reflexivity.
    - destruct (nth_error x k) as [y|]; [destruct (y_open y); [destruct (y_meta y); [destruct (_ && _)|]|]|]; injection E as <- <-; destruct c; reflexivity.
    - destruct (nth_error x k) as [y|]; [destruct (y_open y)|]; injection E as <- <-; reflexivity. }
  unfold expect. cbn [filter known x_type command]. change (20 <=? 22) with true. change (1 <=? 22) with true. cbn iota. rewrite G. reflexivity.
Qed.

(* a server with the reader of this project, told that extended timestamps are
   not repeated, gets these messages, however the bytes arrive *)
Theorem C63_received fill cf connect ops c ks :
  ecfg_ok (max_message c) cf -> body_ok (max_message c) 0 connect -> 4 <= max_message c -> Forall (eop_ok (max_message c)) ops ->
  opens ops + 3 < max_streams c -> opens ops <= 60 -> (forall l, accept c l = true) ->
  exists net s rest e, encode fill cf connect ops = Some net /\
    run c (init c T3Off) net ks = Some (Go s, rest) /\
    expect cf connect ops = map view (s_out s) ++ e /\ (rest = [] -> e = []).
Proof.
  intros HC HB HMM F HM HK ACC.
  destruct (C63_sent fill cf connect ops (max_streams c) (max_message c) HC HB HMM F HM HK) as (acts & E & OK & S).
  pose proof (opens_pos ops).
  destruct (C60_messages c T3Off false acts ks ltac:(lia) ACC OK eq_refl) as (s & rest & e & R1 & R2 & R3 & _).
  rewrite S, expect_known in R2. exists (wire false sender0 acts), s, rest, e. auto.
Qed.
Print Assumptions C63_received.

(* ---- an example: two streams, with video, audio, onfi messages, frames that
   are longer than a chunk, times that need an extended timestamp ---- *)

Definition ex_bytes (n : nat) (z : Z) : list Z := map (fun i => (z + Z.of_nat i) mod 256) (seq 0 n).
Definition ex_cf : ecfg := ECfg 128 5000 (fun t => ex_bytes 140 t).
Definition ex_ops : list eop :=
  [EOpen (ex_bytes 30 1) (ex_bytes 130 2) (ex_bytes 10 3) (ex_bytes 300 4);
   EInfo 0 1010 44100 16 2;
   EFrame 0 (Frame 0 5 0 0 [ex_bytes 3 9]) AAC;
   EMeta 0 (ex_bytes 250 5) (VAvc (ex_bytes 40 6)) (AAac (ex_bytes 2 7));
   EFrame 0 (Frame 6000 17000000 40 1 [ex_bytes 100 8; ex_bytes 0 0; ex_bytes 300 9]) H264;
   EOpen (ex_bytes 30 1) (ex_bytes 30 2) (ex_bytes 10 3) (ex_bytes 30 4);
   EMeta 1 (ex_bytes 20 5) (VHevc (ex_bytes 200 6)) AMp3;
   EFrame 0 (Frame 6010 17000020 0 0 [ex_bytes 126 11]) AAC;
   EFrame 1 (Frame 3000 (-5) (-7) 0 [ex_bytes 500 12]) H265;
   EFrame 0 (Frame 11500 17000010 0 0 [ex_bytes 1 11; ex_bytes 128 5]) H264;
   EClose 0 (ex_bytes 30 13) (ex_bytes 20 14);
   EFrame 0 (Frame 11500 17000010 0 0 [ex_bytes 1 11]) H264;
   EFrame 1 (Frame 3010 100 0 0 [ex_bytes 8 15]) MP3].

Lemma ex_bytes_ok n z : Forall is_byte (ex_bytes n z).
Proof. apply Forall_forall. intros b H. apply in_map_iff in H as (i & <- & _). apply Z.mod_pos_bound. lia. Qed.
Lemma ex_bytes_body n z room : 0 < room + Z.of_nat n <= 1048576 -> body_ok 1048576 room (ex_bytes n z).
Proof.
  intros H. split; [apply ex_bytes_ok|]. assert (E : zlen (ex_bytes n z) = Z.of_nat n) by (unfold zlen, ex_bytes; rewrite map_length, seq_length; reflexivity).
  rewrite E. lia.
Qed.
Lemma ex_frame room l : Forall is_byte (concat l) -> 0 < room + zlen (concat l) <= 1048576 -> body_ok 1048576 room (concat l).
Proof. intros F H. split; [exact F|]. lia. Qed.

Example C63_ex_hyp : ecfg_ok 1048576 ex_cf /\ body_ok 1048576 0 (ex_bytes 200 0) /\ Forall (eop_ok 1048576) ex_ops /\ opens ex_ops = 2.
Proof.
  split; [split; [cbn; lia|intros t; apply ex_bytes_body; lia]|]. split; [apply ex_bytes_body; lia|]. split; [|reflexivity].
  assert (FR : forall l, forallb (fun b => (0 <=? b) && (b <? 256)) (concat l) = true -> (0 <? 8 + zlen (concat l)) && (8 + zlen (concat l) <=? 1048576) = true ->
     body_ok 1048576 8 (concat l)).
  { intros l H1 H2. apply ex_frame; [|lia]. apply Forall_forall. intros b HB. rewrite forallb_forall in H1. specialize (H1 b HB). unfold is_byte. lia. }
  unfold ex_ops. repeat (constructor; [solve [cbn [eop_ok f_data];
    first [ lia
          | split; [discriminate|apply FR; vm_compute; reflexivity]
          | repeat split; try exact Logic.I; try (apply ex_bytes_ok); try (vm_compute; reflexivity); try (vm_compute; discriminate) ]]|]).
  constructor.
Qed.

(* what the server makes of it *)
Definition ex_run (t3 : t3_mode) (c : cfg) (net : option (list Z)) : option (list smsg) :=
  match net with
  | Some l => match run c (init c t3) l (repeat 100 (length l / 10)) with
              | Some (Go s, []) => Some (map view (s_out s))
              | _ => None
              end
  | None => None
  end.

Example C63_ex : ex_run T3Off cfg0 (encode 170 ex_cf (ex_bytes 200 0) ex_ops) = Some (expect ex_cf (ex_bytes 200 0) ex_ops) /\
  map (fun m => (x_ts m, x_type m, x_msid m, zlen (x_body m))) (expect ex_cf (ex_bytes 200 0) ex_ops) =
    [(0, 20, 0, 200); (0, 1, 0, 4); (0, 20, 0, 30); (0, 20, 0, 130); (0, 20, 0, 10); (0, 20, 1, 300); (0, 18, 1, 250); (0, 9, 1, 45); (0, 8, 1, 4);
     (17000000, 9, 1, 405); (17000000, 18, 1, 140); (0, 20, 0, 30); (0, 20, 0, 30); (0, 20, 0, 10); (0, 20, 2, 30); (0, 18, 2, 20); (0, 9, 2, 205);
     (17000020, 8, 1, 128); (4294967291, 9, 2, 508); (17000010, 9, 1, 134); (17000010, 18, 1, 140); (0, 20, 0, 30); (0, 20, 0, 20); (100, 8, 2, 9)].
Proof. split; vm_compute; reflexivity. Qed.

(* ---- C64: every server, and any number of streams ---- *)

(* a checkable form: the session is still open *)
Definition open_after (c : cfg) (t3 : t3_mode) (net : option (list Z)) (ks : list Z) : bool :=
  match net with Some l => match run c (init c t3) l ks with Some (Go _, _) => true | _ => false end | None => false end.

Lemma run_glue c t3 net ks want :
  open_after c t3 net ks = false ->
  ~ (exists l s rest e, net = Some l /\ run c (init c t3) l ks = Some (Go s, rest) /\ want = map view (s_out s) ++ e /\ (rest = [] -> e = [])).
Proof. intros HA (l & s & rest & e & -> & R & _). cbn in HA. rewrite R in HA. discriminate. Qed.

(* another one: everything was read, and so many messages were delivered *)
Definition count_after (c : cfg) (t3 : t3_mode) (net : option (list Z)) (ks : list Z) : option Z :=
  match net with Some l => match run c (init c t3) l ks with Some (Go s, []) => Some (Z.of_nat (length (s_out s))) | _ => None end | None => None end.

Lemma count_glue c t3 net ks want n :
  count_after c t3 net ks = Some n -> Z.of_nat (length want) =? n = false ->
  ~ (exists l s rest e, net = Some l /\ run c (init c t3) l ks = Some (Go s, rest) /\ want = map view (s_out s) ++ e /\ (rest = [] -> e = [])).
Proof.
  intros HA N (l & s & rest & e & -> & R & E & HE). cbn in HA. rewrite R in HA. destruct rest; [|discriminate]. injection HA as HA.
  rewrite (HE eq_refl), app_nil_r in E. rewrite E, map_length in N. lia.
Qed.

(* The RTMP specification has the extended timestamp repeated in headers of
   type 3.  The encoder does not repeat it, so a server that follows the
   specification takes four bytes of the frame for it, and soon closes. *)
Definition ex_late : list eop :=
  [EOpen (ex_bytes 1 1) (ex_bytes 1 1) (ex_bytes 1 1) (ex_bytes 1 1); EMeta 0 (ex_bytes 1 1) VNone ANone; EFrame 0 (Frame 0 16777215 0 1 [ex_bytes 300 0]) H264].

Theorem C64_spec_refuted : ~ (forall fill cf connect ops ks,
  ecfg_ok 1048576 cf -> body_ok 1048576 0 connect -> Forall (eop_ok 1048576) ops -> opens ops + 3 < 32 ->
  exists net s rest e, encode fill cf connect ops = Some net /\
    run cfg0 (init cfg0 T3On) net ks = Some (Go s, rest) /\
    expect cf connect ops = map view (s_out s) ++ e /\ (rest = [] -> e = [])).
Proof.
  intros H.
  assert (OK : Forall (eop_ok 1048576) ex_late).
  { assert (B1 : forall room, 0 <= room < 10 -> body_ok 1048576 room (ex_bytes 1 1)) by (intros room HR; apply ex_bytes_body; lia).
    constructor; [|constructor; [|constructor; [|constructor]]].
    - cbn [eop_ok]. split; [|split; [|split]]; apply B1; lia.
    - cbn [eop_ok]. split; [apply B1; lia|]. split; exact Logic.I.
    - split; [discriminate|]. cbn [f_data concat]. rewrite app_nil_r. apply ex_bytes_body. lia. }
  specialize (H 0 ex_cf (ex_bytes 10 0) ex_late (repeat 100 20) (proj1 C63_ex_hyp) (ex_bytes_body 10 0 0 ltac:(lia)) OK ltac:(vm_compute; reflexivity)).
  revert H. apply run_glue. vm_compute. reflexivity.
Qed.
Print Assumptions C64_spec_refuted.

(* The numbers of streams are not used again, and the encoder only writes basic
   headers of one byte.  The 61st stream of an upstream gets chunk stream 64,
   which has no such header. *)
Definition ex_many : list eop := repeat (EOpen (ex_bytes 1 1) (ex_bytes 1 1) (ex_bytes 1 1) (ex_bytes 1 1)) 61.

Theorem C64_streams_refuted : ~ (forall fill cf connect ops c ks,
  ecfg_ok (max_message c) cf -> body_ok (max_message c) 0 connect -> 4 <= max_message c -> Forall (eop_ok (max_message c)) ops ->
  opens ops + 3 < max_streams c -> (forall l, accept c l = true) ->
  exists net s rest e, encode fill cf connect ops = Some net /\
    run c (init c T3Off) net ks = Some (Go s, rest) /\
    expect cf connect ops = map view (s_out s) ++ e /\ (rest = [] -> e = [])).
Proof.
  intros H. set (c := Cfg 100 1048576 (fun _ => true)).
  assert (OK : Forall (eop_ok 1048576) ex_many).
  { apply Forall_forall. intros x HX. apply repeat_spec in HX. subst x.
    cbn [eop_ok]. split; [|split; [|split]]; apply ex_bytes_body; lia. }
  specialize (H 0 ex_cf (ex_bytes 10 0) ex_many c (repeat 100 50) (proj1 C63_ex_hyp) (ex_bytes_body 10 0 0 ltac:(lia)) ltac:(discriminate) OK ltac:(vm_compute; reflexivity) (fun _ => eq_refl)).
  revert H. apply (count_glue c T3Off _ _ _ 245); vm_compute; reflexivity.
Qed.
Print Assumptions C64_streams_refuted.
