(* Every event of an upstream sends the messages that are expected. *)

From Coq Require Import List ZArith Lia Bool Arith.
From Coq Require Import ZifyBool ZifyNat.
From Verif Require Import Lists Bytes RtmpModel RtmpSpec RtmpProofs RtmpProofs4 EncModel EncSpec EncProofs EncProofs2 EncProofs3.
Import ListNotations.
Open Scope Z_scope.

Lemma nth_set_some A (l : list A) i j (x y : A) : (i < length l)%nat -> nth_error (set_nth l i x) j = Some y ->
  (j = i /\ y = x) \/ (j <> i /\ nth_error l j = Some y).
Proof.
  intros HL H. destruct (Nat.eq_dec j i) as [-> | N].
  - rewrite nth_error_set_nth_eq in H by exact HL. left. split; congruence.
  - rewrite nth_error_set_nth_neq in H by congruence. right. auto.
Qed.

Lemma unbe_be4 x : 0 <= x < 4294967296 -> unbe (be 4 x) = x.
Proof. intros H. rewrite be4_eq. unfold unbe. cbn [rev app unle]. lia. Qed.

Section Up.
Variables (ms mm : Z) (cf : ecfg) (fill : Z).
Hypothesis CF : ecfg_ok mm cf.

Definition strm (n : sender) (k : nat) (sc : sctx) (y : xst) : Prop :=
  let p := p_msg (n_st n (Z.of_nat k + 4)) in
  k_msid sc = Z.of_nat k + 1 /\ k_csid sc = Z.of_nat k + 4 /\
  k_sound sc = y_sound y /\ is_byte (y_sound y) /\ k_meta sc = y_meta y /\ k_open sc = y_open y /\ k_onfi sc = y_onfi y /\
  (k_meta sc = false -> k_wrote sc = false) /\
  x_msid p = Z.of_nat k + 1 /\ (k_wrote sc = true -> x_ts p = k_last sc).

Definition erel (e : est) (x : list xst) (n : sender) : Prop :=
  n_chunk n = ec_chunk cf /\ (forall cs, p_left (n_st n cs) = []) /\
  x_msid (p_msg (n_st n 3)) = 0 /\ x_ts (p_msg (n_st n 3)) = 0 /\
  length (e_streams e) = length x /\ e_last e = len x /\
  forall k sc y, nth_error (e_streams e) k = Some sc -> nth_error x k = Some y -> strm n k sc y.

(* a command *)
Lemma after_cmd e x n m d f b n' : erel e x n -> after n m d f b n' -> x_type m <> 1 -> x_csid m = 3 -> x_msid m = 0 -> x_ts m = 0 -> erel e x n'.
Proof.
  intros (R1 & R2 & R3 & R4 & R5 & R6 & R7) (A1 & A2) T C M S.
  replace (x_type m =? 1) with false in A1 by lia.
  split; [congruence|]. split; [intros cs; rewrite A2; destruct (cs =? x_csid m); [reflexivity|apply R2]|].
  rewrite (A2 3), C. cbn [Z.eqb Pos.eqb p_msg]. split; [exact M|]. split; [exact S|]. split; [exact R5|]. split; [exact R6|].
  intros k sc y H1 H2. specialize (R7 k sc y H1 H2). unfold strm in *. rewrite A2, C. replace (_ =? 3) with false by lia. exact R7.
Qed.

(* a message of stream k, that may change the stream *)
Lemma after_strm e x n m d f b n' k sc' y' : erel e x n -> after n m d f b n' -> x_type m <> 1 -> x_csid m = Z.of_nat k + 4 ->
  (k < length x)%nat -> strm n' k sc' y' -> erel (Est (e_last e) (set_nth (e_streams e) k sc')) (set_nth x k y') n'.
Proof.
  intros (R1 & R2 & R3 & R4 & R5 & R6 & R7) (A1 & A2) T C K ST.
  replace (x_type m =? 1) with false in A1 by lia.
  split; [congruence|]. split; [intros cs; rewrite A2; destruct (cs =? x_csid m); [reflexivity|apply R2]|].
  rewrite (A2 3), C. replace (3 =? Z.of_nat k + 4) with false by lia. split; [exact R3|]. split; [exact R4|].
  cbn [e_streams e_last]. rewrite !set_nth_length. split; [exact R5|]. split; [unfold len in *; rewrite set_nth_length; exact R6|].
  intros j sc y H1 H2. apply nth_set_some in H1; [|lia]. apply nth_set_some in H2; [|lia].
  destruct H1 as [(EJ & ->)|(N & H1)], H2 as [(E & ->)|(N2 & H2)]; [rewrite EJ; exact ST|exfalso; lia|exfalso; lia|].
  specialize (R7 j sc y H1 H2). unfold strm in *. rewrite A2, C. replace (_ =? Z.of_nat k + 4) with false by lia. exact R7.
Qed.

Lemma upd_strm e x n k sc' y' : erel e x n -> (k < length x)%nat -> strm n k sc' y' ->
  erel (Est (e_last e) (set_nth (e_streams e) k sc')) (set_nth x k y') n.
Proof.
  intros (R1 & R2 & R3 & R4 & R5 & R6 & R7) K ST.
  do 4 (split; [assumption|]).
  cbn [e_streams e_last]. rewrite !set_nth_length. split; [exact R5|]. split; [unfold len in *; rewrite set_nth_length; exact R6|].
  intros j sc y H1 H2. apply nth_set_some in H1; [|lia]. apply nth_set_some in H2; [|lia].
  destruct H1 as [(EJ & ->)|(N & H1)], H2 as [(E & ->)|(N2 & H2)]; [rewrite EJ; exact ST|exfalso; lia|exfalso; lia|]. exact (R7 j sc y H1 H2).
Qed.

Lemma body_msg csid ts type msid body : 2 <= csid < ms -> 0 <= ts < 2 ^ 32 -> 2 <= type < 256 -> 0 <= msid < 2 ^ 32 ->
  body_ok mm 0 body -> msg_ok 4 ms mm (SMsg csid ts type msid body) /\ 0 < len body < 2 ^ 24.
Proof.
  intros H1 H2 H3 H4 (H5 & H6 & H7). split; [|rewrite <- zlen_len; lia]. unfold msg_ok. cbn [x_csid x_ts x_type x_msid x_body].
  split; [lia|]. split; [lia|]. split; [lia|]. split; [lia|]. split; [lia|]. split; [lia|]. split; [exact H5|]. lia.
Qed.

Lemma chunk_pos : 128 <= ec_chunk cf.
Proof. destruct CF as (H & _). lia. Qed.

Lemma emit_cmd e x n body : erel e x n -> 3 < ms -> body_ok mm 0 body ->
  exists n', emits ms mm n (msg_bytes 1 3 0 20 0 (ec_chunk cf) body) [command body] n' /\ erel e x n'.
Proof.
  intros R HM HB. pose proof R as (R1 & R2 & R3 & R4 & _). pose proof chunk_pos.
  destruct (body_msg 3 0 20 0 body) as (MO & LB); [lia|lia|lia|lia|exact HB|].
  destruct (emit_small ms mm n (command body) 1 MO) as (n' & d & E & A); cbn [command x_csid x_ts x_type x_msid x_body];
    [lia|lia|rewrite R1; lia|lia|apply R2|intros _; rewrite R3, R4; auto|lia|].
  exists n'. rewrite R1 in E. split; [exact E|]. eapply after_cmd; [exact R|exact A|discriminate|reflexivity..].
Qed.

(* a message at time zero on a stream of which no frame was sent *)
Lemma emit_strm e x n k sc y type body : erel e x n -> nth_error (e_streams e) k = Some sc -> nth_error x k = Some y ->
  k_wrote sc = false -> Z.of_nat k + 4 < ms -> Z.of_nat k + 4 <= 63 -> body_ok mm 0 body -> 2 <= type < 256 ->
  exists n', emits ms mm n (msg_bytes 0 (k_csid sc) 0 type (k_msid sc) (ec_chunk cf) body) [on_stream (Z.of_nat k + 1) 0 type body] n' /\ erel e x n'.
Proof.
  intros R N1 N2 W HM HK HB HT. pose proof R as (R1 & R2 & R3 & R4 & R5 & R6 & R7). pose proof chunk_pos.
  pose proof (R7 k sc y N1 N2) as (S1 & S2 & S3 & S4 & S5 & S6 & S7 & S8 & S9 & S10).
  destruct (body_msg (Z.of_nat k + 1 + 3) 0 type (Z.of_nat k + 1) body) as (MO & LB); [lia|lia|lia|lia|exact HB|].
  destruct (emit_small ms mm n (on_stream (Z.of_nat k + 1) 0 type body) 0 MO) as (n' & d & E & A); cbn [on_stream x_csid x_ts x_type x_msid x_body];
    [lia|lia|rewrite R1; lia|lia|apply R2|lia|lia|].
  cbn [on_stream x_csid x_ts x_type x_msid x_body] in E.
  exists n'. rewrite R1 in E. rewrite S1, S2. replace (Z.of_nat k + 1 + 3) with (Z.of_nat k + 4) in E by lia. split; [exact E|].
  assert (HKL : (k < length x)%nat) by (apply nth_error_Some; congruence).
  assert (EX : erel (Est (e_last e) (set_nth (e_streams e) k sc)) (set_nth x k y) n').
  { eapply after_strm; [exact R|exact A|cbn; lia|cbn; lia|exact HKL|].
    unfold strm. destruct A as (_ & A2). rewrite A2. cbn [on_stream x_csid].
    replace (Z.of_nat k + 4 =? Z.of_nat k + 1 + 3) with true by lia. cbn [p_msg x_msid x_ts].
    do 8 (split; [assumption|]). split; [reflexivity|]. congruence. }
  rewrite set_nth_same in EX by exact N1. rewrite set_nth_same in EX by exact N2. destruct e. exact EX.
Qed.

Lemma body_app hd extra : len hd = 5 \/ len hd = 2 -> Forall is_byte hd -> body_ok mm (len hd) extra -> body_ok mm 0 (hd ++ extra).
Proof.
  intros HL HF (H1 & H2 & H3). split; [apply Forall_app; auto|].
  unfold zlen, len in *. rewrite app_length. lia.
Qed.

Lemma open_step e x n rel fcp cre pub : erel e x n -> len x + 4 < ms -> len x + 4 <= 63 -> eop_ok mm (EOpen rel fcp cre pub) ->
  exists e' o n', enc_op fill cf e (EOpen rel fcp cre pub) = Some (e', o) /\
    emits ms mm n o (snd (expect_op cf x (EOpen rel fcp cre pub))) n' /\ erel e' (fst (expect_op cf x (EOpen rel fcp cre pub))) n'.
Proof.
  intros R HM HK (B1 & B2 & B3 & B4). pose proof chunk_pos. pose proof (len_nonneg _ x).
  destruct (emit_cmd e x n rel R ltac:(lia) B1) as (n1 & E1 & R1).
  destruct (emit_cmd e x n1 fcp R1 ltac:(lia) B2) as (n2 & E2 & R2).
  destruct (emit_cmd e x n2 cre R2 ltac:(lia) B3) as (n3 & E3 & R3).
  pose proof R3 as (Q1 & Q2 & Q3 & Q4 & Q5 & Q6 & Q7).
  destruct (body_msg (len x + 1 + 3) 0 20 (len x + 1) pub) as (MO & LB); [lia|lia|lia|lia|exact B4|].
  destruct (emit_small ms mm n3 (on_stream (len x + 1) 0 20 pub) 0 MO) as (n4 & d & E4 & A); cbn [on_stream x_csid x_ts x_type x_msid x_body];
    [lia|lia|lia|lia|apply Q2|lia|lia|].
  cbn [on_stream x_csid x_ts x_type x_msid x_body] in E4. rewrite Q1 in E4.
  cbn [enc_op expect_op fst snd].
  assert (EM : u32 (e_last e + 1) = len x + 1) by (rewrite Q6; unfold u32; apply Z.mod_small; change (2 ^ 32) with 4294967296; lia).
  assert (EC : u8 (3 + (len x + 1)) = len x + 1 + 3) by (unfold u8; rewrite Z.mod_small by lia; lia).
  rewrite EM, EC.
  pose proof (fun b (B : body_ok mm 0 b) => proj2 (body_msg 3 0 20 0 b ltac:(lia) ltac:(lia) ltac:(lia) ltac:(lia) B)) as LBS.
  rewrite publish_ok; [|lia|pose proof (LBS rel B1); lia|pose proof (LBS fcp B2); lia|pose proof (LBS cre B3); lia|lia].
  cbn [obind k_csid k_msid].
  do 3 eexists. split; [reflexivity|]. split.
  - change (Z.of_nat (length x)) with (len x).
    change [command rel; command fcp; command cre; on_stream (len x + 1) 0 20 pub]
      with ((([command rel] ++ [command fcp]) ++ [command cre]) ++ [on_stream (len x + 1) 0 20 pub]).
    eapply emits_app; [eapply emits_app; [eapply emits_app|]|]; eassumption.
  - destruct A as (A1 & A2). cbn [on_stream x_csid x_type] in A1, A2.
    split; [rewrite A1; exact Q1|]. split; [intros cs; rewrite A2; destruct (cs =? _); [reflexivity|apply Q2]|].
    rewrite (A2 3). replace (3 =? len x + 1 + 3) with false by lia. split; [exact Q3|]. split; [exact Q4|].
    cbn [e_streams e_last]. rewrite !app_length, Q5. split; [reflexivity|]. split; [rewrite len_app; reflexivity|].
    intros j sc y H1 H2.
    assert (j < length x \/ j = length x)%nat as [HJ | ->].
    { assert (j < length (x ++ [XSt true false 0 0]))%nat as HL by (apply nth_error_Some; congruence). rewrite app_length in HL. cbn in HL. lia. }
    + rewrite nth_error_app1 in H1 by lia. rewrite nth_error_app1 in H2 by lia. specialize (Q7 j sc y H1 H2).
      unfold strm in *. rewrite A2. replace (_ =? _) with false by (unfold len; lia). exact Q7.
    + rewrite nth_error_app2 in H1 by lia. rewrite nth_error_app2 in H2 by lia. rewrite Q5, Nat.sub_diag in H1. rewrite Nat.sub_diag in H2.
      cbn in H1, H2. injection H1 as <-. injection H2 as <-. unfold strm. cbn [k_msid k_csid k_sound y_sound k_meta y_meta k_open y_open k_onfi y_onfi k_wrote k_last].
      rewrite A2. replace (_ =? _) with true by (unfold len; lia). cbn [p_msg on_stream x_msid x_ts].
      unfold len. split; [reflexivity|]. split; [lia|]. split; [reflexivity|]. split; [split; lia|]. do 4 (split; [reflexivity || auto|]). split; [reflexivity|]. discriminate.
Qed.

Lemma sound_flv codec rate bits channels : codec = 1002 \/ codec = 1010 ->
  sound_info codec rate bits channels = flv_sound codec rate bits channels /\ is_byte (flv_sound codec rate bits channels).
Proof.
  intros H. unfold sound_info, flv_sound, is_byte.
  destruct H as [-> | ->]; destruct (rate <=? 8000), (rate <=? 16000), (rate <=? 32000), (bits =? 8), (channels =? 1); (split; [reflexivity|lia]).
Qed.

Lemma meta_step e x n k sc y meta v a : erel e x n -> nth_error (e_streams e) k = Some sc -> nth_error x k = Some y ->
  k_meta sc = false -> k_open sc = true -> Z.of_nat k + 4 < ms -> Z.of_nat k + 4 <= 63 -> eop_ok mm (EMeta k meta v a) ->
  let s := Z.of_nat k + 1 in
  exists o n', write_meta fill (ec_chunk cf) sc meta v a = Some o /\
    emits ms mm n o ([on_stream s 0 18 meta] ++
              match v with
              | VNone => []
              | VAvc e => [on_stream s 0 9 (flv_avc 1 0 0 ++ e)]
              | VHevc e => [on_stream s 0 9 (flv_hvc 1 0 ++ e)]
              end ++
              match a with
              | AAac e => [on_stream s 0 8 ([y_sound y; 0] ++ e)]
              | _ => []
              end) n' /\
    erel (Est (e_last e) (set_nth (e_streams e) k (set_meta sc))) (set_nth x k (XSt true true (y_sound y) (y_onfi y))) n'.
Proof.
  intros R N1 N2 KM KO HM HK (B1 & BV & BA). pose proof chunk_pos. cbv zeta.
  pose proof R as (_ & _ & _ & _ & _ & _ & R7). pose proof (R7 k sc y N1 N2) as (S1 & S2 & S3 & S4 & S5 & S6 & S7 & S8 & S9 & S10).
  pose proof (S8 KM) as KW.
  pose proof (fun b (B : body_ok mm 0 b) => proj2 (body_msg 3 0 20 0 b ltac:(lia) ltac:(lia) ltac:(lia) ltac:(lia) B)) as LBS.
  destruct (emit_strm e x n k sc y 18 meta R N1 N2 KW HM HK B1 ltac:(lia)) as (n1 & E1 & R1).
  assert (EV : exists n2, emits ms mm n1 (vbytes (ec_chunk cf) sc v) (match v with VNone => [] | VAvc e => [on_stream (Z.of_nat k + 1) 0 9 (flv_avc 1 0 0 ++ e)]
     | VHevc e => [on_stream (Z.of_nat k + 1) 0 9 (flv_hvc 1 0 ++ e)] end) n2 /\ erel e x n2).
  { destruct v as [|ex|ex]; cbn [vbytes].
    - exists n1. split; [apply emits_nil|exact R1].
    - apply (emit_strm e x n1 k sc y 9); auto; [|lia]. apply body_app; [left; reflexivity|repeat (constructor; [split; lia|]); constructor|exact BV].
    - apply (emit_strm e x n1 k sc y 9); auto; [|lia]. apply body_app; [left; reflexivity|repeat (constructor; [split; lia|]); constructor|exact BV]. }
  destruct EV as (n2 & E2 & R2).
  assert (EA : exists n3, emits ms mm n2 (abytes (ec_chunk cf) sc a) (match a with AAac e => [on_stream (Z.of_nat k + 1) 0 8 ([y_sound y; 0] ++ e)]
     | _ => [] end) n3 /\ erel e x n3).
  { destruct a as [| |ex]; cbn [abytes].
    - exists n2. split; [apply emits_nil|exact R2].
    - exists n2. split; [apply emits_nil|exact R2].
    - rewrite S3. apply (emit_strm e x n2 k sc y 8); auto; [|lia].
      apply body_app; [right; reflexivity|constructor; [exact S4|constructor; [split; lia|constructor]]|exact BA]. }
  destruct EA as (n3 & E3 & R3).
  do 2 eexists. split; [apply meta_ok|split].
  - lia.
  - pose proof (LBS meta B1). lia.
  - destruct v as [|ex|ex]; [exact Logic.I| |]; destruct BV as (_ & BV & _); rewrite zlen_len in BV; lia.
  - destruct a as [| |ex]; [exact Logic.I|exact Logic.I|]; destruct BA as (_ & BA & _); rewrite zlen_len in BA; lia.
  - rewrite app_assoc. eapply emits_app; [eapply emits_app|]; eassumption.
  - apply upd_strm; [exact R3|apply nth_error_Some; congruence|].
    pose proof R3 as (_ & _ & _ & _ & _ & _ & R37). specialize (R37 k sc y N1 N2). unfold strm in *.
    cbn [set_meta k_msid k_csid k_sound k_meta k_open k_onfi k_wrote k_last y_sound y_meta y_open y_onfi].
    destruct R37 as (T1 & T2 & T3 & T4 & T5 & T6 & T7 & T8 & T9 & T10).
    do 4 (split; [assumption|]). split; [reflexivity|]. split; [assumption|]. split; [assumption|]. split; [discriminate|]. split; assumption.
Qed.

Lemma frame_step e x n k sc y f c : erel e x n -> nth_error (e_streams e) k = Some sc -> nth_error x k = Some y ->
  k_meta sc = true -> k_open sc = true -> Z.of_nat k + 4 < ms -> Z.of_nat k + 4 <= 63 -> eop_ok mm (EFrame k f c) ->
  let sc1 := Sctx (k_msid sc) (k_csid sc) (u32 (f_dts f)) (k_sound sc) true (k_meta sc) (k_open sc) (k_onfi sc) in
  exists o n', frame_write fill (ec_chunk cf) sc f c = Some (sc1, o) /\
    emits ms mm n o [on_stream (Z.of_nat k + 1) (u32 (f_dts f)) (match c with H264 | H265 => 9 | MP3 | AAC => 8 end) (flv_packet c (y_sound y) f)] n' /\
    erel (Est (e_last e) (set_nth (e_streams e) k sc1)) x n' /\
    x_ts (p_msg (n_st n' (Z.of_nat k + 4))) = u32 (f_dts f).
Proof.
  intros R N1 N2 KM KO HM HK (BN & BF). pose proof chunk_pos. cbv zeta.
  pose proof R as (Q1 & Q2 & _ & _ & _ & _ & R7). pose proof (R7 k sc y N1 N2) as (S1 & S2 & S3 & S4 & S5 & S6 & S7 & S8 & S9 & S10).
  destruct BF as (BF1 & BF2 & BF3). rewrite zlen_len in BF2, BF3.
  assert (HU : forall z, 0 <= u32 z < 2 ^ 32) by (intros z; apply Z.mod_pos_bound; lia).
  set (T := match c with H264 | H265 => 9 | MP3 | AAC => 8 end).
  assert (ET : packet_type c = T) by (destruct c; reflexivity).
  set (B := flv_packet c (y_sound y) f).
  assert (LB : len B = packet_header_size c + len (concat (f_data f))).
  { unfold B. rewrite <- packet_flv, len_app, packet_size. reflexivity. }
  assert (HP : 1 <= packet_header_size c <= 8) by (destruct c; cbn; lia).
  assert (FB : Forall is_byte B).
  { unfold B, flv_packet. apply Forall_app. split; [|exact BF1].
    assert (FK : 1 <= flv_key (f_flags f) <= 2) by (unfold flv_key; destruct (Z.odd (f_flags f)); lia).
    assert (B3 : forall z, Forall is_byte (be 3 z)) by (intros z; unfold be; apply Forall_rev, le_bytes).
    destruct c.
    - unfold flv_avc. apply Forall_app. split; [|apply B3]. repeat (constructor; [split; lia|]); constructor.
    - apply Forall_app. split; [|apply B3]. unfold flv_hvc. repeat (constructor; [split; lia|]); constructor.
    - constructor; [exact S4|constructor].
    - constructor; [exact S4|]. constructor; [split; lia|constructor]. }
  set (m := on_stream (Z.of_nat k + 1) (u32 (f_dts f)) T B).
  assert (MO : msg_ok 4 ms mm m).
  { unfold msg_ok, m, on_stream. cbn [x_csid x_ts x_type x_msid x_body]. split; [lia|]. split; [apply HU|]. split; [destruct c; cbn; lia|].
    split; [lia|]. rewrite zlen_len. split; [lia|]. split; [lia|]. split; [exact FB|]. intros HT. exfalso. unfold T in HT. destruct c; discriminate. }
  set (fmt := if k_wrote sc then 1 else 0). assert (HF : 0 <= fmt <= 1) by (unfold fmt; destruct (k_wrote sc); lia).
  assert (EC : x_csid m = Z.of_nat k + 4) by (cbn; lia).
  assert (EF : f_time sc f = w_field (n_st n (x_csid m)) fmt m).
  { rewrite EC. unfold f_time, w_field, fmt. destruct (k_wrote sc) eqn:KW; cbn [Z.eqb]; [|reflexivity].
    unfold m. cbn [on_stream x_ts]. rewrite S10 by reflexivity. reflexivity. }
  destruct (msg_sent ms mm n m fmt (f_time sc f) (more (len (x_body m)) (n_chunk n)) MO) as (n' & E & d & A).
  - lia.
  - exact HF.
  - lia.
  - change (x_body m) with B. pose proof (len_nonneg _ (concat (f_data f))). lia.
  - apply Q2.
  - intros _. rewrite EC, S9. reflexivity.
  - exact EF.
  - reflexivity.
  - exists (write_header (EHdr fmt (k_csid sc) (Z.min (f_time sc f) no_ts) (len B) (packet_type c) (k_msid sc)) ++
      (if f_time sc f >=? no_ts then be 4 (f_time sc f) else []) ++ weave (more (len B) (ec_chunk cf)) (ec_chunk cf) (u8 (Z.lor 192 (k_csid sc))) B), n'.
    split; [rewrite frame_write_ok by (auto; unfold f_size; lia); unfold B; rewrite S3; reflexivity|].
    split.
    + rewrite S1, S2, ET, hd_byte by lia.
      rewrite Q1, EC in E. change (x_body m) with B in E.
      pose proof (header_eq fmt (f_time sc f) m HF ltac:(lia)) as HE. rewrite EC in HE. change (x_body m) with B in HE. change (x_type m) with T in HE. change (x_msid m) with (Z.of_nat k + 1) in HE.
      rewrite HE. exact E.
    + split.
      * rewrite <- (set_nth_same x k y N2).
        eapply after_strm; [exact R|exact A|cbn; destruct c; discriminate|exact EC|apply nth_error_Some; congruence|].
        destruct A as (_ & A2). unfold strm. rewrite A2, EC, Z.eqb_refl. unfold m. cbn [p_msg on_stream x_msid x_ts k_msid k_csid k_sound k_meta k_open k_onfi k_wrote k_last].
        do 7 (split; [assumption|]). split; [congruence|]. split; reflexivity.
      * destruct A as (_ & A2). rewrite A2, EC, Z.eqb_refl. reflexivity.
Qed.

Lemma onfi_step e x n k sc y t body : erel e x n -> nth_error (e_streams e) k = Some sc -> nth_error x k = Some y ->
  Z.of_nat k + 4 < ms -> Z.of_nat k + 4 <= 63 -> body_ok mm 0 body -> x_ts (p_msg (n_st n (Z.of_nat k + 4))) = t -> 0 <= t < 2 ^ 32 -> k_last sc = t ->
  exists n', onfi_write fill (ec_chunk cf) sc body = Some (msg_bytes 1 (k_csid sc) 0 18 (k_msid sc) (ec_chunk cf) body) /\
    emits ms mm n (msg_bytes 1 (k_csid sc) 0 18 (k_msid sc) (ec_chunk cf) body) [on_stream (Z.of_nat k + 1) t 18 body] n' /\ erel e x n'.
Proof.
  intros R N1 N2 HM HK HB HT HT2 KL. pose proof R as (R1 & R2 & R3 & R4 & R5 & R6 & R7). pose proof chunk_pos.
  pose proof (R7 k sc y N1 N2) as (S1 & S2 & S3 & S4 & S5 & S6 & S7 & S8 & S9 & S10).
  destruct (body_msg (Z.of_nat k + 1 + 3) t 18 (Z.of_nat k + 1) body) as (MO & LB); [lia|lia|lia|lia|exact HB|].
  assert (EC : Z.of_nat k + 1 + 3 = Z.of_nat k + 4) by lia.
  destruct (emit_small ms mm n (on_stream (Z.of_nat k + 1) t 18 body) 1 MO) as (n' & d & E & A); cbn [on_stream x_csid x_ts x_type x_msid x_body];
    [lia|lia|rewrite R1; lia|lia|apply R2|intros _; rewrite EC, S9, HT; auto|lia|].
  cbn [on_stream x_csid x_ts x_type x_msid x_body] in E.
  exists n'. split; [apply onfi_ok; lia|].
  rewrite R1, EC in E. rewrite S1, S2. split; [exact E|].
  assert (HKL : (k < length x)%nat) by (apply nth_error_Some; congruence).
  assert (EX : erel (Est (e_last e) (set_nth (e_streams e) k sc)) (set_nth x k y) n').
  { eapply after_strm; [exact R|exact A|cbn; lia|cbn; lia|exact HKL|].
    unfold strm. destruct A as (_ & A2). rewrite A2. cbn [on_stream x_csid].
    replace (Z.of_nat k + 4 =? Z.of_nat k + 1 + 3) with true by lia. cbn [p_msg x_msid x_ts].
    do 8 (split; [assumption|]). split; [reflexivity|]. auto. }
  rewrite set_nth_same in EX by exact N1. rewrite set_nth_same in EX by exact N2. destruct e. exact EX.
Qed.

Definition is_open (op : eop) : Z := match op with EOpen _ _ _ _ => 1 | _ => 0 end.

Lemma op_step e x n op : erel e x n -> len x + is_open op + 3 < ms -> len x + is_open op <= 60 -> eop_ok mm op ->
  exists e' o n', enc_op fill cf e op = Some (e', o) /\
    emits ms mm n o (snd (expect_op cf x op)) n' /\ erel e' (fst (expect_op cf x op)) n' /\ len (fst (expect_op cf x op)) = len x + is_open op.
Proof.
  intros R HM HK OK. pose proof chunk_pos.
  pose proof (fun b (B : body_ok mm 0 b) => proj2 (body_msg 3 0 20 0 b ltac:(pose proof (len_nonneg _ x); destruct op; cbn in *; lia) ltac:(lia) ltac:(lia) ltac:(lia) B)) as LBS.
  assert (OPEN : forall rel fcp cre pub, op = EOpen rel fcp cre pub -> exists e' o n', enc_op fill cf e op = Some (e', o) /\
    emits ms mm n o (snd (expect_op cf x op)) n' /\ erel e' (fst (expect_op cf x op)) n' /\ len (fst (expect_op cf x op)) = len x + is_open op).
  { intros rel fcp cre pub ->. cbn [is_open] in *. destruct (open_step e x n rel fcp cre pub R) as (e' & o & n' & E1 & E2 & E3); [lia|lia|exact OK|].
    exists e', o, n'. split; [exact E1|]. split; [exact E2|]. split; [exact E3|]. cbn [expect_op fst]. rewrite len_app. reflexivity. }
  pose proof R as (_ & _ & _ & _ & RL & _ & R7).
  assert (IDLE : exists e' o n', Some (e, ([] : list Z)) = Some (e', o) /\ emits ms mm n o [] n' /\ erel e' x n' /\ len x = len x + 0).
  { exists e, [], n. split; [reflexivity|]. split; [apply emits_nil|]. split; [exact R|lia]. }
  assert (GET : forall k, nth_error (e_streams e) k = None /\ nth_error x k = None \/
    exists sc y, nth_error (e_streams e) k = Some sc /\ nth_error x k = Some y /\ strm n k sc y /\ Z.of_nat k + 1 <= len x).
  { intros k. destruct (nth_error (e_streams e) k) as [sc|] eqn:E1.
    - right. destruct (nth_error x k) as [y|] eqn:E2.
      + exists sc, y. split; [reflexivity|]. split; [reflexivity|]. split; [apply R7; assumption|].
        assert (k < length x)%nat by (apply nth_error_Some; congruence). unfold len. lia.
      + exfalso. apply nth_error_None in E2. assert (k < length (e_streams e))%nat by (apply nth_error_Some; congruence). lia.
    - left. split; [reflexivity|]. apply nth_error_None. apply nth_error_None in E1. lia. }
  assert (LSET : forall k y1, len (set_nth x k y1) = len x + 0) by (intros k y1; unfold len; rewrite set_nth_length; lia).
  assert (SAME : forall k sc y, nth_error (e_streams e) k = Some sc -> nth_error x k = Some y ->
    Est (e_last e) (set_nth (e_streams e) k sc) = e /\ set_nth x k y = x).
  { intros k sc y H1 H2. rewrite (set_nth_same _ _ _ H1), (set_nth_same _ _ _ H2). destruct e. auto. }
  destruct op as [rel fcp cre pub|k codec rate bits channels|k meta v a|k f c|k fc del]; [eauto| | | |]; clear OPEN; cbn [is_open] in *.
  - (* media info *)
    cbn [enc_op expect_op]. destruct (GET k) as [(-> & ->)|(sc & y & N1 & N2 & ST & LK)]; [exact IDLE|]. rewrite N1, N2.
    pose proof ST as (S1 & S2 & S3 & S4 & S5 & S6 & S7 & S8 & S9 & S10). rewrite <- S6. destruct (k_open sc) eqn:KO; [|exact IDLE].
    cbn [obind fst snd]. destruct (sound_flv codec rate bits channels OK) as (SF & SB).
    do 3 eexists. split; [reflexivity|]. split; [apply emits_nil|]. split; [|apply LSET].
    apply upd_strm; [exact R|apply nth_error_Some; congruence|]. unfold strm.
    cbn [set_sound k_msid k_csid k_sound k_meta k_open k_onfi k_wrote k_last y_sound y_meta y_open y_onfi].
    do 2 (split; [assumption|]). do 2 (split; [assumption|]). do 4 (split; [assumption|]). split; assumption.
  - (* metadata *)
    cbn [enc_op expect_op]. destruct (GET k) as [(-> & ->)|(sc & y & N1 & N2 & ST & LK)]; [exact IDLE|]. rewrite N1, N2.
    pose proof ST as (S1 & S2 & S3 & S4 & S5 & S6 & S7 & S8 & S9 & S10). rewrite <- S6, <- S5. destruct (k_open sc) eqn:KO; [|exact IDLE].
    destruct (k_meta sc) eqn:KM.
    + cbn [obind fst snd]. destruct (SAME k sc y N1 N2) as (-> & ->). exact IDLE.
    + destruct (meta_step e x n k sc y meta v a R N1 N2 KM KO ltac:(lia) ltac:(lia) OK) as (o & n' & E1 & E2 & E3).
      rewrite E1. cbn [obind fst snd]. exists (Est (e_last e) (set_nth (e_streams e) k (set_meta sc))), o, n'.
      split; [reflexivity|]. split; [exact E2|]. split; [exact E3|apply LSET].
  - (* a frame *)
    cbn [enc_op expect_op]. destruct (GET k) as [(-> & ->)|(sc & y & N1 & N2 & ST & LK)]; [exact IDLE|]. rewrite N1, N2.
    pose proof ST as (S1 & S2 & S3 & S4 & S5 & S6 & S7 & S8 & S9 & S10). rewrite <- S6, <- S5, <- S7. destruct (k_open sc) eqn:KO; [|exact IDLE].
    destruct (k_meta sc) eqn:KM.
    2:{ cbn [obind fst snd]. destruct (SAME k sc y N1 N2) as (-> & ->). exact IDLE. }
    destruct (frame_step e x n k sc y f c R N1 N2 KM KO ltac:(lia) ltac:(lia) OK) as (o & n1 & E1 & E2 & E3 & E4).
    unfold stream_write_frame. rewrite E1. cbn [obind]. cbn [k_onfi].
    set (sc1 := Sctx (k_msid sc) (k_csid sc) (u32 (f_dts f)) (k_sound sc) true (k_meta sc) (k_open sc) (k_onfi sc)) in *.
    assert (HKL : (k < length (e_streams e))%nat) by (apply nth_error_Some; congruence).
    assert (N1' : nth_error (e_streams (Est (e_last e) (set_nth (e_streams e) k sc1))) k = Some sc1) by (apply nth_error_set_nth_eq; exact HKL).
    destruct (ec_period cf <=? 0) eqn:EP.
    { replace (0 <? ec_period cf) with false by lia. cbn [andb fst snd obind].
      exists (Est (e_last e) (set_nth (e_streams e) k sc1)), o, n1. split; [reflexivity|]. split; [exact E2|].
      rewrite (set_nth_same x k y N2). split; [exact E3|lia]. }
    replace (0 <? ec_period cf) with true by lia. cbn [andb].
    replace (k_onfi sc + ec_period cf <=? f_created f) with (f_created f >=? k_onfi sc + ec_period cf) by lia.
    destruct ((f_created f <? k_onfi sc) || (f_created f >=? k_onfi sc + ec_period cf)) eqn:EO.
    + assert (HU : 0 <= u32 (f_dts f) < 2 ^ 32) by (apply Z.mod_pos_bound; lia).
      destruct (onfi_step _ x n1 k sc1 y (u32 (f_dts f)) (ec_onfi cf (f_created f)) E3 N1' N2 ltac:(lia) ltac:(lia) (proj2 CF _) E4 HU eq_refl)
        as (n2 & F1 & F2 & F3).
      rewrite F1. cbn [obind fst snd].
      eexists _, _, n2. split; [reflexivity|]. split.
      * change [?a; ?b] with ([a] ++ [b]). eapply emits_app; [exact E2|exact F2].
      * split; [|apply LSET].
        pose proof (upd_strm _ x n2 k (Sctx (k_msid sc1) (k_csid sc1) (k_last sc1) (k_sound sc1) (k_wrote sc1) (k_meta sc1) (k_open sc1) (f_created f))
          (XSt true true (y_sound y) (f_created f)) F3 ltac:(apply nth_error_Some; congruence)) as U.
        cbn [e_streams e_last] in U. rewrite set_nth_twice in U. apply U.
        pose proof F3 as (_ & _ & _ & _ & _ & _ & F37). specialize (F37 k sc1 y N1' N2). unfold strm in *.
        cbn [sc1 k_msid k_csid k_sound k_meta k_open k_onfi k_wrote k_last y_sound y_meta y_open y_onfi] in *.
        destruct F37 as (T1 & T2 & T3 & T4 & T5 & T6 & T7 & T8 & T9 & T10).
        do 4 (split; [assumption|]). split; [assumption|]. split; [assumption|]. split; [reflexivity|]. split; [congruence|]. split; assumption.
    + cbn [obind fst snd]. exists (Est (e_last e) (set_nth (e_streams e) k sc1)), o, n1. split; [reflexivity|]. split; [exact E2|].
      rewrite (set_nth_same x k y N2). split; [exact E3|lia].
  - (* the end of a stream *)
    cbn [enc_op expect_op]. destruct (GET k) as [(-> & ->)|(sc & y & N1 & N2 & ST & LK)]; [exact IDLE|]. rewrite N1, N2.
    pose proof ST as (S1 & S2 & S3 & S4 & S5 & S6 & S7 & S8 & S9 & S10). rewrite <- S6. destruct (k_open sc) eqn:KO; [|exact IDLE].
    destruct OK as (B1 & B2).
    destruct (emit_cmd e x n fc R ltac:(lia) B1) as (n1 & E1 & R1).
    destruct (emit_cmd e x n1 del R1 ltac:(lia) B2) as (n2 & E2 & R2).
    rewrite unpublish_ok; [|lia|pose proof (LBS fc B1); lia|pose proof (LBS del B2); lia]. cbn [obind fst snd].
    eexists _, _, n2. split; [reflexivity|]. split.
    + change [command fc; command del] with ([command fc] ++ [command del]). eapply emits_app; [exact E1|exact E2].
    + split; [|apply LSET]. apply upd_strm; [exact R2|apply nth_error_Some; congruence|].
      pose proof R2 as (_ & _ & _ & _ & _ & _ & R27). specialize (R27 k sc y N1 N2). unfold strm in *.
      cbn [set_closed k_msid k_csid k_sound k_meta k_open k_onfi k_wrote k_last y_sound y_meta y_open y_onfi].
      destruct R27 as (T1 & T2 & T3 & T4 & T5 & T6 & T7 & T8 & T9 & T10).
      do 4 (split; [assumption|]). split; [assumption|]. split; [reflexivity|]. split; [assumption|]. split; [assumption|]. split; assumption.
Qed.

Lemma opens_cons op ops : opens (op :: ops) = is_open op + opens ops.
Proof. unfold opens. cbn [flat_map]. rewrite !zlen_len, len_app. destruct op; reflexivity. Qed.
Lemma opens_pos ops : 0 <= opens ops.
Proof. unfold opens. rewrite zlen_len. apply len_nonneg. Qed.

Lemma ops_steps : forall ops e x n, erel e x n -> len x + opens ops + 3 < ms -> len x + opens ops <= 60 -> Forall (eop_ok mm) ops ->
  exists o n', enc_ops fill cf e ops = Some o /\ emits ms mm n o (expect_ops cf x ops) n'.
Proof.
  induction ops as [|op ops IH]; intros e x n R HM HK F; cbn [enc_ops expect_ops].
  - exists [], n. split; [reflexivity|apply emits_nil].
  - inversion F as [|? ? F1 F2]; subst. rewrite opens_cons in HM, HK. pose proof (opens_pos ops).
    destruct (op_step e x n op R ltac:(lia) ltac:(lia) F1) as (e' & o & n1 & E1 & E2 & E3 & E4).
    rewrite E1. cbn [obind]. destruct (expect_op cf x op) as [x1 m] eqn:EX. cbn [fst snd] in *.
    destruct (IH e' x1 n1 E3 ltac:(lia) ltac:(lia) F2) as (o2 & n2 & G1 & G2).
    rewrite G1. cbn [obind]. exists (o ++ o2), n2. split; [reflexivity|]. eapply emits_app; eassumption.
Qed.

Lemma encode_steps connect ops : body_ok mm 0 connect -> 4 <= mm -> opens ops + 3 < ms -> opens ops <= 60 -> Forall (eop_ok mm) ops ->
  exists o n', encode fill cf connect ops = Some o /\ emits ms mm sender0 o (expect cf connect ops) n'.
Proof.
  intros HB HMM HM HK F. unfold encode, expect. pose proof (opens_pos ops). destruct CF as (CF1 & _).
  destruct (body_msg 3 0 20 0 connect ltac:(lia) ltac:(lia) ltac:(lia) ltac:(lia) HB) as (MO & LB).
  destruct (emit_small ms mm sender0 (command connect) 0 MO) as (n1 & d & E1 & A1); cbn [command x_csid x_ts x_type x_msid x_body];
    [lia|lia|reflexivity|lia|reflexivity|lia|lia|].
  cbn [command x_csid x_ts x_type x_msid x_body sender0 n_chunk] in E1.
  pose proof (unbe_be4 (ec_chunk cf) ltac:(lia)) as UB.
  assert (MO2 : msg_ok 4 ms mm (SMsg 2 0 1 0 (be 4 (ec_chunk cf)))).
  { unfold msg_ok. cbn [x_csid x_ts x_type x_msid x_body]. change (zlen (be 4 (ec_chunk cf))) with 4. rewrite UB.
    do 6 (split; [lia|]). split; [unfold be; apply Forall_rev, le_bytes|]. lia. }
  destruct A1 as (A11 & A12). cbn [command x_csid x_type sender0 n_chunk n_st] in A11, A12. change (20 =? 1) with false in A11. cbn iota in A11.
  destruct (emit_small ms mm n1 (SMsg 2 0 1 0 (be 4 (ec_chunk cf))) 0 MO2) as (n2 & d2 & E2 & A2); cbn [x_csid x_ts x_type x_msid x_body];
    [lia|lia|lia|reflexivity|rewrite A12; reflexivity|lia|lia|].
  cbn [x_csid x_ts x_type x_msid x_body] in E2. rewrite A11 in E2.
  destruct A2 as (A21 & A22). cbn [x_csid x_type x_body] in A21, A22. change (1 =? 1) with true in A21. cbn iota in A21. rewrite UB in A21.
  assert (R : erel (Est 0 []) [] n2).
  { split; [exact A21|]. split; [intros cs; rewrite A22, A12; destruct (cs =? 2); [reflexivity|]; destruct (cs =? 3); reflexivity|].
    rewrite A22, A12. cbn. do 4 (split; [reflexivity|]). intros k sc y HH. destruct k; discriminate. }
  destruct (ops_steps ops (Est 0 []) [] n2 R) as (o & n' & G1 & G2); [change (len (@nil xst)) with 0; lia|change (len (@nil xst)) with 0; lia|exact F|].
  rewrite connect_ok by lia. cbn [obind]. rewrite G1. cbn [obind].
  exists ((msg_bytes 0 3 0 20 0 128 connect ++ msg_bytes 0 2 0 1 0 128 (be 4 (ec_chunk cf))) ++ o), n'. split; [reflexivity|].
  change (command connect :: SMsg 2 0 1 0 (be 4 (ec_chunk cf)) :: expect_ops cf [] ops)
    with (([command connect] ++ [SMsg 2 0 1 0 (be 4 (ec_chunk cf))]) ++ expect_ops cf [] ops).
  eapply emits_app; [eapply emits_app; [exact E1|exact E2]|exact G2].
Qed.

End Up.
