(* The events of an upstream and the messages that are expected. *)

From Coq Require Import List ZArith Lia Bool Arith.
From Coq Require Import ZifyBool ZifyNat.
From Verif Require Import Lists Bytes RtmpModel RtmpSpec RtmpProofs RtmpProofs4 EncModel EncSpec EncProofs EncProofs2.
Import ListNotations.
Open Scope Z_scope.

Lemma zlen_len (l : list Z) : zlen l = len l.
Proof. reflexivity. Qed.

(* ---- writing several messages ---- *)

Definition msg_bytes (fmt csid ts type msid chunk : Z) (body : list Z) : list Z :=
  write_header (EHdr fmt csid ts (len body) type msid) ++ weave (more (len body) chunk) chunk (u8 (Z.lor 192 csid)) body.

Lemma msg_bytes_len fmt csid ts type msid chunk body : 0 <= fmt <= 1 -> 0 < chunk -> 0 < len body ->
  len (msg_bytes fmt csid ts type msid chunk body) = msg_size fmt (len body) chunk.
Proof.
  intros HF HC HB. unfold msg_bytes, msg_size. rewrite len_app, header_len by exact HF. cbn [h_fmt].
  pose proof (more_spec (len body) chunk HB HC). rewrite len_weave by nia. lia.
Qed.

Lemma amf_step A T rest body fmt csid ts type msid chunk : 0 < len body < 2 ^ 32 -> 0 < chunk -> 0 <= fmt <= 1 ->
  len T = msg_size fmt (len body) chunk + rest -> 0 <= rest ->
  exists T', len T' = rest /\
    amf_write (A ++ T, len A) body fmt csid ts type msid chunk =
      Some ((A ++ msg_bytes fmt csid ts type msid chunk body) ++ T', len (A ++ msg_bytes fmt csid ts type msid chunk body)).
Proof.
  intros HB HC HF HT HR. assert (HS : 0 <= msg_size fmt (len body) chunk).
  { rewrite <- (msg_bytes_len fmt 0 0 0 0 chunk body) by lia. apply len_nonneg. }
  destruct (split_room T (msg_size fmt (len body) chunk) ltac:(lia)) as (E & L1 & L2).
  exists (drop (msg_size fmt (len body) chunk) T). split; [lia|].
  rewrite E at 1. rewrite amf_write_ok by (auto; lia). fold (msg_bytes fmt csid ts type msid chunk body).
  rewrite <- app_assoc, len_app, msg_bytes_len by lia. rewrite L1. reflexivity.
Qed.

Lemma seq_step A T rest hs head extra type chunk sc : hs = len head -> 0 < len (head ++ extra) < 2 ^ 32 -> 0 < chunk ->
  len T = msg_size 0 (hs + len extra) chunk + rest -> 0 <= rest ->
  exists T', len T' = rest /\
    seq_write (A ++ T, len A) hs head extra type chunk sc =
      Some ((A ++ msg_bytes 0 (k_csid sc) 0 type (k_msid sc) chunk (head ++ extra)) ++ T',
            len (A ++ msg_bytes 0 (k_csid sc) 0 type (k_msid sc) chunk (head ++ extra))).
Proof.
  intros HH HB HC HT HR. rewrite HH in HT. rewrite <- len_app in HT.
  set (body := head ++ extra) in *. assert (HS : 0 <= msg_size 0 (len body) chunk).
  { rewrite <- (msg_bytes_len 0 0 0 0 0 chunk body) by lia. apply len_nonneg. }
  destruct (split_room T (msg_size 0 (len body) chunk) ltac:(lia)) as (E & L1 & L2).
  exists (drop (msg_size 0 (len body) chunk) T). split; [lia|].
  rewrite E at 1. rewrite seq_write_ok by (fold body; auto; lia). fold body.
  fold (msg_bytes 0 (k_csid sc) 0 type (k_msid sc) chunk body).
  rewrite <- app_assoc, len_app, msg_bytes_len by lia. rewrite L1. reflexivity.
Qed.

Lemma alloc_len fill size : 0 <= size -> len (fst (alloc fill size)) = size.
Proof. intros H. unfold alloc, len. cbn. rewrite repeat_length. lia. Qed.

Lemma written_ok size X T : len T = 0 -> len X = size -> written size (Some (X ++ T, len X)) = Some X.
Proof.
  intros HT HX. rewrite (len_0 _ T HT), app_nil_r. unfold written. rewrite HX, Z.eqb_refl. reflexivity.
Qed.

Lemma msg_size_pos fmt mlen chunk : 0 < mlen -> 0 < chunk -> 0 < msg_size fmt mlen chunk.
Proof.
  intros HM HC. unfold msg_size. pose proof (more_spec mlen chunk HM HC) as (M & _).
  unfold header_size. destruct (fmt =? 0), (fmt =? 1), (fmt =? 2); lia.
Qed.

Lemma publish_ok fill chunk sc rel fcp cre pub : 0 < chunk ->
  0 < len rel < 2 ^ 32 -> 0 < len fcp < 2 ^ 32 -> 0 < len cre < 2 ^ 32 -> 0 < len pub < 2 ^ 32 ->
  publish fill chunk sc rel fcp cre pub = Some (
    ((msg_bytes 1 3 0 20 0 chunk rel ++ msg_bytes 1 3 0 20 0 chunk fcp) ++ msg_bytes 1 3 0 20 0 chunk cre) ++
    msg_bytes 0 (k_csid sc) 0 20 (k_msid sc) chunk pub).
Proof.
  intros HC H1 H2 H3 H4. unfold publish, ty_cmd, csid_ini.
  pose proof (msg_size_pos 1 (len rel) chunk ltac:(lia) HC). pose proof (msg_size_pos 1 (len fcp) chunk ltac:(lia) HC).
  pose proof (msg_size_pos 1 (len cre) chunk ltac:(lia) HC). pose proof (msg_size_pos 0 (len pub) chunk ltac:(lia) HC).
  set (size := msg_size 1 (len rel) chunk + msg_size 1 (len fcp) chunk + msg_size 1 (len cre) chunk + msg_size 0 (len pub) chunk).
  pose proof (alloc_len fill size ltac:(lia)) as LT. unfold alloc in *. cbn [fst] in LT. set (T := repeat fill (Z.to_nat size)) in *.
  destruct (amf_step [] T (size - msg_size 1 (len rel) chunk) rel 1 3 0 20 0 chunk) as (T1 & L1 & E1); [lia..|].
  change (T, 0) with (([] : list Z) ++ T, len (@nil Z)). rewrite E1. cbn [obind]. rewrite app_nil_l.
  destruct (amf_step (msg_bytes 1 3 0 20 0 chunk rel) T1 (size - msg_size 1 (len rel) chunk - msg_size 1 (len fcp) chunk) fcp 1 3 0 20 0 chunk) as (T2 & L2 & E2); [lia..|].
  rewrite E2. cbn [obind].
  match goal with |- context [amf_write (?A ++ T2, _)] => destruct (amf_step A T2 (msg_size 0 (len pub) chunk) cre 1 3 0 20 0 chunk) as (T3 & L3 & E3); [lia..|] end.
  rewrite E3. cbn [obind].
  match goal with |- context [amf_write (?A ++ T3, _)] => destruct (amf_step A T3 0 pub 0 (k_csid sc) 0 20 (k_msid sc) chunk) as (T4 & L4 & E4); [lia..|] end.
  rewrite E4. apply written_ok; [exact L4|]. rewrite !len_app, !msg_bytes_len by lia. reflexivity.
Qed.

Lemma unpublish_ok fill chunk fc del : 0 < chunk -> 0 < len fc < 2 ^ 32 -> 0 < len del < 2 ^ 32 ->
  unpublish fill chunk fc del = Some (msg_bytes 1 3 0 20 0 chunk fc ++ msg_bytes 1 3 0 20 0 chunk del).
Proof.
  intros HC H1 H2. unfold unpublish, ty_cmd, csid_ini.
  pose proof (msg_size_pos 1 (len fc) chunk ltac:(lia) HC). pose proof (msg_size_pos 1 (len del) chunk ltac:(lia) HC).
  set (size := msg_size 1 (len fc) chunk + msg_size 1 (len del) chunk).
  pose proof (alloc_len fill size ltac:(lia)) as LT. unfold alloc in *. cbn [fst] in LT. set (T := repeat fill (Z.to_nat size)) in *.
  destruct (amf_step [] T (size - msg_size 1 (len fc) chunk) fc 1 3 0 20 0 chunk) as (T1 & L1 & E1); [lia..|].
  change (T, 0) with (([] : list Z) ++ T, len (@nil Z)). rewrite E1. cbn [obind]. rewrite app_nil_l.
  match goal with |- context [amf_write (?A ++ T1, _)] => destruct (amf_step A T1 0 del 1 3 0 20 0 chunk) as (T4 & L4 & E4); [lia..|] end.
  rewrite E4. apply written_ok; [exact L4|]. rewrite !len_app, !msg_bytes_len by lia. reflexivity.
Qed.

Lemma onfi_ok fill chunk sc body : 0 < chunk -> 0 < len body < 2 ^ 32 ->
  onfi_write fill chunk sc body = Some (msg_bytes 1 (k_csid sc) 0 18 (k_msid sc) chunk body).
Proof.
  intros HC H1. unfold onfi_write, ty_meta.
  pose proof (msg_size_pos 1 (len body) chunk ltac:(lia) HC).
  set (size := msg_size 1 (len body) chunk).
  pose proof (alloc_len fill size ltac:(lia)) as LT. unfold alloc in *. cbn [fst] in LT. set (T := repeat fill (Z.to_nat size)) in *.
  destruct (amf_step [] T 0 body 1 (k_csid sc) 0 18 (k_msid sc) chunk) as (T1 & L1 & E1); [lia..|].
  change (T, 0) with (([] : list Z) ++ T, len (@nil Z)). rewrite E1. rewrite app_nil_l.
  apply written_ok; [exact L1|]. rewrite msg_bytes_len by lia. reflexivity.
Qed.

(* the codec headers, in the terms of the FLV format *)
Lemma avc_seq : avc_header 0 1 0 = flv_avc 1 0 0.
Proof. reflexivity. Qed.
Lemma ext_seq : ext_header 0 1 hvc1 0 = flv_hvc 1 0.
Proof. reflexivity. Qed.

Definition vbytes (chunk : Z) (sc : sctx) (v : video) : list Z :=
  match v with
  | VNone => []
  | VAvc e => msg_bytes 0 (k_csid sc) 0 9 (k_msid sc) chunk (flv_avc 1 0 0 ++ e)
  | VHevc e => msg_bytes 0 (k_csid sc) 0 9 (k_msid sc) chunk (flv_hvc 1 0 ++ e)
  end.
Definition abytes (chunk : Z) (sc : sctx) (a : audio) : list Z :=
  match a with
  | AAac e => msg_bytes 0 (k_csid sc) 0 8 (k_msid sc) chunk ([k_sound sc; 0] ++ e)
  | _ => []
  end.

Lemma meta_ok fill chunk sc meta v a : 0 < chunk -> 0 < len meta < 2 ^ 32 ->
  match v with VNone => True | VAvc e | VHevc e => 0 < 5 + len e < 2 ^ 32 end ->
  match a with AAac e => 0 < 2 + len e < 2 ^ 32 | _ => True end ->
  write_meta fill chunk sc meta v a =
    Some ((msg_bytes 0 (k_csid sc) 0 18 (k_msid sc) chunk meta ++ vbytes chunk sc v) ++ abytes chunk sc a).
Proof.
  intros HC H1 HV HA. unfold write_meta, ty_meta, ty_video, ty_audio.
  pose proof (msg_size_pos 0 (len meta) chunk ltac:(lia) HC).
  set (sv := match v with VNone => 0 | VAvc e | VHevc e => msg_size 0 (5 + len e) chunk end).
  set (sa := match a with AAac e => msg_size 0 (2 + len e) chunk | _ => 0 end).
  assert (PV : 0 <= sv) by (unfold sv; destruct v as [|e|e]; [lia| |]; pose proof (msg_size_pos 0 (5 + len e) chunk ltac:(lia) HC); lia).
  assert (PA : 0 <= sa) by (unfold sa; destruct a as [| |e]; [lia|lia|]; pose proof (msg_size_pos 0 (2 + len e) chunk ltac:(lia) HC); lia).
  replace (match v with VNone => 0 | VAvc e => msg_size 0 (5 + len e) chunk | VHevc e => msg_size 0 (5 + len e) chunk end) with sv by reflexivity.
  set (size := msg_size 0 (len meta) chunk + sv + sa).
  pose proof (alloc_len fill size ltac:(lia)) as LT. unfold alloc in *. cbn [fst] in LT. set (T := repeat fill (Z.to_nat size)) in *.
  destruct (amf_step [] T (sv + sa) meta 0 (k_csid sc) 0 18 (k_msid sc) chunk) as (T1 & L1 & E1); [lia..|].
  change (T, 0) with (([] : list Z) ++ T, len (@nil Z)). rewrite E1. cbn [obind]. rewrite app_nil_l. clear E1.
  set (A := msg_bytes 0 (k_csid sc) 0 18 (k_msid sc) chunk meta).
  assert (SV : exists T2, len T2 = sa /\ len (vbytes chunk sc v) = sv /\
     match v with
     | VNone => Some (A ++ T1, len A)
     | VAvc e => seq_write (A ++ T1, len A) 5 (avc_header 0 1 0) e 9 chunk sc
     | VHevc e => seq_write (A ++ T1, len A) 5 (ext_header 0 1 hvc1 0) e 9 chunk sc
     end = Some ((A ++ vbytes chunk sc v) ++ T2, len (A ++ vbytes chunk sc v))).
  { destruct v as [|e|e]; cbn [vbytes]; unfold sv in *.
    - exists T1. rewrite app_nil_r. split; [lia|]. split; reflexivity.
    - rewrite avc_seq. assert (LE : len (flv_avc 1 0 0 ++ e) = 5 + len e) by (rewrite len_app; reflexivity).
      destruct (seq_step A T1 sa 5 (flv_avc 1 0 0) e 9 chunk sc) as (T2 & L2 & E2); [reflexivity|lia|lia|lia|lia|].
      exists T2. rewrite msg_bytes_len by lia. rewrite LE. auto.
    - rewrite ext_seq. assert (LE : len (flv_hvc 1 0 ++ e) = 5 + len e) by (rewrite len_app; reflexivity).
      destruct (seq_step A T1 sa 5 (flv_hvc 1 0) e 9 chunk sc) as (T2 & L2 & E2); [reflexivity|lia|lia|lia|lia|].
      exists T2. rewrite msg_bytes_len by lia. rewrite LE. auto. }
  destruct SV as (T2 & L2 & LV & ->). cbn [obind].
  set (B := A ++ vbytes chunk sc v).
  assert (SA : exists T3, len T3 = 0 /\ len (abytes chunk sc a) = sa /\
     match a with
     | AAac e => seq_write (B ++ T2, len B) 2 (aac_header (k_sound sc) 0) e 8 chunk sc
     | _ => Some (B ++ T2, len B)
     end = Some ((B ++ abytes chunk sc a) ++ T3, len (B ++ abytes chunk sc a))).
  { destruct a as [| |e]; cbn [abytes]; unfold sa in *.
    - exists T2. rewrite app_nil_r. split; [lia|]. split; reflexivity.
    - exists T2. rewrite app_nil_r. split; [lia|]. split; reflexivity.
    - change (aac_header (k_sound sc) 0) with [k_sound sc; 0].
      assert (LE : len ([k_sound sc; 0] ++ e) = 2 + len e) by (rewrite len_app; reflexivity).
      destruct (seq_step B T2 0 2 [k_sound sc; 0] e 8 chunk sc) as (T3 & L3 & E3); [reflexivity|lia|lia|lia|lia|].
      exists T3. rewrite msg_bytes_len by lia. rewrite LE. auto. }
  destruct SA as (T3 & L3 & LA & ->). apply written_ok; [exact L3|].
  unfold B, A. rewrite !len_app, msg_bytes_len, LV, LA by lia. reflexivity.
Qed.

Lemma connect_ok fill chunk body : 0 < len body < 2 ^ 32 ->
  connect_write fill chunk body = Some (msg_bytes 0 3 0 20 0 128 body ++ msg_bytes 0 2 0 1 0 128 (be 4 chunk)).
Proof.
  intros H1. unfold connect_write, ty_cmd, csid_ini, csid_ctrl, ty_chunk_size, enc_default_chunk.
  pose proof (msg_size_pos 0 (len body) 128 ltac:(lia) ltac:(lia)).
  set (size := msg_size 0 (len body) 128 + (12 + 4)).
  pose proof (alloc_len fill size ltac:(lia)) as LT. unfold alloc in *. cbn [fst] in LT. set (T := repeat fill (Z.to_nat size)) in *.
  destruct (amf_step [] T 16 body 0 3 0 20 0 128) as (T1 & L1 & E1); [lia..|].
  change (T, 0) with (([] : list Z) ++ T, len (@nil Z)). rewrite E1. cbn [obind]. rewrite app_nil_l.
  set (A := msg_bytes 0 3 0 20 0 128 body).
  destruct (split_room T1 12 ltac:(lia)) as (E2 & L2 & L3). rewrite E2. set (T2 := drop 12 T1) in *.
  set (W := write_header (EHdr 0 2 0 4 1 0)). assert (LW : len W = 12) by reflexivity.
  rewrite poke_mid by lia. cbn [obind].
  replace (A ++ W ++ T2) with ((A ++ W) ++ T2 ++ []) by (rewrite app_nil_r, <- app_assoc; reflexivity).
  assert (LB : len (be 4 chunk) = 4) by reflexivity.
  rewrite poke_mid by (rewrite ?len_app; lia). cbn [obind].
  rewrite app_nil_r. unfold written. unfold A. rewrite msg_bytes_len by lia. unfold size.
  replace (_ =? _) with true by lia. rewrite <- app_assoc. reflexivity.
Qed.

(* ---- frames ---- *)

Lemma packet_size c sound f : len (packet_header c sound f) = packet_header_size c.
Proof. destruct c; reflexivity. Qed.

Lemma be3_mod z : be 3 (u32 z) = be 3 z.
Proof.
  rewrite !be3_eq. unfold u32. change (2 ^ 32) with 4294967296.
  assert (E1 : z mod 4294967296 mod 256 = z mod 256) by lia.
  assert (E2 : (z mod 4294967296) / 256 mod 256 = z / 256 mod 256) by lia.
  assert (E3 : (z mod 4294967296) / 256 / 256 mod 256 = z / 256 / 256 mod 256) by lia.
  rewrite E1, E2, E3. reflexivity.
Qed.

Lemma odd_land z : (Z.land z 1 =? 0) = negb (Z.odd z).
Proof.
  change 1 with (Z.ones 1). rewrite Z.land_ones by lia. change (2 ^ 1) with 2. rewrite Zmod_odd. destruct (Z.odd z); reflexivity.
Qed.

Lemma packet_flv c sound f : packet_header c sound f ++ concat (f_data f) = flv_packet c sound f.
Proof.
  unfold flv_packet. f_equal. destruct c; cbn [packet_header]; try reflexivity.
  - unfold avc_header, flv_avc, flv_key. rewrite be3_mod, odd_land. destruct (Z.odd (f_flags f)); reflexivity.
  - unfold ext_header, flv_hvc, flv_key. rewrite be3_mod, odd_land. destruct (Z.odd (f_flags f)); reflexivity.
Qed.

Definition f_time (sc : sctx) (f : frame) : Z :=
  if k_wrote sc then u32 (u32 (f_dts f) - k_last sc) else u32 (f_dts f).

Lemma frame_head_ok fill sc f c : 0 <= f_size f < 2 ^ 24 -> 
  frame_head fill sc f c = Some (
    write_header (EHdr (if k_wrote sc then 1 else 0) (k_csid sc) (Z.min (f_time sc f) no_ts) (packet_header_size c + f_size f) (packet_type c) (k_msid sc)) ++
    (if f_time sc f >=? no_ts then be 4 (f_time sc f) else []) ++ packet_header c (k_sound sc) f).
Proof.
  intros HS. unfold frame_head. fold (f_time sc f). set (ts := f_time sc f). set (fmt := if k_wrote sc then 1 else 0).
  assert (HF : 0 <= fmt <= 1) by (unfold fmt; destruct (k_wrote sc); lia).
  set (ph := packet_header c (k_sound sc) f). assert (LP : len ph = packet_header_size c) by apply packet_size.
  assert (HP : 1 <= packet_header_size c <= 8) by (destruct c; cbn; lia).
  assert (EU : u32 (packet_header_size c + f_size f) = packet_header_size c + f_size f) by (unfold u32; apply Z.mod_small; lia).
  rewrite EU. set (mlen := packet_header_size c + f_size f).
  set (B := repeat fill 24). assert (LB : len B = 24) by reflexivity.
  set (hs := header_size fmt). assert (HH : hs = 8 \/ hs = 12) by (unfold hs, fmt; destruct (k_wrote sc); [left|right]; reflexivity).
  unfold ext_timestamp, no_ts. 
  assert (FIN : forall (A1 A2 : list Z) (t : Z), len A1 = hs -> hs + len A2 + len ph <= 24 -> forall p R, p = hs + len A2 -> len R = 24 - p ->
    obind (poke (A1 ++ A2 ++ R) p ph) (fun b1 => obind (poke b1 0 (write_header (EHdr fmt (k_csid sc) t mlen (packet_type c) (k_msid sc)))) (fun b2 => Some (take (p + len ph) b2)))
    = Some (write_header (EHdr fmt (k_csid sc) t mlen (packet_type c) (k_msid sc)) ++ A2 ++ ph)).
  { intros A1 A2 t L1 L2 p R -> LR. destruct (split_room R (len ph) ltac:(pose proof (len_nonneg _ ph); lia)) as (E & L3 & L4). rewrite E.
    replace (A1 ++ A2 ++ take (len ph) R ++ drop (len ph) R) with ((A1 ++ A2) ++ take (len ph) R ++ drop (len ph) R) by (rewrite <- app_assoc; reflexivity).
    rewrite poke_mid by (rewrite ?len_app; lia). cbn [obind].
    set (W := write_header (EHdr fmt (k_csid sc) t mlen (packet_type c) (k_msid sc))).
    assert (LW : len W = hs) by (apply (header_len (EHdr fmt (k_csid sc) t mlen (packet_type c) (k_msid sc))); exact HF).
    replace ((A1 ++ A2) ++ ph ++ drop (len ph) R) with ([] ++ A1 ++ (A2 ++ ph ++ drop (len ph) R)) by (cbn [app]; rewrite <- app_assoc; reflexivity).
    rewrite poke_mid by (auto; lia). cbn [obind app].
    replace (W ++ A2 ++ ph ++ drop (len ph) R) with ((W ++ A2 ++ ph) ++ drop (len ph) R) by (rewrite <- !app_assoc; reflexivity).
    replace (hs + len A2 + len ph) with (len (W ++ A2 ++ ph)) by (rewrite !len_app; lia). rewrite take_app_exact. reflexivity. }
  destruct (split_room B hs ltac:(lia)) as (E1 & L1 & L2).
  destruct (ts >=? 16777215) eqn:ET.
  - rewrite E1. destruct (split_room (drop hs B) 4 ltac:(lia)) as (E2 & L3 & L4). rewrite E2.
    assert (L5 : len (be 4 ts) = 4) by reflexivity.
    rewrite poke_mid by lia. cbn [obind].
    rewrite (FIN (take hs B) (be 4 ts) 16777215 L1 ltac:(lia) (hs + 4)) by lia.
    replace (Z.min ts 16777215) with 16777215 by lia. reflexivity.
  - cbn [obind]. replace B with (take hs B ++ [] ++ drop hs B) by (cbn [app]; symmetry; exact E1).
    change (len []) with 0 in FIN.
    rewrite (FIN (take hs B) [] ts L1); [|change (len (@nil Z)) with 0; lia|change (len (@nil Z)) with 0; lia|lia].
    replace (Z.min ts 16777215) with ts by lia. reflexivity.
Qed.

Lemma frame_write_ok fill chunk sc f c : 128 <= chunk -> f_data f <> [] -> f_size f < 2 ^ 24 ->
  frame_write fill chunk sc f c = Some (
    Sctx (k_msid sc) (k_csid sc) (u32 (f_dts f)) (k_sound sc) true (k_meta sc) (k_open sc) (k_onfi sc),
    write_header (EHdr (if k_wrote sc then 1 else 0) (k_csid sc) (Z.min (f_time sc f) no_ts) (len (flv_packet c (k_sound sc) f)) (packet_type c) (k_msid sc)) ++
    (if f_time sc f >=? no_ts then be 4 (f_time sc f) else []) ++
    weave (more (len (flv_packet c (k_sound sc) f)) chunk) chunk (u8 (Z.lor 192 (k_csid sc))) (flv_packet c (k_sound sc) f)).
Proof.
  intros HC HD HS. unfold frame_write. assert (HS0 : 0 <= f_size f) by apply len_nonneg.
  rewrite frame_head_ok by lia. cbn [obind].
  assert (HP : 1 <= packet_header_size c <= 8) by (destruct c; cbn; lia).
  set (hd := u8 (Z.lor 192 (k_csid sc))).
  rewrite frame_loop_ok; [|lia|lia|exact HD|fold (f_size f); destruct (_ =? 0); lia].
  cbn [obind]. rewrite <- packet_flv. set (ph := packet_header c (k_sound sc) f).
  assert (LP : len ph = packet_header_size c) by apply packet_size.
  assert (LB : len (ph ++ concat (f_data f)) = packet_header_size c + f_size f) by (rewrite len_app, LP; reflexivity).
  rewrite LB. f_equal. f_equal. rewrite <- !app_assoc. f_equal. f_equal.
  rewrite <- LB. rewrite <- woven_chunk by lia. rewrite woven_app by lia. rewrite LP. reflexivity.
Qed.
