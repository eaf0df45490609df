(* What the decoder makes of the bytes of a sender. *)

From Coq Require Import List ZArith Lia Bool Arith.
From Coq Require Import ZifyBool ZifyNat.
From Verif Require Import Lists Bytes RtmpModel RtmpSpec RtmpProofs RtmpProofs2 RtmpProofs3.
Import ListNotations.
Open Scope Z_scope.

Lemma be3_eq x : be 3 x = [x / 256 / 256 mod 256; x / 256 mod 256; x mod 256].
Proof. reflexivity. Qed.
Lemma be4_eq x : be 4 x = [x / 256 / 256 / 256 mod 256; x / 256 / 256 mod 256; x / 256 mod 256; x mod 256].
Proof. reflexivity. Qed.
Lemma le4_eq x : le 4 x = [x mod 256; x / 256 mod 256; x / 256 / 256 mod 256; x / 256 / 256 / 256 mod 256].
Proof. reflexivity. Qed.
Lemma le2_eq x : le 2 x = [x mod 256; x / 256 mod 256].
Proof. reflexivity. Qed.

Lemma be24_be x : 0 <= x < 16777216 -> be24 (x / 256 / 256 mod 256) (x / 256 mod 256) (x mod 256) = x.
Proof. intros H. unfold be24. lia. Qed.
Lemma be32_be x : 0 <= x < 4294967296 ->
  be32 (x / 256 / 256 / 256 mod 256) (x / 256 / 256 mod 256) (x / 256 mod 256) (x mod 256) = x.
Proof. intros H. unfold be32. lia. Qed.

Lemma parse_basic_w form fmt cs x : form_ok form cs -> 0 <= fmt <= 3 ->
  parse_basic (w_basic form fmt cs ++ x) = Some (fmt, cs, form) /\ len (w_basic form fmt cs) = form.
Proof.
  intros HF H. unfold w_basic, parse_basic.
  destruct HF as [(-> & HC)|[(-> & HC)|(-> & HC)]]; cbn [Z.eqb Pos.eqb app].
  - replace ((fmt * 64 + cs) mod 64) with cs by lia. replace ((fmt * 64 + cs) / 64) with fmt by lia.
    replace (cs =? 0) with false by lia. replace (cs =? 1) with false by lia. auto.
  - replace ((fmt * 64) mod 64) with 0 by lia. replace ((fmt * 64) / 64) with fmt by lia. cbn [Z.eqb].
    replace (64 + (cs - 64)) with cs by lia. auto.
  - replace ((fmt * 64 + 1) mod 64) with 1 by lia. replace ((fmt * 64 + 1) / 64) with fmt by lia. cbn [Z.eqb].
    rewrite le2_eq. cbn [app].
    replace (64 + (cs - 64) mod 256 + 256 * ((cs - 64) / 256 mod 256)) with cs by lia. auto.
Qed.

(* ---- the header of a first chunk ---- *)

(* sender and reader agree on repeated extended timestamps *)
Definition mode_ok (t3 : t3_mode) (rep : bool) : Prop :=
  match t3 with T3Off => rep = false | T3On => rep = true | T3Auto => True end.

(* a header of type 3 with an extended timestamp makes up the reader's mind *)
Definition hdr_mode (t3 : t3_mode) (rep ext : bool) (last f : Z) : Prop :=
  mode_ok t3 rep /\ (t3 = T3Auto -> ext = true -> rep = true /\ f = last).

Definition next_t3 (t3 : t3_mode) (ext : bool) : t3_mode := if is_auto t3 && ext then T3On else t3.

Lemma finish_start t3 last h fmt ext ts n : c_len h = 0 ->
  hdr_finish t3 last h fmt ext ts n =
  HDone (Chdr (if fmt =? 0 then ts else c_ts h) (c_mlen h) (c_type h) (c_msid h) (if fmt =? 0 then 0 else ts) 0
           (ext && negb (is_off t3))) ts t3 n.
Proof.
  intros H. destruct h. cbn in H. subst. unfold hdr_finish. cbn [c_len Z.eqb]. destruct (fmt =? 0); reflexivity.
Qed.

Lemma ext_start t3 last h fmt ext ts f d n : c_len h = 0 -> 0 <= f < 4294967296 -> fmt <= 2 ->
  (ext = false -> ts = f) ->
  hdr_ext t3 last h fmt ext ts ((if ext then be 4 f else []) ++ d) n =
  HDone (Chdr (if fmt =? 0 then f else c_ts h) (c_mlen h) (c_type h) (c_msid h) (if fmt =? 0 then 0 else f) 0
           (ext && negb (is_off t3))) f t3 (n + len (if ext then be 4 f else [])).
Proof.
  intros H HF H2 HT. unfold hdr_ext. destruct ext.
  - rewrite be4_eq. cbn [app]. rewrite be32_be by lia.
    replace (fmt >? 2) with false by lia. rewrite andb_false_r. rewrite finish_start by exact H. reflexivity.
  - rewrite (HT eq_refl). rewrite finish_start by exact H. rewrite Z.add_0_r. reflexivity.
Qed.

Lemma hdr_start t3 last h fmt p m rep y :
  0 <= fmt <= 3 -> c_len h = 0 -> 0 <= w_field p fmt m < 4294967296 ->
  zlen (x_body m) < 16777216 -> 0 <= x_type m -> 0 <= x_msid m < 4294967296 ->
  (1 <= fmt -> c_msid h = x_msid m) -> (2 <= fmt -> c_type h = x_type m /\ c_mlen h = zlen (x_body m)) ->
  (3 <= fmt -> c_dtime h = w_field p fmt m) ->
  c_ext h = p_ext p && negb (is_off t3) -> hdr_mode t3 rep ((fmt =? 3) && p_ext p) last (w_field p fmt m) ->
  parse_hdr t3 last h fmt (w_mhdr fmt (w_field p fmt m) m ++ w_ext rep p fmt (w_field p fmt m) ++ y) =
  HDone (Chdr (if fmt =? 0 then w_field p fmt m else c_ts h) (zlen (x_body m)) (x_type m) (x_msid m)
           (if fmt =? 0 then 0 else w_field p fmt m) 0 (w_has_ext p fmt (w_field p fmt m) && negb (is_off t3)))
    (w_field p fmt m) (next_t3 t3 ((fmt =? 3) && p_ext p))
    (len (w_mhdr fmt (w_field p fmt m) m) + len (w_ext rep p fmt (w_field p fmt m))).
Proof.
  intros HF HL. set (f := w_field p fmt m). clearbody f. intros Hf HB HT HM A1 A2 A3 HE (MO1 & MO2).
  assert (HB0 : 0 <= zlen (x_body m)) by (unfold zlen; lia).
  assert (EXT : forall e h1 n, (f >=? no_ts) = e -> fmt <= 2 -> c_len h1 = 0 ->
     hdr_ext t3 last h1 fmt (Z.min f no_ts =? 16777215) (Z.min f no_ts) ((if e then be 4 f else []) ++ y) n =
     HDone (Chdr (if fmt =? 0 then f else c_ts h1) (c_mlen h1) (c_type h1) (c_msid h1) (if fmt =? 0 then 0 else f) 0
           (e && negb (is_off t3))) f t3 (n + len (if e then be 4 f else []))).
  { intros e h1 n E1 E2 E3. replace (Z.min f no_ts =? 16777215) with e by (rewrite <- E1; unfold no_ts; lia).
    apply ext_start; auto. intros ->. unfold no_ts in *. lia. }
  assert (MIN : 0 <= Z.min f no_ts < 16777216) by (unfold no_ts; lia).
  unfold w_ext, w_has_ext, next_t3 in *.
  assert (C : fmt = 0 \/ fmt = 1 \/ fmt = 2 \/ fmt = 3) by lia.
  destruct C as [->|[->|[->|C3]]].
  - cbn [Z.eqb Z.ltb Z.compare Pos.compare Pos.compare_cont orb andb] in *. rewrite andb_true_r, andb_false_r.
    unfold parse_hdr, w_mhdr. cbn [Z.leb Z.eqb Z.compare]. rewrite !be3_eq, le4_eq. cbn [app].
    rewrite !be24_be by lia. change (zlen (x_body m)) with (len (x_body m)) in *.
    unfold le32. rewrite be32_be by lia.
    rewrite (EXT (f >=? no_ts)); [|reflexivity|lia|exact HL]. cbn [Z.eqb]. reflexivity.
  - cbn [Z.eqb Pos.eqb Z.ltb Z.compare Pos.compare Pos.compare_cont orb andb] in *. rewrite andb_true_r, andb_false_r.
    unfold parse_hdr, w_mhdr. cbn [Z.leb Z.eqb Z.compare Pos.compare Pos.compare_cont]. rewrite !be3_eq. cbn [app].
    rewrite !be24_be by lia.
    rewrite (EXT (f >=? no_ts)); [|reflexivity|lia|exact HL]. cbn [Z.eqb set_mlen c_msid c_ts c_mlen c_type]. rewrite A1 by lia. reflexivity.
  - cbn [Z.eqb Pos.eqb Z.ltb Z.compare Pos.compare Pos.compare_cont orb andb] in *. rewrite andb_true_r, andb_false_r.
    unfold parse_hdr, w_mhdr. cbn [Z.leb Z.eqb Z.compare Pos.compare Pos.compare_cont]. rewrite !be3_eq. cbn [app].
    rewrite !be24_be by lia.
    rewrite (EXT (f >=? no_ts)); [|reflexivity|lia|exact HL]. cbn [Z.eqb]. rewrite A1 by lia. destruct (A2 ltac:(lia)) as (-> & ->). reflexivity.
  - subst fmt. cbn [Z.eqb Pos.eqb Z.ltb Z.compare Pos.compare Pos.compare_cont orb andb] in *.
    unfold parse_hdr, w_mhdr. cbn [Z.leb Z.eqb Z.compare Pos.compare Pos.compare_cont app].
    change (len []) with 0. rewrite HE, (A3 ltac:(lia)). unfold hdr_ext.
    destruct (A2 ltac:(lia)) as (A4 & A5).
    assert (EQ : p_ext p && rep = p_ext p && negb (is_off t3)).
    { destruct (p_ext p); [|reflexivity]. unfold mode_ok in MO1. destruct t3; cbn; try congruence. apply MO2; reflexivity. }
    rewrite EQ. clear EQ. rewrite <- (A1 ltac:(lia)), <- A4, <- A5.
    destruct t3; cbn [is_off is_auto negb andb] in *; rewrite ?andb_false_r, ?andb_true_r.
    + rewrite finish_start by exact HL. reflexivity.
    + destruct (p_ext p).
      * rewrite be4_eq. cbn [app]. rewrite be32_be by lia. rewrite finish_start by exact HL. reflexivity.
      * rewrite finish_start by exact HL. reflexivity.
    + destruct (p_ext p).
      * destruct (MO2 eq_refl eq_refl) as (_ & ->). rewrite be4_eq. cbn [app]. rewrite be32_be by lia.
        cbn [Z.gtb Z.compare Pos.compare Pos.compare_cont]. rewrite Z.eqb_refl. cbn [negb].
        rewrite finish_start by exact HL. reflexivity.
      * rewrite finish_start by exact HL. reflexivity.
Qed.

(* the header of a later chunk *)
Lemma hdr_next t3 last h p rep y : c_len h <> 0 -> c_ext h = p_ext p && negb (is_off t3) -> 0 <= p_field p < 4294967296 ->
  hdr_mode t3 rep (p_ext p) last (p_field p) ->
  parse_hdr t3 last h 3 ((if p_ext p && rep then be 4 (p_field p) else []) ++ y) =
  HDone h last (next_t3 t3 (p_ext p)) (len (if p_ext p && rep then be 4 (p_field p) else [])).
Proof.
  intros HL HE HF (MO1 & MO2). unfold parse_hdr. cbn [Z.leb Z.compare Pos.compare Pos.compare_cont].
  assert (EQ : p_ext p && rep = p_ext p && negb (is_off t3)).
  { destruct (p_ext p); [|reflexivity]. unfold mode_ok in MO1. destruct t3; cbn; try congruence. apply MO2; reflexivity. }
  rewrite EQ, HE. unfold hdr_ext, hdr_finish, next_t3. replace (c_len h =? 0) with false by lia.
  destruct t3; cbn [is_off is_auto negb andb] in *; rewrite ?andb_false_r, ?andb_true_r.
  - reflexivity.
  - destruct (p_ext p); [|reflexivity]. rewrite be4_eq. reflexivity.
  - destruct (p_ext p); [|reflexivity]. destruct (MO2 eq_refl eq_refl) as (_ & E). rewrite be4_eq. cbn [app].
    rewrite be32_be by lia. rewrite E, Z.eqb_refl. reflexivity.
Qed.

(* ---- sender and decoder agree ---- *)

Definition strel (c : cfg) (t3 : t3_mode) (cs : Z) (p : pst) (x : chdr * list (list Z)) : Prop :=
  let h := fst x in
  x_csid (p_msg p) = cs /\
  c_mlen h = zlen (x_body (p_msg p)) /\ c_type h = x_type (p_msg p) /\ c_msid h = x_msid (p_msg p) /\
  c_dtime h = p_delta p /\ c_ext h = p_ext p && negb (is_off t3) /\
  (p_left p = [] -> c_ts h = x_ts (p_msg p) /\ c_len h = 0 /\ snd x = []) /\
  (p_left p <> [] -> msg_ok 4 (max_streams c) (max_message c) (p_msg p) /\ x_type (p_msg p) <> 1 /\
     0 <= p_field p < 4294967296 /\
     u32 (c_ts h + c_dtime h) = x_ts (p_msg p) /\ c_len h = zlen (x_body (p_msg p)) - zlen (p_left p) /\
     0 < c_len h /\ concat (snd x) ++ p_left p = x_body (p_msg p)).

Definition srel (c : cfg) (t3 : t3_mode) (last : Z) (n : sender) (d : dst) : Prop :=
  d_t3 d = t3 /\ d_last d = last /\ d_chunk d = n_chunk n /\ 4 <= n_chunk n <= 10485760 /\
  map view (d_out d) = filter known (n_done n) /\
  Forall (fun m => m_mlen m = len (concat (m_bufs m))) (d_out d) /\
  len (d_streams d) = max_streams c /\
  (forall cs, 2 <= cs < max_streams c -> strel c t3 cs (n_st n cs) (dstream d cs)).

Lemma dstream_dset d cs x l t k : 0 <= cs < len (d_streams d) -> 0 <= k ->
  dstream (dset d cs x l t) k = if k =? cs then x else dstream d k.
Proof.
  intros H HK. unfold dstream, dset. cbn [d_streams]. unfold len in H. destruct (k =? cs) eqn:E.
  - assert (k = cs) as -> by lia. apply nth_set_nth_eq. lia.
  - apply nth_set_nth_neq. lia.
Qed.

Lemma dstream_chunk d z k : 1 <= z <= 10485760 ->
  dstream (dset_chunk d z) k = (fst (dstream d k), repack_get (z + max_chunk_header) (snd (dstream d k))).
Proof.
  intros H. unfold dset_chunk, max_chunk_size. replace (z <? 1) with false by lia. replace (z >? 10485760) with false by lia.
  unfold dstream. cbn [d_streams].
  set (f := fun x : chdr * list (list Z) => (fst x, repack_get (z + max_chunk_header) (snd x))).
  change (chdr0, []) with (f (chdr0, [])) at 1. rewrite map_nth. reflexivity.
Qed.

(* only how the bytes are spread over buffers may change *)
Lemma strel_repack c t3 cs p h bs cap : 1 <= cap -> strel c t3 cs p (h, bs) -> strel c t3 cs p (h, repack_get cap bs).
Proof.
  intros HC (A1 & A2 & A3 & A4 & A5 & A6 & A8 & A9). unfold strel in *. cbn [fst snd] in *.
  repeat (split; [solve [auto]|]). split.
  - intros H. destruct (A8 H) as (B1 & B2 & ->). repeat split; auto.
  - intros H. rewrite repack_get_concat by exact HC. exact (A9 H).
Qed.

(* one chunk was decoded: body is what was left of the message before it *)
Lemma chunk_step c t3 last t1 n d cs h1 l1 k u left p1 rest :
  srel c t3 last n d -> is_off t1 = is_off t3 -> (forall l, accept c l = true) ->
  2 <= cs < max_streams c ->
  (* the header as it is after the first or the later chunk's header *)
  x_csid (p_msg p1) = cs -> msg_ok 4 (max_streams c) (max_message c) (p_msg p1) ->
  c_mlen h1 = zlen (x_body (p_msg p1)) -> c_type h1 = x_type (p_msg p1) -> c_msid h1 = x_msid (p_msg p1) ->
  c_dtime h1 = p_delta p1 -> c_ext h1 = p_ext p1 && negb (is_off t3) ->
  0 <= p_field p1 < 4294967296 ->
  u32 (c_ts h1 + c_dtime h1) = x_ts (p_msg p1) ->
  c_len h1 = zlen (x_body (p_msg p1)) - zlen left ->
  concat (snd (dstream d cs)) ++ left = x_body (p_msg p1) ->
  p_left p1 = zdrop (n_chunk n) left ->
  (x_type (p_msg p1) = 1 -> snd (dstream d cs) = []) ->
  0 <= k <= len u -> drop k u = ztake (n_chunk n) left ++ rest ->
  exists d1, dbody c d cs h1 l1 t1 k u = DDone d1 rest /\ srel c t1 l1 (n_sent n p1) d1.
Proof.
  intros (R1 & R1a & R2 & R3 & R4 & R4a & R5 & R6t) HOFF ACC HCS X1 MO H1 H2 H3 H4 H5 HF H7 H8 H9 PL T1 HK HU.
  assert (R6 : forall cs, 2 <= cs < max_streams c -> strel c t1 cs (n_st n cs) (dstream d cs)).
  { intros k0 HK0. specialize (R6t k0 HK0). unfold strel in *. rewrite HOFF. exact R6t. }
  rewrite <- HOFF in H5.
  set (m := p_msg p1) in *. pose proof MO as (MO1 & MO2 & MO3 & MO4 & MO5 & MO6 & MO7 & MO8).
  change (2 ^ 24) with 16777216 in MO5. change (2 ^ 32) with 4294967296 in *.
  assert (ZL : zlen left <= zlen (x_body m)).
  { rewrite <- H9. unfold zlen. rewrite app_length. lia. }
  assert (ZL0 : 0 <= zlen left) by (unfold zlen; lia).
  unfold dbody. cbv zeta. rewrite H1, H8.
  replace (zlen (x_body m) - (zlen (x_body m) - zlen left)) with (zlen left) by lia.
  rewrite (u32_small (zlen left)) by lia. rewrite R2.
  assert (LU : len u - k = len (ztake (n_chunk n) left) + len rest).
  { rewrite <- (len_drop _ k u HK), HU, len_app. reflexivity. }
  assert (LT : len (ztake (n_chunk n) left) = Z.min (zlen left) (n_chunk n)).
  { unfold ztake, len, zlen. rewrite firstn_length. lia. }
  pose proof (len_nonneg _ rest) as LR.
  replace (len u - k <? Z.min (zlen left) (n_chunk n)) with false by lia.
  (* the bytes of the chunk *)
  assert (DT : forall j, j = len (ztake (n_chunk n) left) -> drop k (take (k + j) u) = ztake (n_chunk n) left /\ drop (k + j) u = rest).
  { intros j Hj. split.
    - rewrite drop_take by lia. rewrite HU. replace (k + j - k) with j by lia. rewrite Hj. apply take_app_exact.
    - replace (k + j) with (j + k) by lia. rewrite <- drop_drop by lia. rewrite HU, Hj. apply drop_app_exact. }
  destruct (zlen left >? n_chunk n) eqn:E.
  - (* the message goes on *)
    destruct (DT (n_chunk n) ltac:(lia)) as (D1 & D2). rewrite D1, D2.
    eexists. split; [reflexivity|].
    assert (NL : p_left p1 <> []).
    { rewrite PL. intros X. apply (f_equal (@length Z)) in X. unfold zdrop in X. rewrite skipn_length in X. cbn in X. unfold zlen in *. lia. }
    assert (LL : zlen (p_left p1) = zlen left - n_chunk n).
    { rewrite PL. unfold zdrop, zlen. rewrite skipn_length. unfold zlen in *. lia. }
    unfold n_sent. destruct (p_left p1) as [|q0 q] eqn:EPL; [congruence|]. rewrite <- EPL in *.
    unfold srel. cbn [dset d_t3 d_last d_chunk d_out d_streams n_chunk n_done n_st].
    repeat (split; [solve [auto]|]). split; [rewrite len_set_nth; exact R5|].
    intros k1 HK1. unfold upd. fold m. rewrite X1.
    rewrite (dstream_dset d cs _ l1 t1 k1) by lia.
    destruct (k1 =? cs) eqn:EK; [|apply R6; exact HK1].
    unfold strel. cbn [fst snd set_len c_mlen c_type c_msid c_dtime c_ext c_ts c_len]. fold m.
    split; [lia|]. repeat (split; [solve [auto]|]). split; [congruence|].
    intros _. split; [exact MO|]. split.
    { intros XT. destruct (MO8 XT) as (B1 & _). lia. }
    split; [exact HF|]. split; [exact H7|].
    assert (u32 (zlen (x_body m) - zlen left + n_chunk n) = zlen (x_body m) - zlen left + n_chunk n) as EU.
    { apply u32_small. lia. }
    rewrite EU. split; [lia|]. split; [lia|].
    rewrite concat_app. cbn [concat]. rewrite app_nil_r, <- app_assoc. rewrite PL.
    unfold ztake, zdrop. rewrite firstn_skipn. exact H9.
  - (* the message is complete *)
    destruct (DT (zlen left) ltac:(lia)) as (D1 & D2). rewrite D1, D2.
    assert (ET : ztake (n_chunk n) left = left).
    { unfold ztake. apply firstn_all2. unfold zlen in *. lia. }
    assert (NL : p_left p1 = []).
    { rewrite PL. unfold zdrop. apply skipn_all2. unfold zlen in *. lia. }
    rewrite ET.
    set (h2 := set_ts (set_len h1 0) (u32 (c_ts h1 + c_dtime h1)) (c_dtime h1)).
    set (d1 := dset d cs (h2, []) l1 t1).
    set (bs := snd (dstream d cs) ++ [left]).
    assert (CB : concat bs = x_body m).
    { unfold bs. rewrite concat_app. cbn [concat]. rewrite app_nil_r. exact H9. }
    (* the streams after it *)
    assert (ST : forall k1, 2 <= k1 < max_streams c -> strel c t1 k1 (upd (n_st n) (x_csid m) p1 k1) (dstream d1 k1)).
    { intros k1 HK1. unfold upd. rewrite X1. unfold d1. rewrite (dstream_dset d cs _ l1 t1 k1) by lia.
      destruct (k1 =? cs) eqn:EK; [|apply R6; exact HK1].
      unfold strel. cbn [fst snd h2 set_ts set_len c_mlen c_type c_msid c_dtime c_ext c_ts c_len]. fold m.
      do 6 (split; [solve [auto; lia]|]). split; [auto|congruence]. }
    unfold ddeliver. cbv zeta.
    change (c_type h2) with (c_type h1). change (c_ts h2) with (u32 (c_ts h1 + c_dtime h1)).
    change (c_mlen h2) with (c_mlen h1). change (c_msid h2) with (c_msid h1).
    rewrite H2, H3, H7, H1.
    unfold n_sent. rewrite NL. fold m.
    destruct (x_type m >? msg_max) eqn:EM.
    + eexists. split; [reflexivity|].
      assert (x_type m =? 1 = false) as E1 by (unfold msg_max in *; lia).
      unfold srel, d1. cbn [dset d_t3 d_last d_chunk d_out d_streams n_chunk n_done n_st]. rewrite E1.
      repeat (split; [solve [auto]|]). split.
      { rewrite filter_app. cbn [filter]. unfold known at 2. replace (x_type m <=? 22) with false by (unfold msg_max in *; lia).
        rewrite app_nil_r. exact R4. }
      split; [exact R4a|].
      split; [rewrite len_set_nth; exact R5|exact ST].
    + set (mm := Msg cs (x_ts m) (zlen (x_body m)) (x_type m) (x_msid m) bs).
      rewrite ACC.
      set (d2 := Dst (d_streams d1) (d_last d1) (d_t3 d1) (d_chunk d1) (d_out d1 ++ [mm])).
      eexists. split; [reflexivity|].
      assert (VO : map view (d_out d2) = filter known (n_done n ++ [m])).
      { unfold d2, d1. cbn [d_out dset]. rewrite map_app, filter_app, R4. f_equal. cbn [map filter].
        unfold known. replace (x_type m <=? 22) with true by (unfold msg_max in *; lia). f_equal.
        unfold view, mm. cbn [m_csid m_ts m_type m_msid m_bufs]. rewrite CB.
        rewrite <- X1. destruct m; reflexivity. }
      assert (VL : Forall (fun m => m_mlen m = len (concat (m_bufs m))) (d_out d2)).
      { unfold d2, d1. cbn [d_out dset]. apply Forall_app. split; [exact R4a|]. constructor; [|constructor].
        unfold mm. cbn [m_mlen m_bufs]. rewrite CB. reflexivity. }
      unfold dprotocol. cbn [m_type mm m_bufs]. unfold msg_chunk_size.
      destruct (x_type m =? 1) eqn:E1.
      * destruct (MO8 ltac:(lia)) as (B1 & B2).
        assert (EB : bs = [x_body m]).
        { unfold bs in *. rewrite (T1 ltac:(lia)) in *. cbn [app concat] in *. rewrite app_nil_r in CB. rewrite CB. reflexivity. }
        rewrite EB. unfold zlen in B1.
        destruct (x_body m) as [|a0 [|a1 [|a2 [|a3 [|a4 r]]]]] eqn:EBD; cbn [length] in B1; try lia.
        assert (EZ : be32 a0 a1 a2 a3 = unbe [a0; a1; a2; a3]).
        { unfold be32, unbe. cbn [rev app unle]. ring. }
        rewrite EZ. set (z := unbe [a0; a1; a2; a3]) in *.
        unfold srel. cbn [n_chunk n_done n_st].
        assert (DC : d_t3 (dset_chunk d2 z) = t1 /\ d_last (dset_chunk d2 z) = l1 /\ d_chunk (dset_chunk d2 z) = z /\ d_out (dset_chunk d2 z) = d_out d2 /\
                     len (d_streams (dset_chunk d2 z)) = max_streams c).
        { unfold dset_chunk, max_chunk_size. replace (z <? 1) with false by lia. replace (z >? 10485760) with false by lia.
          cbn [d_t3 d_last d_chunk d_out d_streams]. do 4 (split; [reflexivity|]).
          unfold len. rewrite map_length. unfold d2, d1. cbn [d_streams dset]. rewrite set_nth_length. exact R5. }
        destruct DC as (DC1 & DC1a & DC2 & DC3 & DC4).
        split; [exact DC1|]. split; [exact DC1a|]. split; [exact DC2|]. split; [lia|]. split; [rewrite DC3; exact VO|]. split; [rewrite DC3; exact VL|]. split; [exact DC4|].
        intros k1 HK1. rewrite dstream_chunk by lia.
        apply strel_repack; [unfold max_chunk_header; lia|]. specialize (ST k1 HK1).
        change (dstream d2 k1) with (dstream d1 k1). destruct (dstream d1 k1). exact ST.
      * unfold srel. cbn [n_chunk n_done n_st]. split; [reflexivity|]. split; [reflexivity|]. split; [exact R2|]. split; [exact R3|].
        split; [exact VO|]. split; [exact VL|]. split; [unfold d2, d1; cbn [d_streams dset]; rewrite len_set_nth; exact R5|exact ST].
Qed.

(* which chunk makes a reader decide, and the timestamp field it remembers *)
Definition act_ext (n : sender) (a : act) : bool :=
  match a with
  | Start form fmt m => (fmt =? 3) && p_ext (n_st n (x_csid m))
  | Next _ cs => p_ext (n_st n cs)
  end.
Definition act_field (n : sender) (a : act) : Z :=
  match a with
  | Start form fmt m => w_field (n_st n (x_csid m)) fmt m
  | Next _ cs => p_field (n_st n cs)
  end.
Definition act_last (last : Z) (n : sender) (a : act) : Z :=
  match a with
  | Start form fmt m => w_field (n_st n (x_csid m)) fmt m
  | Next _ cs => last
  end.

Lemma drop3 (a b e z : list Z) : drop (len a + (len b + len e)) (a ++ b ++ e ++ z) = z.
Proof.
  replace (len a + (len b + len e)) with (len (a ++ b ++ e)) by (rewrite !len_app; lia).
  replace (a ++ b ++ e ++ z) with ((a ++ b ++ e) ++ z) by (rewrite <- !app_assoc; reflexivity). apply drop_app_exact.
Qed.

Lemma act_dec c t3 last rep n d a rest : srel c t3 last n d -> (forall l, accept c l = true) ->
  act_ok 4 (max_streams c) (max_message c) n a -> hdr_mode t3 rep (act_ext n a) last (act_field n a) ->
  exists d1, dec c d (w_act rep n a ++ rest) = DDone d1 rest /\ srel c (next_t3 t3 (act_ext n a)) (act_last last n a) (n_act n a) d1.
Proof.
  intros R ACC OK MD.
  assert (HOFF : forall e, is_off (next_t3 t3 e) = is_off t3) by (intros e; unfold next_t3; destruct t3, e; reflexivity).
  pose proof R as (R1 & R1a & R2 & R3 & R4 & R4a & R5 & R6). destruct a as [form fmt m|form cs].
  - destruct OK as (MO & FO & HF & PL & A1 & A2 & A3). cbn [act_ext act_field act_last] in *.
    pose proof MO as (MO1 & MO2 & MO3 & MO4 & MO5 & MO6 & MO7 & MO8).
    change (2 ^ 24) with 16777216 in MO5. change (2 ^ 32) with 4294967296 in *.
    set (cs := x_csid m) in *. set (p := n_st n cs) in *.
    destruct (R6 cs MO1) as (S1 & S2 & S3 & S4 & S5 & S6 & S8 & _). fold p in S1, S2, S3, S4, S5, S6, S8.
    destruct (S8 PL) as (S9 & S10 & S11).
    cbn [w_act n_act]. fold cs p.
    set (f := w_field p fmt m) in *.
    assert (Hf : 0 <= f < 4294967296).
    { unfold f, w_field. destruct (fmt =? 0); [lia|]. pose proof (u32_nonneg (x_ts m - x_ts (p_msg p))).
      pose proof (u32_lt (x_ts m - x_ts (p_msg p))). lia. }
    rewrite <- !app_assoc.
    destruct (parse_basic_w form fmt cs (w_mhdr fmt f m ++ w_ext rep p fmt f ++ ztake (n_chunk n) (x_body m) ++ rest) FO HF) as (PB & LB).
    unfold dec. rewrite PB. replace (cs >=? max_streams c) with false by lia.
    rewrite R1, R1a.
    assert (DB : drop form (w_basic form fmt cs ++ w_mhdr fmt f m ++ w_ext rep p fmt f ++ ztake (n_chunk n) (x_body m) ++ rest)
             = w_mhdr fmt f m ++ w_ext rep p fmt f ++ ztake (n_chunk n) (x_body m) ++ rest).
    { rewrite <- LB at 1. apply drop_app_exact. }
    rewrite DB.
    pose proof (hdr_start t3 last (fst (dstream d cs)) fmt p m rep (ztake (n_chunk n) (x_body m) ++ rest)) as PH.
    fold f in PH. rewrite PH; clear PH.
    2:{ exact HF. } 2:{ exact S10. } 2:{ exact Hf. } 2:{ exact MO5. } 2:{ lia. } 2:{ exact MO4. }
    2:{ intros X. rewrite S4. symmetry. apply A1, X. }
    2:{ intros X. rewrite S3, S2. destruct (A2 X). auto. }
    2:{ intros X. rewrite S5. symmetry. apply A3, X. }
    2:{ exact S6. } 2:{ exact MD. }
    cbn [c_mlen].
    replace (zlen (x_body m) >? max_message c) with false by lia.
    set (p1 := PSt m (if fmt =? 0 then 0 else f) f (w_has_ext p fmt f) (zdrop (n_chunk n) (x_body m))).
    apply (chunk_step c t3 last _ n d cs _ _ _ _ (x_body m) p1); auto.
    + (* the time *)
      cbn [c_ts c_dtime p1 p_msg]. destruct (fmt =? 0) eqn:E0.
      * unfold f, w_field. rewrite E0. rewrite Z.add_0_r. apply u32_small. lia.
      * rewrite S9. unfold f, w_field. rewrite E0. unfold u32. rewrite Z.add_mod_idemp_r by lia.
        replace (x_ts (p_msg p) + (x_ts m - x_ts (p_msg p))) with (x_ts m) by lia. apply Z.mod_small. lia.
    + cbn [c_len p1 p_msg]. lia.
    + rewrite S11. reflexivity.
    + pose proof (len_nonneg _ (w_mhdr fmt f m)). pose proof (len_nonneg _ (w_ext rep p fmt f)).
      pose proof (len_nonneg _ (ztake (n_chunk n) (x_body m) ++ rest)).
      pose proof (len_nonneg _ (w_basic form fmt cs)). rewrite !len_app in *. lia.
    + rewrite <- LB at 1. apply drop3.
  - destruct OK as (HC & FO & PL). cbn [w_act n_act act_ext act_field act_last] in *.
    set (p := n_st n cs) in *.
    destruct (R6 cs HC) as (S1 & S2 & S3 & S4 & S5 & S6 & _ & S8). fold p in S1, S2, S3, S4, S5, S6, S8.
    destruct (S8 PL) as (MO & S9 & S10 & S11 & S12 & S13 & S14).
    pose proof MO as (MO1 & MO2 & MO3 & MO4 & MO5 & MO6 & MO7 & MO8).
    rewrite <- !app_assoc.
    set (x := if p_ext p && rep then be 4 (p_field p) else []).
    destruct (parse_basic_w form 3 cs (x ++ ztake (n_chunk n) (p_left p) ++ rest) FO ltac:(lia)) as (PB & LB).
    unfold dec. rewrite PB. replace (cs >=? max_streams c) with false by lia. rewrite R1, R1a.
    assert (DB : drop form (w_basic form 3 cs ++ x ++ ztake (n_chunk n) (p_left p) ++ rest) = x ++ ztake (n_chunk n) (p_left p) ++ rest).
    { rewrite <- LB at 1. apply drop_app_exact. }
    rewrite DB. unfold x at 1.
    rewrite hdr_next by (auto; lia). fold x.
    rewrite S2. replace (zlen (x_body (p_msg p)) >? max_message c) with false by lia.
    set (p1 := PSt (p_msg p) (p_delta p) (p_field p) (p_ext p) (zdrop (n_chunk n) (p_left p))).
    apply (chunk_step c t3 last _ n d cs _ _ _ _ (p_left p) p1); auto.
    + intros X. cbn [p1 p_msg] in X. congruence.
    + pose proof (len_nonneg _ x). pose proof (len_nonneg _ (ztake (n_chunk n) (p_left p) ++ rest)).
      pose proof (len_nonneg _ (w_basic form 3 cs)). rewrite !len_app in *. lia.
    + rewrite <- LB at 1. replace (len (w_basic form 3 cs) + len x) with (len (w_basic form 3 cs ++ x)) by (rewrite !len_app; lia).
      rewrite (app_assoc (w_basic form 3 cs)). apply drop_app_exact.
Qed.

Fixpoint acts_mode (t3 : t3_mode) (rep : bool) (last : Z) (n : sender) (l : list act) : Prop :=
  match l with
  | [] => True
  | a :: r => hdr_mode t3 rep (act_ext n a) last (act_field n a) /\
              acts_mode (next_t3 t3 (act_ext n a)) rep (act_last last n a) (n_act n a) r
  end.

Fixpoint n_acts (n : sender) (l : list act) : sender :=
  match l with [] => n | a :: r => n_acts (n_act n a) r end.

Lemma sent_acts n l : sent n l = n_done (n_acts n l).
Proof. revert n. induction l as [|a l IH]; intros n; cbn; auto. Qed.

Lemma acts_dec c rep l : forall t3 last n d, srel c t3 last n d -> (forall x, accept c x = true) ->
  acts_ok 4 (max_streams c) (max_message c) n l -> acts_mode t3 rep last n l ->
  exists t1 last1 d1, decs c d (wire rep n l) (inl (d1, [])) /\ srel c t1 last1 (n_acts n l) d1.
Proof.
  induction l as [|a l IH]; intros t3 last n d R ACC OK MD; cbn [wire n_acts].
  - exists t3, last, d. split; [|exact R]. apply decs_more. reflexivity.
  - destruct OK as (OK1 & OK2). destruct MD as (MD1 & MD2).
    destruct (act_dec c t3 last rep n d a (wire rep (n_act n a) l) R ACC OK1 MD1) as (d1 & E & R1).
    destruct (IH _ _ (n_act n a) d1 R1 ACC OK2 MD2) as (t2 & last2 & d2 & D2 & R2).
    exists t2, last2, d2. split; [|exact R2]. eapply decs_step; eauto.
Qed.

Lemma srel_init c t3 : 0 <= max_streams c -> srel c t3 0 sender0 (dinit c t3).
Proof.
  intros HM. unfold srel, sender0, dinit. cbn [d_t3 d_last d_chunk d_out d_streams n_chunk n_done n_st map filter].
  unfold default_chunk_size. split; [reflexivity|]. split; [reflexivity|]. split; [reflexivity|]. split; [lia|]. split; [reflexivity|]. split; [constructor|].
  split; [unfold len; rewrite repeat_length; lia|].
  intros cs HC. unfold dstream. cbn [d_streams].
  assert (nth (Z.to_nat cs) (repeat (chdr0, @nil (list Z)) (Z.to_nat (max_streams c))) (chdr0, []) = (chdr0, [])) as ->.
  { generalize (Z.to_nat cs) as i. generalize (Z.to_nat (max_streams c)) as k.
    induction k as [|k IH]; intros [|i]; cbn; auto. }
  unfold strel. cbn. repeat split; auto; try congruence.
Qed.

(* ---- the bytes on the wire ---- *)

Lemma le_byte n z : Forall is_byte (le n z).
Proof.
  revert z. induction n as [|n IH]; intros z; cbn [le]; constructor; auto. unfold is_byte. pose proof (Z.mod_pos_bound z 256). lia.
Qed.
Lemma be_byte n z : Forall is_byte (be n z).
Proof. unfold be. apply Forall_rev, le_byte. Qed.

Lemma Forall_if {A} (P : A -> Prop) (b : bool) l : Forall P l -> Forall P (if b then l else []).
Proof. destruct b; auto. Qed.

Lemma Forall_firstn {A} (P : A -> Prop) n l : Forall P l -> Forall P (firstn n l).
Proof. intros H. rewrite <- (firstn_skipn n l) in H. apply Forall_app in H. apply H. Qed.
Lemma Forall_skipn {A} (P : A -> Prop) n l : Forall P l -> Forall P (skipn n l).
Proof. intros H. rewrite <- (firstn_skipn n l) in H. apply Forall_app in H. apply H. Qed.

Lemma w_basic_byte form fmt cs : form_ok form cs -> 0 <= fmt <= 3 -> Forall is_byte (w_basic form fmt cs).
Proof.
  intros H HF. unfold w_basic. destruct H as [(-> & H)|[(-> & H)|(-> & H)]]; cbn [Z.eqb Pos.eqb].
  - repeat constructor; unfold is_byte; lia.
  - repeat constructor; unfold is_byte; lia.
  - constructor; [unfold is_byte; lia|apply le_byte].
Qed.

Lemma wire_byte lo ms mm rep l : forall n, (forall cs, Forall is_byte (p_left (n_st n cs))) ->
  acts_ok lo ms mm n l -> Forall is_byte (wire rep n l).
Proof.
  induction l as [|a l IH]; intros n HN OK; cbn [wire]; [constructor|]. destruct OK as (OK1 & OK2).
  apply Forall_app. split.
  - destruct a as [form fmt m|form cs]; cbn [w_act].
    + destruct OK1 as (MO & FO & HF & _). destruct MO as (M1 & M2 & M3 & M4 & M5 & M6 & M7 & _).
      repeat (apply Forall_app; split); auto using w_basic_byte, Forall_if, be_byte, le_byte.
      * apply Forall_if. apply Forall_app. split; [apply be_byte|]. repeat constructor; lia.
      * apply Forall_if. apply be_byte.
      * apply Forall_firstn. exact M7.
    + destruct OK1 as (HC & FO & PL).
      repeat (apply Forall_app; split); [apply w_basic_byte; auto; lia|apply Forall_if, be_byte|apply Forall_firstn, HN].
  - apply IH; [|exact OK2]. intros cs.
    assert (G : forall p, Forall is_byte (p_left p) -> Forall is_byte (p_left (n_st (n_sent n p) cs))).
    { intros p HP. unfold n_sent. destruct (p_left p) eqn:E; cbn [n_st]; unfold upd; destruct (cs =? _); auto; rewrite E; auto. }
    destruct a as [form fmt m|form cs1]; cbn [n_act]; apply G; cbn [p_left]; apply Forall_skipn.
    + destruct OK1 as (MO & _). apply MO.
    + apply HN.
Qed.

Lemma fixed_mode t3 rep l : (t3 = T3On /\ rep = true) \/ (t3 = T3Off /\ rep = false) -> forall last n, acts_mode t3 rep last n l.
Proof.
  intros H. assert (E : forall e, next_t3 t3 e = t3) by (intros e; destruct H as [(-> & _)|(-> & _)]; destruct e; reflexivity).
  induction l as [|a l IH]; intros last n; cbn [acts_mode]; [auto|]. split; [|rewrite E; apply IH].
  split; destruct H as [(-> & ->)|(-> & ->)]; try reflexivity; discriminate.
Qed.

Lemma auto_mode rep l : forall last n, auto_ok rep last n l -> acts_mode T3Auto rep last n l.
Proof.
  induction l as [|a l IH]; intros last n H; cbn [acts_mode]; [auto|].
  destruct a as [form fmt m|form cs]; cbn [auto_ok act_ext act_field act_last] in *.
  - destruct ((fmt =? 3) && p_ext (n_st n (x_csid m))).
    + destruct H as (-> & H). split; [split; cbn; auto|]. apply fixed_mode. left. auto.
    + split; [split; cbn; auto; discriminate|]. apply IH. exact H.
  - destruct (p_ext (n_st n cs)).
    + destruct H as (-> & H). split; [split; cbn; auto|]. apply fixed_mode. left. auto.
    + split; [split; cbn; auto; discriminate|]. apply IH. exact H.
Qed.

(* ---- what was delivered stays delivered ---- *)

Definition outs (x : (dst * list Z) + list msg) : list msg := match x with inl (d, _) => d_out d | inr o => o end.

Lemma dprotocol_out d m : d_out (dprotocol d m) = d_out d.
Proof.
  unfold dprotocol. destruct (_ =? _); [|reflexivity].
  destruct (m_bufs m) as [|[|x0 [|x1 [|x2 [|x3 rr]]]] l0]; try reflexivity.
  unfold dset_chunk. destruct (_ <? _); [reflexivity|]. destruct (_ >? _); reflexivity.
Qed.

Lemma dec_out c d u : match dec c d u with
  | DMore => True
  | DClose o => exists e, o = d_out d ++ e /\ Forall (fun m => m_mlen m <= max_message c) e
  | DDone d1 _ => exists e, d_out d1 = d_out d ++ e /\ Forall (fun m => m_mlen m <= max_message c) e
  end.
Proof.
  unfold dec. destruct (parse_basic u) as [[[fmt csid] n]|]; [|auto].
  destruct (csid >=? max_streams c); [exists []; rewrite app_nil_r; auto|].
  destruct (parse_hdr _ _ _ _ (drop n u)) as [h|h last t3 n1]; [auto|].
  destruct (c_mlen h >? max_message c) eqn:EM; [exists []; rewrite app_nil_r; auto|].
  unfold dbody. cbv zeta. destruct (_ <? _); [auto|].
  destruct (_ >? d_chunk d); [exists []; rewrite app_nil_r; auto|].
  unfold ddeliver. cbv zeta. destruct (_ >? msg_max); [exists []; rewrite app_nil_r; auto|].
  destruct (accept c _); rewrite dprotocol_out; cbn [d_out dset]; eexists; split; try reflexivity;
    constructor; try constructor; cbn; lia.
Qed.

Lemma decs_out c d u x : decs c d u x -> exists e, outs x = d_out d ++ e /\ Forall (fun m => m_mlen m <= max_message c) e.
Proof.
  induction 1 as [d u E|d u o E|d u d1 r x E H IH].
  - exists []. cbn. rewrite app_nil_r. auto.
  - pose proof (dec_out c d u) as D. rewrite E in D. exact D.
  - pose proof (dec_out c d u) as D. rewrite E in D. destruct D as (e1 & D1 & D2). destruct IH as (e2 & I1 & I2).
    exists (e1 ++ e2). rewrite I1, D1, app_assoc. split; [reflexivity|]. apply Forall_app. auto.
Qed.

(* ---- every positive read takes bytes ---- *)

Lemma run_length ks : forall c s d u net, waits c s d u -> dec c d u = DMore -> Forall is_byte u -> Forall is_byte net ->
  Forall (fun k => 0 < k) ks -> (length net <= length ks)%nat ->
  forall s1 rest, run c s net ks = Some (Go s1, rest) -> rest = [].
Proof.
  induction ks as [|k ks IH]; intros c s d u net W ED FU FN FK HL s1 rest.
  { cbn. destruct net; [|cbn in HL; lia]. congruence. }
  apply Forall_cons_iff in FK. destruct FK as (FK1 & FK2).
  destruct (run_ok [k] c s d u net W ED FU FN) as [(s2 & d2 & u2 & p & rest2 & Q1 & Q2 & Q3 & Q4)|(o & p & rest2 & Q1 & Q2 & Q3)].
  - cbn [run] in *. destruct (read_net c s net k) as [[[s3|o3] net3]|] eqn:ER; try discriminate.
    assert (s3 = s2 /\ net3 = rest2) as (-> & ->) by (split; congruence). clear Q1.
    pose proof FN as FN1. rewrite Q2 in FN1. apply Forall_app in FN1. destruct FN1 as (FP & FR).
    pose proof (waits_chunk c s d u W) as HC.
    destruct (decs_bytes c d _ d2 u2 Q3 HC) as (FU2 & ED2); [apply Forall_app; auto|].
    eapply IH; eauto.
    destruct net as [|z net'].
    { destruct p, rest2; cbn in Q2; try discriminate. cbn. lia. }
    unfold read_net in ER. destruct (ready_ok c s d u W) as (s4 & E4 & A4). rewrite E4 in ER.
    replace ((k <=? 0) || (len (z :: net') =? 0)) with false in ER by (unfold len; cbn [length]; lia).
    pose proof (room_pos c s4 d u A4 ED) as RP.
    destruct (recv_read c s4 _) as [r|]; [|discriminate].
    assert (ED3 : drop (Z.min k (Z.min (room s4) (len (z :: net')))) (z :: net') = rest2) by congruence.
    rewrite <- ED3. unfold drop. rewrite skipn_length. unfold len. cbn [length] in *. lia.
  - cbn [run] in *. destruct (read_net c s net k) as [[[s3|o3] net3]|] eqn:ER; try discriminate.
Qed.

(* decoding ends *)
Lemma decs_total c : forall d u, 1 <= d_chunk d -> exists y, decs c d u y.
Proof.
  intros d u. remember (length u) as n eqn:EN. revert d u EN.
  induction n as [n IH] using lt_wf_ind. intros d u -> HC.
  destruct (dec c d u) as [|o|d1 r] eqn:E.
  - eexists. apply decs_more. exact E.
  - eexists. apply decs_close. exact E.
  - destruct (dec_rest c d u d1 r ltac:(lia) E) as (k & HK & ->).
    destruct (IH (length (drop k u))) with (d := d1) (u := drop k u) as (y & Y); auto.
    + unfold drop. rewrite skipn_length. unfold len in HK. lia.
    + eapply dec_chunk; eauto.
    + exists y. eapply decs_step; eauto.
Qed.

(* ---- checking a history by computation ---- *)

Definition byteb (z : Z) : bool := (0 <=? z) && (z <? 256).
Definition imp (a b : bool) : bool := negb a || b.
Definition form_okb (form cs : Z) : bool :=
  ((form =? 1) && (2 <=? cs) && (cs <=? 63)) || ((form =? 2) && (64 <=? cs) && (cs <=? 319)) ||
  ((form =? 3) && (64 <=? cs) && (cs <=? 65599)).
Definition msg_okb (lo ms mm : Z) (m : smsg) : bool :=
  (2 <=? x_csid m) && (x_csid m <? ms) && (0 <=? x_ts m) && (x_ts m <? 4294967296) && (0 <=? x_type m) && (x_type m <? 256) &&
  (0 <=? x_msid m) && (x_msid m <? 4294967296) && (zlen (x_body m) <? 16777216) && (zlen (x_body m) <=? mm) &&
  forallb byteb (x_body m) &&
  imp (x_type m =? 1) ((zlen (x_body m) =? 4) && (lo <=? unbe (x_body m)) && (unbe (x_body m) <=? 10485760)).
Definition nilb (l : list Z) : bool := match l with [] => true | _ => false end.
Definition act_okb (lo ms mm : Z) (n : sender) (a : act) : bool :=
  match a with
  | Start form fmt m =>
      let p := n_st n (x_csid m) in
      msg_okb lo ms mm m && form_okb form (x_csid m) && (0 <=? fmt) && (fmt <=? 3) && nilb (p_left p) &&
      imp (1 <=? fmt) (x_msid m =? x_msid (p_msg p)) &&
      imp (2 <=? fmt) ((x_type m =? x_type (p_msg p)) && (zlen (x_body m) =? zlen (x_body (p_msg p)))) &&
      imp (3 <=? fmt) (w_field p fmt m =? p_delta p)
  | Next form cs => (2 <=? cs) && (cs <? ms) && form_okb form cs && negb (nilb (p_left (n_st n cs)))
  end.
Fixpoint acts_okb (lo ms mm : Z) (n : sender) (l : list act) : bool :=
  match l with [] => true | a :: r => act_okb lo ms mm n a && acts_okb lo ms mm (n_act n a) r end.

Lemma imp_true a b : imp a b = true -> a = true -> b = true.
Proof. destruct a, b; cbn; congruence. Qed.
Lemma bytes_ok l : forallb byteb l = true -> Forall is_byte l.
Proof. intros H. apply Forall_forall. intros z HZ. rewrite forallb_forall in H. specialize (H z HZ). unfold byteb, is_byte in *. lia. Qed.
Lemma form_okb_ok form cs : form_okb form cs = true -> form_ok form cs.
Proof. unfold form_okb, form_ok. lia. Qed.
Lemma msg_okb_ok lo ms mm m : msg_okb lo ms mm m = true -> msg_ok lo ms mm m.
Proof.
  unfold msg_okb, msg_ok. rewrite !andb_true_iff. intros H. decompose [and] H.
  change (2 ^ 32) with 4294967296. change (2 ^ 24) with 16777216.
  split; [lia|]. split; [lia|]. split; [lia|]. split; [lia|]. split; [lia|]. split; [lia|].
  split; [apply bytes_ok; assumption|]. intros E.
  match goal with X : imp _ _ = true |- _ => pose proof (imp_true _ _ X ltac:(lia)) as Y end.
  rewrite !andb_true_iff in Y. lia.
Qed.
Lemma nilb_ok l : nilb l = true <-> l = [].
Proof. destruct l; cbn; split; congruence. Qed.
Lemma act_okb_ok lo ms mm n a : act_okb lo ms mm n a = true -> act_ok lo ms mm n a.
Proof.
  destruct a as [form fmt m|form cs]; cbn [act_okb act_ok]; rewrite !andb_true_iff.
  - intros (((((((H1 & H2) & H3) & H4) & H5) & H6) & H7) & H8).
    split; [apply msg_okb_ok, H1|]. split; [apply form_okb_ok, H2|]. split; [lia|]. split; [apply nilb_ok, H5|].
    split; [intros X; pose proof (imp_true _ _ H6 ltac:(lia)); lia|].
    split; [intros X; pose proof (imp_true _ _ H7 ltac:(lia)) as Y; rewrite andb_true_iff in Y; lia|].
    intros X. pose proof (imp_true _ _ H8 ltac:(lia)). lia.
  - intros (((H1 & H2) & H3) & H4). split; [lia|]. split; [apply form_okb_ok, H3|].
    intros E. apply nilb_ok in E. rewrite E in H4. discriminate.
Qed.
Lemma acts_okb_ok lo ms mm l : forall n, acts_okb lo ms mm n l = true -> acts_ok lo ms mm n l.
Proof.
  induction l as [|a l IH]; intros n; cbn [acts_okb acts_ok]; [auto|].
  rewrite andb_true_iff. intros (H1 & H2). split; [apply act_okb_ok, H1|apply IH, H2].
Qed.
