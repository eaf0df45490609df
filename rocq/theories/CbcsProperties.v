(* The encryption of fragmented mp4 segments with the scheme cbcs: C106 and C107. *)
From Coq Require Import ZArith List Bool Lia ZifyBool Arith.
From Verif Require Import Bytes HlsModel HlsSpec HlsProofs HlsProperties CbcsModel CbcsSpec CbcsProofs CbcsProofs2.
Import ListNotations.
Open Scope Z_scope.

(* ------------------------------------------------------------------ *)
(* C106: for every cipher with an inverse, every vector and every size of the write buffer
   of at least a block: however the frames of a segment, none larger than the buffer, are
   cut into pieces, the whole segment is sent, and a player gets the frames. *)
Theorem cbcs_audio_decrypts_partial E D iv cap (fs l : list (list Z)) :
  cipher E D -> is_block iv -> 16 <= cap ->
  Forall (fun f => Forall is_byte f /\ len f <= cap - cap mod 16) fs ->
  concat l = concat fs ->
  exists xs, cbcs_audio E iv cap (map len fs) l = Ok (concat xs, None)
    /\ Forall2 (fun f x => read_frame D iv x = f /\ length x = length f) fs xs.
Proof. intros ED IV HC G C. exact (cbcs_audio_ok E D ED iv IV cap HC fs l G C). Qed.
Print Assumptions cbcs_audio_decrypts_partial.

Example cbcs_audio_decrypts_case :
  let fs := [text 37; text 5; []; text 48] in
  let l := [text 30; skipn 30 (text 37) ++ text 5 ++ text 1; skipn 1 (text 48)] in
  (Forall (fun f => Forall is_byte f /\ len f <= 64 - 64 mod 16) fs /\ concat l = concat fs)
  /\ match cbcs_audio toyE toy_iv 64 (map len fs) l with
     | Ok (x, None) => Some (map (read_frame toyD toy_iv) [firstn 37 x; firstn 5 (skipn 37 x); []; skipn 42 x])
     | _ => None
     end = Some fs.
Proof.
  split; [|vm_compute; reflexivity]. split; [|vm_compute; reflexivity].
  repeat (apply Forall_cons; [split; [try apply text_bytes; apply Forall_nil | vm_compute; discriminate]|]). apply Forall_nil.
Qed.

(* C106 fails for larger frames: a frame with more whole blocks than fit the write buffer
   is refused when it is written in one piece. *)
Theorem cbcs_audio_large_frame_refuted E D iv cap f :
  cipher E D -> is_block iv -> 16 <= cap -> Forall is_byte f -> cap < len f - len f mod 16 ->
  cbcs_audio E iv cap [len f] [f] = Err.
Proof.
  intros ED IV HC B H. unfold cbcs_audio, aud_writes. assert (0 <? len f = true) as P by lia. cbn [next_frame]. rewrite P. destruct f as [|x f']; [discriminate P|]. set (f := x :: f') in *.
  change (length f) with (S (length f')). unfold f at 2. cbn [aud_loop a_left a_frames a_wb]. change (0 <=? 0) with true. cbv iota. cbn [bind a_left a_trail a_frames a_cbc a_wb]. fold f.
  assert (Z.land (len f) 15 = len f mod 16) as -> by (change 15 with (Z.ones 4); rewrite Z.land_ones by lia; reflexivity).
  assert (len f mod 16 <? len f = true) as -> by lia.
  assert (Z.min (len f - len f mod 16) (len f) = len f - len f mod 16) as -> by lia.
  set (p := firstn (Z.to_nat (len f - len f mod 16)) f). assert (len p = len f - len f mod 16) as LP by (unfold p, len in *; rewrite firstn_length; lia).
  unfold write_encrypted. destruct (cbc_update E (cbc_init iv) p) as [o c]. rewrite LP. unfold w_add. cbn [w_cap w_used w_buf]. 
  assert (round_down (len f - len f mod 16 + 15) = len f - len f mod 16) as -> by (unfold round_down; lia).
  assert (0 <? 0 + (len f - len f mod 16) = true) as -> by lia. cbn [w_flush w_cap w_buf]. assert (cap <? len f - len f mod 16 = true) as -> by lia. reflexivity.
Qed.
Print Assumptions cbcs_audio_large_frame_refuted.

Example cbcs_audio_large_frame_refuted_case : 32 < len (text 50) - len (text 50) mod 16 /\ cbcs_audio toyE toy_iv 32 [50] [text 50] = Err.
Proof. vm_compute. split; reflexivity. Qed.

(* ------------------------------------------------------------------ *)
(* C107: the units of the frames of a segment, stored with size fields of nl bytes.  For
   every way to tell slices and the sizes of their headers, and however the segment is cut
   into pieces: when the last unit of the segment is not short, the whole segment is sent,
   with units of the same sizes; what is clear in a unit is not changed, and a player gets
   the units. *)
Theorem cbcs_video_decrypts_partial E D iv cap slice hdr nl mh (fs : list (list (list Z))) l :
  cipher E D -> is_block iv -> 16 <= cap -> (1 <= nl <= 4)%nat -> 1 <= mh ->
  Forall (fun f => Forall (good_unit slice hdr nl mh) f /\ len (stored nl f) < 2 ^ 31) fs ->
  concat l = concat (map (stored nl) fs) ->
  short_unit slice hdr (last (concat fs) []) = false ->
  exists xs, cbcs_video E slice hdr iv cap nl mh (map (fun f => len (stored nl f)) fs) l = Ok (concat (map (stored nl) xs), None)
    /\ Forall2 (Forall2 (fun u x => let c := clear_size slice hdr u in
         read_unit D iv c x = u /\ length x = length u /\ firstn c x = firstn c u)) fs xs.
Proof.
  intros ED IV HC HN HM G C SH. exists (map (map (enc_unit E iv slice hdr)) fs).
  destruct (cbcs_video_raw E D ED iv IV cap HC slice hdr nl HN mh HM _ fs l G C eq_refl) as (s & o & R1 & R2 & R3).
  rewrite lastb_last, SH in R3. rewrite R3 in R1, R2. rewrite app_nil_r in R2. split.
  - unfold fsize in R1. rewrite R1, R2. f_equal. f_equal. f_equal. rewrite map_map. apply map_ext_in. intros f F. rewrite Forall_forall in G. apply (enc_units_stored E D ED iv IV slice hdr nl HN mh), (G f F).
  - clear C SH R1 R2 R3. induction fs as [|f fs IH]; [apply Forall2_nil|]. cbn [map]. apply Forall2_cons; [|apply IH, (Forall_inv_tail G)]. pose proof (proj1 (Forall_inv G)) as F.
    clear G IH. induction f as [|u f IH]; [apply Forall2_nil|]. cbn [map]. apply Forall2_cons; [apply (read_enc_unit E D ED iv IV slice hdr nl HN mh u), (Forall_inv F) | apply IH, (Forall_inv_tail F)].
Qed.
Print Assumptions cbcs_video_decrypts_partial.

(* units of type 9 are not slices; a header of four bytes *)
Definition toy_slice (t : Z) : option bool := Some (negb (t =? 9)).
Definition toy_hdr (h : list Z) : option nat := Some 4%nat.
Lemma toy_good nl t n : is_byte t -> (n < 1000)%nat -> (2 <= nl <= 4)%nat -> good_unit toy_slice toy_hdr nl 1 (t :: text n).
Proof.
  intros T N L. unfold good_unit. assert (length (text n) = n) as LT by (unfold text; rewrite map_length, seq_length; reflexivity). cbn [length hd]. rewrite LT.
  split; [apply Forall_cons; [exact T | apply text_bytes]|]. split; [lia|]. split.
  - apply Z.lt_le_trans with (256 ^ 2); [lia|]. apply Z.pow_le_mono_r; lia.
  - exists (negb (t =? 9)). split; [reflexivity|]. intros _ H. exists 4%nat. split; [reflexivity|]. rewrite firstn_length. cbn [length]. rewrite LT. lia.
Qed.

Example cbcs_video_decrypts_case :
  let fs := [[9 :: text 1; 101 :: text 350]; []; [65 :: text 17; 65 :: text 30]] in
  let all := concat (map (stored 4) fs) in
  let l := [firstn 7 all; firstn 60 (skipn 7 all); firstn 200 (skipn 67 all); skipn 267 all] in
  (Forall (fun f => Forall (good_unit toy_slice toy_hdr 4 1) f /\ len (stored 4 f) < 2 ^ 31) fs
   /\ concat l = all /\ short_unit toy_slice toy_hdr (last (concat fs) []) = false)
  /\ match cbcs_video toyE toy_slice toy_hdr toy_iv 64 4 1 (map (fun f => len (stored 4 f)) fs) l with
     | Ok (x, None) => (read_unit toyD toy_iv 4 (firstn 351 (skipn 10 x)), read_unit toyD toy_iv 4 (skipn 387 x), hd 0 (skipn 14 x) =? hd 0 (skipn 14 all))
     | _ => ([], [], true)
     end = (101 :: text 350, 65 :: text 30, false).
Proof.
  split; [|vm_compute; reflexivity]. split; [|split; vm_compute; reflexivity].
  apply Forall_cons; [|apply Forall_cons; [|apply Forall_cons; [|apply Forall_nil]]]; (split; [|vm_compute; reflexivity]);
    repeat (apply Forall_cons; [apply toy_good; [unfold is_byte; lia | lia | lia]|]); apply Forall_nil.
Qed.

(* C107 fails for the others: when the last unit of a segment is short, the end of the
   segment is not sent: it stays in the write buffer. *)
Theorem cbcs_video_short_last_unit_refuted E D iv cap slice hdr nl mh (fs : list (list (list Z))) l :
  cipher E D -> is_block iv -> 16 <= cap -> (1 <= nl <= 4)%nat -> 1 <= mh ->
  Forall (fun f => Forall (good_unit slice hdr nl mh) f /\ len (stored nl f) < 2 ^ 31) fs ->
  concat l = concat (map (stored nl) fs) ->
  short_unit slice hdr (last (concat fs) []) = true ->
  exists s b, cbcs_video E slice hdr iv cap nl mh (map (fun f => len (stored nl f)) fs) l = Ok (s, Some b)
    /\ b <> [] /\ len s + len b = len (concat l).
Proof.
  intros ED IV HC HN HM G C SH.
  destruct (cbcs_video_raw E D ED iv IV cap HC slice hdr nl HN mh HM _ fs l G C eq_refl) as (s & o & R1 & R2 & R3).
  rewrite lastb_last, SH in R3. destruct R3 as (b & -> & NB). exists s, b. split; [exact R1|]. split; [exact NB|].
  assert (len s + len b = len (s ++ b)) as -> by (unfold len; rewrite app_length; lia). rewrite R2, C. clear C SH R1 R2 l. unfold len. f_equal.
  induction fs as [|f fs IH]; [reflexivity|]. cbn [map concat]. rewrite !app_length, (IH (Forall_inv_tail G)). f_equal. apply (enc_units_len E D ED iv IV slice hdr nl HN mh), (proj1 (Forall_inv G)).
Qed.
Print Assumptions cbcs_video_short_last_unit_refuted.

Example cbcs_video_short_last_unit_refuted_case :
  let fs := [[9 :: text 1; 65 :: text 18]] in
  (Forall (fun f => Forall (good_unit toy_slice toy_hdr 4 1) f /\ len (stored 4 f) < 2 ^ 31) fs
   /\ short_unit toy_slice toy_hdr (last (concat fs) []) = true)
  /\ cbcs_video toyE toy_slice toy_hdr toy_iv 64 4 1 [29] [stored 4 (hd [] fs)] = Ok ([], Some (stored 4 (hd [] fs))).
Proof.
  split; [|vm_compute; reflexivity]. split; [|vm_compute; reflexivity].
  apply Forall_cons; [|apply Forall_nil]. split; [|vm_compute; reflexivity].
  repeat (apply Forall_cons; [apply toy_good; [unfold is_byte; lia | lia | lia]|]); apply Forall_nil.
Qed.
