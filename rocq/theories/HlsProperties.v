(* The encryption of HLS segments: C103 to C105. *)
From Coq Require Import ZArith List Bool Lia ZifyBool Arith.
From Verif Require Import Bytes HlsModel HlsSpec HlsProofs HlsProofs2 HlsProofs3 HlsProofs4 HlsProofs5.
Import ListNotations.
Open Scope Z_scope.

(* ------------------------------------------------------------------ *)
(* A cipher for the examples: not a good one, but it has an inverse.    *)
Definition toy_key : list Z := [7; 200; 31; 4; 99; 150; 23; 8; 77; 61; 5; 240; 18; 3; 129; 66].
Definition toyE (b : list Z) : list Z := rev (xor toy_key b).
Definition toyD (b : list Z) : list Z := xor (rev b) toy_key.
Definition toy_iv : list Z := [1; 2; 3; 4; 5; 6; 7; 8; 9; 10; 11; 12; 13; 14; 15; 16].
Definition text (n : nat) : list Z := map (fun i => Z.of_nat i mod 5) (seq 3 n).

Lemma key_block : is_block toy_key.
Proof. split; [reflexivity|]. unfold toy_key. repeat (apply Forall_cons; [unfold is_byte; lia|]). apply Forall_nil. Qed.
Lemma iv_block : is_block toy_iv.
Proof. split; [reflexivity|]. unfold toy_iv. repeat (apply Forall_cons; [unfold is_byte; lia|]). apply Forall_nil. Qed.
Lemma toy_cipher : cipher toyE toyD.
Proof.
  intros b Hb. unfold toyE, toyD. destruct (xor_block toy_key b key_block Hb) as [L F]. split.
  - split; [rewrite rev_length; exact L | apply Forall_rev; exact F].
  - rewrite rev_involutive. apply xor_back. rewrite (proj1 key_block), (proj1 Hb). reflexivity.
Qed.
Lemma text_bytes n : Forall is_byte (text n).
Proof. apply Forall_forall. intros x H. apply in_map_iff in H. destruct H as (i & <- & _). unfold is_byte. lia. Qed.

(* ------------------------------------------------------------------ *)
(* C103 *)

(* Whatever the buffers in which a segment is written: a player with the key and the
   vector gets exactly the segment, and the size is as announced. *)
Theorem aes128_segments_decrypt E D iv pool l :
  cipher E D -> is_block iv ->
  Forall (fun b => b <> [] /\ Forall is_byte b /\ len b < 2 ^ 32 - 16
                   /\ match pool with Some s => len b + 16 - len b mod 16 <= s | None => True end) l ->
  exists o, aes128 E iv pool l = Ok o
    /\ decrypt_segment D iv o = Some (concat l)
    /\ (l <> [] -> len o = announced (len (concat l))).
Proof.
  intros C I F. destruct (aes128_ok E D iv pool l C I) as (o & W & S & L).
  - eapply Forall_impl; [|exact F]. intros b (A1 & A2 & A3 & A4). split; [exact A1|]. split; [exact A2|]. split; [exact A3|]. unfold room. destruct pool; [|exact A4]. unfold round_up, round_down. lia.
  - exists o. split; [exact W|]. split; [exact S|]. intros NE. rewrite L. unfold announced. destruct l as [|b l]; [congruence|]. destruct (Forall_inv F) as (A1 & _). destruct (len (concat (b :: l)) =? 0) eqn:Q; [|reflexivity].
    cbn [concat] in Q. unfold len in Q. rewrite app_length in Q. destruct b; [congruence|]. cbn [length] in Q. lia.
Qed.
Print Assumptions aes128_segments_decrypt.

Example aes128_segments_decrypt_case :
  match aes128 toyE toy_iv (Some 64) [text 40; text 7; text 1] with
  | Ok o => (decrypt_segment toyD toy_iv o, len o, announced 48)
  | _ => (None, 0, 0)
  end = (Some (text 40 ++ text 7 ++ text 1), 64, 64).
Proof. vm_compute. reflexivity. Qed.

(* No buffer is overrun, whatever is written: a buffer of the pool that is too small is
   noticed. *)
Theorem aes128_never_overruns E D iv pool l :
  cipher E D -> is_block iv -> Forall (fun b => Forall is_byte b /\ len b < 2 ^ 32 - 16) l ->
  aes128 E iv pool l <> Ub.
Proof.
  intros C I F. unfold aes128. assert (cbc_ok (cbc_init iv)) as K by (unfold cbc_ok; cbn; lia). assert (is_block (c_chain (cbc_init iv))) as Hc by exact I. assert (Forall is_byte (c_buf (cbc_init iv))) as Hb by apply Forall_nil.
  revert K Hc Hb. generalize (cbc_init iv). induction l as [|b l IH]; intros st K Hc Hb; [discriminate|]. cbn [cbc_writes]. destruct (Forall_inv F) as [B L]. unfold cbc_write.
  assert (0 <= len b) as L0 by (unfold len; lia). assert (u32 (len b) = len b) as -> by (unfold u32; apply Z.mod_small; lia). destruct (len b <=? 0); [cbn [bind fst snd]; specialize (IH (Forall_inv_tail F) st K Hc Hb); destruct (cbc_writes E pool st l); cbn [bind]; congruence|].
  assert (u32 (len b + 16) = len b + 16) as -> by (unfold u32; apply Z.mod_small; lia). set (buffer := match pool with Some s => s | None => _ end). destruct (buffer <? round_down (len b + 16)) eqn:Q; [discriminate|].
  pose proof (update_len E D st b C Hc Hb B) as (U1 & U2 & U3). pose proof (update_ok E st b) as U4. destruct (cbc_update E st b) as [o st']. cbn [fst snd] in *.
  assert (len o <=? buffer = true) as ->.
  { unfold round_down in Q. unfold cbc_ok in K. unfold len in *. rewrite U1. pose proof (Nat.div_mod (length (c_buf st) + length b) 16 ltac:(lia)). pose proof (Nat.mod_upper_bound (length (c_buf st) + length b) 16 ltac:(lia)). lia. }
  cbn [bind fst snd]. specialize (IH (Forall_inv_tail F) st' U4 U2 U3). destruct (cbc_writes E pool st' l); cbn [bind]; congruence.
Qed.
Print Assumptions aes128_never_overruns.

Example aes128_never_overruns_case : aes128 toyE toy_iv (Some 64) [text 40; text 64] = Err.
Proof. vm_compute. reflexivity. Qed.

(* MPEG-TS: with buffers of any size s such that s mod 16 < s mod 188, all segments. *)
Theorem ts_segments_decrypt E D iv pool ps :
  cipher E D -> is_block iv ->
  Forall (fun p => len p = 188 /\ Forall is_byte p) ps ->
  match pool with Some s => 188 <= s < 2 ^ 32 - 16 /\ s mod 16 < s mod 188 | None => True end ->
  exists o, ts_aes128 E iv pool ps = Ok o
    /\ decrypt_segment D iv o = Some (concat ps)
    /\ (ps <> [] -> len o = announced (len (concat ps))).
Proof.
  intros C I F HP. unfold ts_aes128. set (s := match pool with Some s => s | None => BUFFER_SIZE end).
  assert (188 <= s < 2 ^ 32 - 16) as Hs by (unfold s, BUFFER_SIZE; destruct pool; lia).
  assert (Forall (fun p => len p = 188) ps) as F1 by (eapply Forall_impl; [|exact F]; intros p [A _]; exact A).
  assert (Forall (Forall is_byte) ps) as F2 by (eapply Forall_impl; [|exact F]; intros p [_ A]; exact A).
  pose proof (buffers_in s ps [] ltac:(lia) F1 eq_refl ltac:(change (len []) with 0; lia) (fun _ => Logic.I)) as B1. pose proof (buffers_bytes s ps [] ltac:(apply Forall_nil) F2) as B2. pose proof (buffers_concat s ps []) as B3. cbn [app] in B3.
  destruct (aes128_segments_decrypt E D iv pool (buffers s [] ps) C I) as (o & W & S & L).
  - apply Forall_forall. intros b Hb. rewrite Forall_forall in B1, B2. destruct (B1 b Hb) as (N & M & Le). split; [exact N|]. split; [apply B2; exact Hb|]. split; [lia|]. unfold s in Le. clear - M Le HP. destruct pool; lia.
  - rewrite B3 in S, L. exists o. split; [exact W|]. split; [exact S|]. intros NE. apply L. intros Q. rewrite Q in B3. destruct ps as [|p ps]; [congruence|]. pose proof (Forall_inv F1) as A. apply (f_equal (@length Z)) in B3. cbn [concat] in B3. rewrite app_length in B3. unfold len in A. cbn [length] in B3. lia.
Qed.
Print Assumptions ts_segments_decrypt.

Example ts_segments_decrypt_case :
  match ts_aes128 toyE toy_iv (Some 400) [text 188; text 188; text 188] with
  | Ok o => (decrypt_segment toyD toy_iv o, len o)
  | _ => (None, 0)
  end = (Some (text 188 ++ text 188 ++ text 188), 576).
Proof. vm_compute. reflexivity. Qed.

(* Refuted for other sizes: if the buffers of the pool are a multiple of 188 and of 16,
   such as 96256 bytes, which is the size without a pool, then no segment that fills
   one buffer can be sent. *)
Theorem ts_segments_with_pool_refuted E D iv s ps :
  cipher E D -> is_block iv -> 188 <= s < 2 ^ 32 - 16 -> s mod 188 = 0 -> s mod 16 = 0 ->
  Forall (fun p => len p = 188 /\ Forall is_byte p) ps -> s <= len (concat ps) ->
  ts_aes128 E iv (Some s) ps = Err.
Proof.
  intros C I Hs M1 M2 F G. assert (Forall (fun p => len p = 188) ps) as F1 by (eapply Forall_impl; [|exact F]; intros p [A _]; exact A).
  assert (Forall (Forall is_byte) ps) as F2 by (eapply Forall_impl; [|exact F]; intros p [_ A]; exact A).
  pose proof (buffers_in s ps [] ltac:(lia) F1 eq_refl ltac:(change (len []) with 0; lia) (fun _ => Logic.I)) as B1. pose proof (buffers_bytes s ps [] ltac:(apply Forall_nil) F2) as B2.
  destruct (writes_full E (Some s) s eq_refl ltac:(lia) (buffers s [] ps) (cbc_init iv)) as [W|W]; [| | exact M2 | exact W |].
  - eapply Forall_impl; [|exact B1]. intros b (_ & _ & A). exact A.
  - eapply Exists_impl; [|apply (buffers_full s ps []); [lia | exact M1 | exact F1 | reflexivity | change (len []) with 0; lia | exact G]]. cbv beta. intros b A. split; [exact A|]. intros ->. change (len []) with 0 in A. lia.
  - exfalso. apply (aes128_never_overruns E D iv (Some s) (buffers s [] ps) C I); [|exact W]. apply Forall_forall. intros b Hb. rewrite Forall_forall in B1, B2. destruct (B1 b Hb) as (_ & _ & A). split; [apply B2; exact Hb | lia].
Qed.
Print Assumptions ts_segments_with_pool_refuted.

Example ts_segments_with_pool_refuted_case :
  (752 mod 188, 752 mod 16, ts_aes128 toyE toy_iv (Some 752) [text 188; text 188; text 188; text 188]) = (0, 0, Err)
  /\ (BUFFER_SIZE mod 188, BUFFER_SIZE mod 16) = (0, 0).
Proof. split; vm_compute; reflexivity. Qed.

(* An initialization segment of fragmented mp4. *)
Theorem init_segment_decrypts E D iv s :
  cipher E D -> is_block iv -> Forall is_byte s ->
  exists o, init_aes128 E iv false s = Ok o /\ decrypt_segment D iv o = Some s.
Proof.
  intros C I F. unfold init_aes128, cbc_once. pose proof (update_final E (cbc_init iv) s) as U. cbn [c_buf c_chain cbc_init app] in U. destruct (padded_decrypts E D iv s C I F) as [P1 P2]. rewrite <- U in P1, P2.
  change (Cbc iv []) with (cbc_init iv) in P1, P2. destruct (cbc_update E (cbc_init iv) s) as [o st]. cbn [fst snd] in *. assert (len (o ++ cbc_final E st) <=? round_up (len s) + 16 = true) as -> by lia. exists (o ++ cbc_final E st). split; [reflexivity | exact P1].
Qed.
Print Assumptions init_segment_decrypts.

Example init_segment_decrypts_case :
  match init_aes128 toyE toy_iv false (text 50) with Ok o => decrypt_segment toyD toy_iv o | _ => None end = Some (text 50).
Proof. vm_compute. reflexivity. Qed.

(* Refuted for HEAD requests: memory is read through a pointer that was never set. *)
Theorem init_segment_head_refuted E iv s : s <> [] -> init_aes128 E iv true s = Ub.
Proof. intros H. unfold init_aes128, cbc_once. assert (0 <? len s = true) as ->; [|reflexivity]. destruct s; [congruence|]. unfold len. cbn [length]. lia. Qed.
Print Assumptions init_segment_head_refuted.

Example init_segment_head_refuted_case : init_aes128 toyE toy_iv true (text 50) = Ub.
Proof. vm_compute. reflexivity. Qed.

(* ------------------------------------------------------------------ *)
(* C104 *)

(* A frame of AVC with SAMPLE-AES, read in any buffers: it becomes a byte stream of
   units from which a player gets the units of the frame, but for delimiters.  A unit
   that is encrypted contains no start code; others are unchanged.  The state [n] of the
   filter at the start is any. *)
Theorem sample_aes_video_decrypts E D iv nl extra key n us chunks :
  cipher E D -> is_block iv -> (1 <= nl <= 4)%nat ->
  Forall (fun u => u <> [] /\ Forall is_byte u /\ len u < 2 ^ 31 /\ len u < 256 ^ Z.of_nat nl) us ->
  concat chunks = stored nl us ->
  exists xs,
    sample_aes_frame E iv nl extra key (len (stored nl us)) n chunks = Ok (byte_stream extra key xs)
    /\ Forall2 (fun u x =>
          read_nal D iv x = u
          /\ if coded_slice u && (48 <? len u)
             then no_start_code x /\ last x 0 = last u 0
             else x = u)
        (filter (fun u => negb (delimiter u)) us) xs.
Proof.
  intros C I N F Q. destruct (frame_ok E D C iv I nl N extra key n us chunks F Q) as (xs & F2 & W). exists xs. split; [exact W|].
  clear - F2. revert F2. generalize (filter (fun u => negb (delimiter u)) us). intros vs F2. induction F2 as [|u x vs xs (H1 & H2 & H3) F2 IH]; [apply Forall2_nil|]. apply Forall2_cons; [|exact IH]. split; [exact H1|]. change (coded_slice u && (48 <? len u)) with (slice u). destruct (slice u); [apply H2; reflexivity | apply H3; reflexivity].
Qed.
Print Assumptions sample_aes_video_decrypts.

Definition nal0 : nal := Nal false 0 0 0 0 (cbc_init []).
Example sample_aes_video_decrypts_case :
  let us := [[9; 240]; 6 :: text 3; 101 :: text 250; 65 :: text 20] in
  let s := stored 4 us in
  match sample_aes_frame toyE toy_iv 4 [0; 0; 0; 1; 103] true (len s) nal0 [firstn 30 s; firstn 100 (skipn 30 s); skipn 130 s] with
  | Ok o => let x := firstn (length o - 22 - 24) (skipn 22 o) in (firstn 22 o, read_nal toyD toy_iv x, forallb (fun p => fst p =? snd p) (combine x (101 :: text 250)), skipn (length o - 24) o)
  | _ => ([], [], true, [])
  end = ([0; 0; 0; 1; 9; 240] ++ [0; 0; 0; 1; 103] ++ [0; 0; 0; 1; 6] ++ text 3 ++ [0; 0; 1],
         101 :: text 250,
         false,
         [0; 0; 1; 65] ++ text 20).
Proof. vm_compute. reflexivity. Qed.

(* ------------------------------------------------------------------ *)
(* C105 *)

(* The frames of a track of AAC or AC-3, each read in any buffers: from every frame that
   is sent a player gets the frame, and it has the same size. *)
Theorem sample_aes_audio_decrypts E D iv fs :
  cipher E D -> is_block iv ->
  Forall (fun f => Forall is_byte (concat f) /\ len (concat f) < 2 ^ 31) fs ->
  exists xs, audio_track E iv fs = Ok xs
    /\ Forall2 (fun f x => read_audio D iv x = concat f /\ length x = length (concat f)) fs xs.
Proof.
  intros C I F. apply (audio_ok E D C iv I fs); [|exact F]. split; [split; [exact I | apply Forall_nil] | reflexivity].
Qed.
Print Assumptions sample_aes_audio_decrypts.

Example sample_aes_audio_decrypts_case :
  match audio_track toyE toy_iv [[text 5; text 60]; [text 20]; [text 300; text 1]] with
  | Ok xs => (map (read_audio toyD toy_iv) xs, map (fun x => forallb (fun p => fst p =? snd p) (combine (skipn 16 x) (skipn 16 (text 5 ++ text 60)))) xs)
  | _ => ([], [])
  end = ([text 5 ++ text 60; text 20; text 300 ++ text 1], [false; true; false]).
Proof. vm_compute. reflexivity. Qed.

(* Enhanced AC-3: frames of sync frames, read in any buffers. *)
Theorem sample_aes_eac3_decrypts E D iv uss fs :
  cipher E D -> is_block iv ->
  Forall2 (fun us f => concat f = concat us /\ us <> [] /\ Forall (fun u => sync_frame u /\ Forall is_byte u) us /\ len (concat us) < 2 ^ 31) uss fs ->
  exists xss, eac3_track E iv fs = Ok (map (@concat Z) xss)
    /\ Forall2 (fun us xs => read_sync D iv xs = concat us /\ map (@length Z) xs = map (@length Z) us) uss xss.
Proof.
  intros C I F. apply (eac3_ok E D C iv I uss); [|exact F]. split; [split; [exact I | apply Forall_nil] | reflexivity].
Qed.
Print Assumptions sample_aes_eac3_decrypts.

Example sample_aes_eac3_decrypts_case :
  let u := [11; 119; 0; 24] ++ text 46 in
  let v := [11; 119; 8; 19] ++ text 36 in
  match eac3_track toyE toy_iv [[firstn 3 u; skipn 3 u ++ firstn 9 v; skipn 9 v]; [v]] with
  | Ok [x; y] => (read_sync toyD toy_iv [firstn 50 x; skipn 50 x], read_sync toyD toy_iv [y], len x)
  | _ => ([], [], 0)
  end = (u ++ v, v, 90).
Proof. vm_compute. reflexivity. Qed.
