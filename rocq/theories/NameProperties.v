(* The properties of codec names: C115. *)
From Coq Require Import ZArith List Bool Lia ZifyBool.
From Verif Require Import Bytes NameModel NameSpec NameProofs NameProofs2.
Import ListNotations.
Open Scope Z_scope.

(* C115.  The name of an H.265 stream tells its profile, compatibility flags, tier, level and
   constraints, for all their values. *)
Theorem hevc_name_tells format version space tier idc compat constraints level rest : 0 <= space < 4 -> 0 <= idc < 32 -> 0 <= compat < 2 ^ 32 -> Forall is_byte constraints -> length constraints = 6%nat -> is_byte level -> (9 <= length rest)%nat ->
  exists name, hevc_name format (hevc_head version space tier idc compat constraints level ++ rest) = Some name /\ hevc_text format space tier idc compat constraints level name.
Proof.
  intros H1 H2 H3 H4 H5 H6 H7. destruct constraints as [|c0 cs]; [discriminate H5|]. inversion H4; subst. cbn [length] in H5. destruct (hevc_name_ok format version space tier idc compat c0 cs level rest) as (name & N1 & N2 & _); try assumption; [lia|]. exists name. split; assumption.
Qed.
Print Assumptions hevc_name_tells.
(* hvc1.A2.4.L120.b0 with the tier and the space of the record, and constraint bytes in between *)
Example hevc_name_example : hevc_name [104; 118; 99; 49] (hevc_head 1 1 false 2 (2 ^ 29) [176; 0; 1; 0; 0; 0] 120 ++ repeat 0 9) = Some ([104; 118; 99; 49] ++ [46; 65; 50] ++ [46; 52] ++ [46; 76; 49; 50; 48] ++ [46; 98; 48] ++ [46; 48; 48] ++ [46; 48; 49]).
Proof. vm_compute. reflexivity. Qed.

(* C115.  Whatever the bytes are, the name of an H.265 stream and its final zero fit into the
   buffer of 64 bytes; less than 22 bytes are refused. *)
Theorem hevc_name_fits format d : Forall is_byte d -> length format = 4%nat ->
  match hevc_name format d with Some name => (length name + 1 <= 64)%nat /\ (22 <= length d)%nat | None => (length d < 22)%nat end.
Proof.
  intros B F. destruct (le_lt_dec 22 (length d)) as [L|L].
  - destruct (hevc_split d B L) as (version & space & tier & idc & compat & constraints & level & rest & -> & H1 & H2 & H3 & H4 & H5 & H6 & H7). destruct constraints as [|c0 cs]; [discriminate H5|]. inversion H4; subst. cbn [length] in H5. destruct (hevc_name_ok format version space tier idc compat c0 cs level rest) as (name & -> & _ & N3); try assumption; [lia|]. split; [lia | exact L].
  - unfold hevc_name. rewrite (hevc_short d L). exact L.
Qed.
Print Assumptions hevc_name_fits.
Example hevc_fits_example : match hevc_name [104; 118; 99; 49] (repeat 255 22) with Some name => length name = 40%nat | None => False end.
Proof. vm_compute. reflexivity. Qed.

(* C115.  The name of an H.264 stream: profile, compatibility and level in hexadecimal. *)
Theorem avc_name_tells format version profile compatibility level rest : is_byte profile -> is_byte compatibility -> is_byte level -> rest <> [] ->
  avc_name format ([version; profile; compatibility; level] ++ rest) = Some (format ++ [46] ++ hex2 profile ++ hex2 compatibility ++ hex2 level).
Proof.
  intros H1 H2 H3 N. destruct rest as [|r rest]; [congruence|]. unfold avc_name. cbn [app length Nat.ltb Nat.leb nth]. rewrite !hex02_ok by assumption. reflexivity.
Qed.
Print Assumptions avc_name_tells.
Example avc_name_example : avc_name [97; 118; 99; 49] [1; 100; 0; 31; 255; 225] = Some [97; 118; 99; 49; 46; 54; 52; 48; 48; 49; 102].
Proof. vm_compute. reflexivity. Qed.

(* C115.  The name of an AAC stream: the object type indication in hexadecimal and the audio
   object type in decimal, for types up to 30. *)
Theorem mp4a_name_tells_partial format oti t low rest : is_byte oti -> 0 <= t <= 30 -> 0 <= low < 8 ->
  exists x, number_text 10 t x /\ mp4a_name format oti ((t * 8 + low) :: rest) = format ++ [46] ++ hex2 oti ++ [46] ++ x.
Proof.
  intros H1 H2 H3. exists (dec t). split; [apply dec_ok; unfold is_byte; lia|]. unfold mp4a_name, dot. rewrite (hex02_ok oti H1). assert (Z.shiftr (Z.land (t * 8 + low) 248) 3 = t) as ->; [|reflexivity].
  assert (is_byte (t * 8 + low)) as B by (unfold is_byte; lia). assert (Z.shiftr (Z.land (t * 8 + low) 248) 3 = (t * 8 + low) / 8) as E by (apply Z.eqb_eq; generalize dependent (t * 8 + low); apply (byte_cases (fun x => Z.shiftr (Z.land x 248) 3 =? x / 8)); vm_compute; reflexivity). rewrite E. symmetry. apply Z.div_unique with (r := low); lia.
Qed.
Print Assumptions mp4a_name_tells_partial.
Example mp4a_example : mp4a_name [109; 112; 52; 97] 64 [18; 16] = [109; 112; 52; 97; 46; 52; 48; 46; 50].
Proof. vm_compute. reflexivity. Qed.
(* C115.  Audio object types from 32 are written with an escape (31) and 6 more bits: the name
   of all of them says 31. *)
Theorem mp4a_escaped_type_refuted : ~ (forall format oti t more rest, 32 <= t < 96 -> 0 <= more < 32 -> exists x, number_text 10 t x /\
  mp4a_name format oti ([31 * 8 + (t - 32) / 8; (t - 32) mod 8 * 32 + more] ++ rest) = format ++ [46] ++ hex2 oti ++ [46] ++ x).
Proof.
  intros H. destruct (H [] 64 42 0 [] ltac:(lia) ltac:(lia)) as (x & (_ & _ & X & _) & E). vm_compute in E. injection E as <-. vm_compute in X. discriminate X.
Qed.
Print Assumptions mp4a_escaped_type_refuted.
