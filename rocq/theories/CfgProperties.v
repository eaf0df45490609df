(* The properties of the decoder configurations: C114. *)
From Coq Require Import ZArith List Bool Lia ZifyBool.
From Verif Require Import Bytes CfgModel CfgSpec CfgProofs.
Import ListNotations.
Open Scope Z_scope.

(* C114.  The parameter sets of a well-formed H.264 configuration are given with start codes, in
   order; a configuration without parameter sets is refused. *)
Theorem avc_parameter_sets_partial head a sps b pps more : length head = 5%nat -> Z.land a 31 = Z.of_nat (length sps) -> Z.land b 31 = Z.of_nat (length pps) -> small sps -> small pps ->
  parse_avc_extra_data (avc_record head a sps b pps more) = match sps ++ pps with [] => Refused | _ => Parsed (start_codes (sps ++ pps)) end.
Proof.
  intros H A B S1 S2. destruct (avc_ok head a sps b pps more H A B S1 S2) as [E1 E2]. unfold parse_avc_extra_data. rewrite E1, E2, parse_same. destruct (sps ++ pps) as [|u us]; [reflexivity|]. pose proof (start_codes_pos (u :: us) ltac:(discriminate)). assert ((length (start_codes (u :: us)) =? 0)%nat = false) as -> by lia. reflexivity.
Qed.
Print Assumptions avc_parameter_sets_partial.
Example avc_example : parse_avc_extra_data (avc_record [1; 100; 0; 31; 255] 225 [[103; 1; 2]] 1 [[104; 5]] [9; 9]) = Parsed [0; 0; 0; 1; 103; 1; 2; 0; 0; 0; 1; 104; 5].
Proof. vm_compute. reflexivity. Qed.

(* C114.  The number of picture parameter sets of the record is a byte, of which only 5 bits are
   read: those of a record with 32 of them are lost. *)
Theorem many_picture_sets_lost_refuted : ~ (forall head sps pps, length head = 5%nat -> (length sps < 32)%nat -> (length pps < 256)%nat -> small sps -> small pps -> sps <> [] ->
  parse_avc_extra_data (avc_record head (224 + Z.of_nat (length sps)) sps (Z.of_nat (length pps)) pps []) = Parsed (start_codes (sps ++ pps))).
Proof.
  intros H. specialize (H [1; 100; 0; 31; 255] [[103]] (repeat [104] 32) eq_refl). assert (small [[103]]) as S1 by (constructor; [cbn; lia | constructor]). assert (small (repeat [104] 32)) as S2. { apply Forall_forall. intros x Hx. apply repeat_spec in Hx. subst x. cbn. lia. }
  specialize (H ltac:(cbn; lia) ltac:(rewrite repeat_length; lia) S1 S2 ltac:(discriminate)). vm_compute in H. discriminate H.
Qed.
Print Assumptions many_picture_sets_lost_refuted.

(* C114.  The same for H.265, for all numbers of arrays and units. *)
Theorem hevc_parameter_sets head arrays more : length head = 22%nat -> (length arrays < 256)%nat -> Forall array_ok arrays ->
  parse_hevc_extra_data (hevc_record head arrays more) = match array_units arrays with [] => Refused | _ => Parsed (start_codes (array_units arrays)) end.
Proof.
  intros H A S. destruct (hevc_ok head arrays more H A S) as [E1 E2]. unfold parse_hevc_extra_data. rewrite E1, E2, parse_same. destruct (array_units arrays) as [|u us]; [reflexivity|]. pose proof (start_codes_pos (u :: us) ltac:(discriminate)). assert ((length (start_codes (u :: us)) =? 0)%nat = false) as -> by lia. reflexivity.
Qed.
Print Assumptions hevc_parameter_sets.
Example hevc_example : Forall array_ok [(160, [[64; 1]]); (161, []); (162, [[68]; [69; 70]])]
  /\ parse_hevc_extra_data (hevc_record (repeat 7 22) [(160, [[64; 1]]); (161, []); (162, [[68]; [69; 70]])] [3]) = Parsed [0; 0; 0; 1; 64; 1; 0; 0; 0; 1; 68; 0; 0; 0; 1; 69; 70].
Proof. split; [|vm_compute; reflexivity]. repeat (apply Forall_cons; [split; [cbn; lia | unfold small; repeat (apply Forall_cons; [cbn; lia|]); constructor]|]). constructor. Qed.

(* C114.  Whatever the bytes are, nothing beyond them is read and nothing beyond the allocated
   buffer is written; only records are accepted, and all of their units are given. *)
Theorem avc_any_bytes d : Forall is_byte d ->
  parse_avc_extra_data d = Refused
  \/ exists head a sps b pps more, d = avc_record head a sps b pps more /\ length head = 5%nat /\ Z.land a 31 = Z.of_nat (length sps) /\ Z.land b 31 = Z.of_nat (length pps)
       /\ parse_avc_extra_data d = Parsed (start_codes (sps ++ pps)).
Proof.
  intros B. destruct (avcc_size d <=? 0) eqn:Q; [left; unfold parse_avc_extra_data, parse_extra_data; rewrite Q; reflexivity|]. right. destruct (avc_inv d B ltac:(lia)) as (head & a & sps & b & pps & more & E & H1 & H2 & H3 & H4 & H5). exists head, a, sps, b, pps, more. split; [exact E|]. split; [exact H1|]. split; [exact H2|]. split; [exact H3|].
  destruct (avc_ok head a sps b pps more H1 H2 H3 H4 H5) as [E1 E2]. rewrite <- E in E1, E2. unfold parse_avc_extra_data. rewrite E2. rewrite E1 in *. rewrite parse_same. assert ((length (start_codes (sps ++ pps)) =? 0)%nat = false) as -> by lia. reflexivity.
Qed.
Print Assumptions avc_any_bytes.
Theorem hevc_any_bytes d : Forall is_byte d ->
  parse_hevc_extra_data d = Refused
  \/ exists head arrays more, d = hevc_record head arrays more /\ length head = 22%nat /\ parse_hevc_extra_data d = Parsed (start_codes (array_units arrays)).
Proof.
  intros B. destruct (hvcc_size d <=? 0) eqn:Q; [left; unfold parse_hevc_extra_data, parse_extra_data; rewrite Q; reflexivity|]. right. destruct (hevc_inv d B ltac:(lia)) as (head & arrays & more & E & H1 & H2 & H3). exists head, arrays, more. split; [exact E|]. split; [exact H1|].
  destruct (hevc_ok head arrays more H1 H2 H3) as [E1 E2]. rewrite <- E in E1, E2. unfold parse_hevc_extra_data. rewrite E2. rewrite E1 in *. rewrite parse_same. assert ((length (start_codes (array_units arrays)) =? 0)%nat = false) as -> by lia. reflexivity.
Qed.
Print Assumptions hevc_any_bytes.
Example any_bytes_example : parse_avc_extra_data [1; 100; 0; 31; 255; 225; 0; 3; 103; 1] = Refused /\ parse_avc_extra_data [1; 100; 0; 31; 255; 225; 0; 1; 103; 0] = Parsed [0; 0; 0; 1; 103]
  /\ parse_hevc_extra_data (repeat 0 22 ++ [1; 32; 0; 2; 0; 1; 64]) = Refused.
Proof. split; [|split]; vm_compute; reflexivity. Qed.
