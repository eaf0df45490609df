(* The properties of the configuration of AAC: C116. *)
From Coq Require Import ZArith List Bool Lia ZifyBool.
From Verif Require Import Bytes AscModel AscSpec AscProofs.
Import ListNotations.
Open Scope Z_scope.

(* C116.  The object type, the index of the rate and the channels are those of the
   configuration, whatever follows it; behind SBR or PS the object type is the one that the
   extension is for.  Missing: with PS, a rate of the extension that is not an index, object
   types that are multiples of 8 or from 31 on, and less than 3 bits after the configuration
   (see [ps_config_refuted]). *)
Theorem aac_config_read_partial x d more : config_ok x -> bits_of_bytes d = config_bits x ++ more ->
  match x with Extended true _ _ _ _ => (3 <= length more)%nat | _ => True end ->
  mp4a_parse d = Some (config_says x).
Proof.
  intros O H L. destruct (parse_cut [] more x d O) as [(E & _) | (_ & N)]; [rewrite app_nil_r; exact H | | exact E | exfalso; apply N; reflexivity].
  destruct x as [|[|]]; try exact I. split; [reflexivity | exact L].
Qed.
Print Assumptions aac_config_read_partial.
(* SBR on AAC-LC: 24 kHz, extended to 48 kHz, stereo *)
Example aac_sbr_example : config_ok (Extended false (Index 6) 2 (Index 3) 2)
  /\ bits_of_bytes [43; 17; 136; 0] = config_bits (Extended false (Index 6) 2 (Index 3) 2) ++ repeat false 10
  /\ mp4a_parse [43; 17; 136; 0] = Some (2, 6, 2).
Proof. split; [cbn; unfold type_ok; repeat split; try lia; discriminate|]. split; vm_compute; reflexivity. Qed.
(* PS on AAC-LC *)
Example aac_ps_example : config_ok (Extended true (Index 6) 1 (Index 3) 2)
  /\ bits_of_bytes [235; 9; 136; 0] = config_bits (Extended true (Index 6) 1 (Index 3) 2) ++ repeat false 10 /\ mp4a_parse [235; 9; 136; 0] = Some (2, 6, 1).
Proof. split; [cbn; unfold type_ok; repeat split; try lia; discriminate|]. split; vm_compute; reflexivity. Qed.
(* an object type from 32 on and a rate without an index *)
Example aac_escape_example : config_ok (Plain 39 (Explicit 48000) 2)
  /\ bits_of_bytes [248; 254; 1; 119; 0; 64] = config_bits (Plain 39 (Explicit 48000) 2) ++ repeat false 5
  /\ mp4a_parse [248; 254; 1; 119; 0; 64] = Some (39, 15, 2).
Proof. split; [cbn; unfold type_ok; repeat split; lia|]. split; vm_compute; reflexivity. Qed.

(* C116.  A configuration that is cut anywhere is refused.  Missing: configurations with PS
   (see [ps_config_refuted]). *)
Theorem aac_config_cut_partial x d missing : config_ok x -> bits_of_bytes d ++ missing = config_bits x -> missing <> [] ->
  match x with Extended true _ _ _ _ => False | _ => True end ->
  mp4a_parse d = None.
Proof.
  intros O H N P. destruct (parse_cut missing [] x d O) as [(_ & Q & E) | (E & _)]; [rewrite app_nil_r; exact H | | | exact E].
  - destruct x as [|[|]]; try exact I. destruct P.
  - exfalso. apply app_eq_nil in E. destruct E as [_ E]. exact (N E).
Qed.
Print Assumptions aac_config_cut_partial.
Example aac_cut_example : config_bits (Extended false (Index 6) 2 (Index 3) 2) = bits_of_bytes [43; 17] ++ [true; false; false; false; true; false]
  /\ mp4a_parse [43; 17] = None.
Proof. split; vm_compute; reflexivity. Qed.

(* C116 is false with PS: a configuration whose extension has a rate of 48000 that is not given
   by an index, and one that is cut, are both read as object type 29. *)
Theorem ps_config_refuted :
  (exists d more, bits_of_bytes d = config_bits (Extended true (Index 6) 1 (Explicit 48000) 2) ++ more /\ (length more >= 3)%nat /\ mp4a_parse d = Some (29, 6, 1))
  /\ (exists d missing, bits_of_bytes d ++ missing = config_bits (Extended true (Index 6) 1 (Index 3) 2) /\ missing <> [] /\ mp4a_parse d = Some (29, 6, 1)).
Proof.
  split.
  - exists [235; 15; 128; 93; 192; 8; 0], (repeat false 10). split; [vm_compute; reflexivity|]. split; [cbn; lia | vm_compute; reflexivity].
  - exists [235; 9], [true; false; false; false; true; false]. split; [vm_compute; reflexivity|]. split; [discriminate | vm_compute; reflexivity].
Qed.
Print Assumptions ps_config_refuted.
