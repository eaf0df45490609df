(* From the configuration of AAC to the headers of its frames: C116. *)
From Coq Require Import ZArith List Bool Lia ZifyBool.
From Verif Require Import Bytes AscModel AscSpec AscProofs AscProperties MuxModel MuxSpec MuxProofs.
Import ListNotations.
Open Scope Z_scope.

(* C116.  The header of each frame of a stream tells the object type, the index of the rate and
   the channels that the configuration of the stream says, and the length of the frame.
   Missing: object types and channels that have no place in the header (see
   [adts_header_refuted]), and PS as in [aac_config_read_partial]. *)
Theorem adts_tells_config_partial x d more n : config_ok x -> bits_of_bytes d = config_bits x ++ more ->
  match x with Extended true _ _ _ _ => (3 <= length more)%nat | _ => True end ->
  forall t r c, config_says x = (t, r, c) -> 1 <= t <= 4 -> c < 8 -> 0 <= n < 8192 ->
  exists t' r' c', mp4a_parse d = Some (t', r', c') /\ parse_adts (adts (Aconf t' r' c') n) = Some (t, r, c, n).
Proof.
  intros O H L t r c S T C N. exists t, r, c. split; [rewrite <- S; exact (aac_config_read_partial x d more O H L)|].
  apply (adts_reads (Aconf t r c) n); cbn [ac_object ac_rate ac_chan]; try lia.
  - destruct x as [t0 r0 c0 | ps r0 c0 ext t0]; cbn [config_says config_ok] in *; injection S as <- <- <-; [destruct O as (_ & _ & _ & R & _) | destruct O as (_ & R & _)]; destruct r0; cbn [rate_ok rate_index] in *; lia.
  - destruct x as [t0 r0 c0 | ps r0 c0 ext t0]; cbn [config_says config_ok] in *; injection S as <- <- <-; [destruct O as (_ & _ & _ & _ & K) | destruct O as (_ & _ & _ & K & _)]; lia.
Qed.
Print Assumptions adts_tells_config_partial.
Example adts_config_example : match mp4a_parse [43; 17; 136; 0] with Some (t, r, c) => parse_adts (adts (Aconf t r c) 300) = Some (2, 6, 2, 300) | None => False end.
Proof. vm_compute. reflexivity. Qed.

(* C116 is false for other object types and for 8 channels and more: the header of a stream of
   object type 39 (AAC-ELD) says 3 (AAC-SSR), and that of a stream of AAC-LC with channel
   configuration 12 (7.1) says 4 (4.0).  Nothing refuses such configurations. *)
Theorem adts_header_refuted : exists d1 d2 more1 more2,
  bits_of_bytes d1 = config_bits (Plain 39 (Index 3) 2) ++ more1 /\ mp4a_parse d1 = Some (39, 3, 2)
  /\ parse_adts (adts (Aconf 39 3 2) 300) = Some (3, 3, 2, 300)
  /\ bits_of_bytes d2 = config_bits (Plain 2 (Index 3) 12) ++ more2 /\ mp4a_parse d2 = Some (2, 3, 12)
  /\ parse_adts (adts (Aconf 2 3 12) 300) = Some (2, 3, 4, 300).
Proof.
  exists [248; 230; 64], [17; 224], (repeat false 5), (repeat false 3).
  split; [vm_compute; reflexivity|]. split; [vm_compute; reflexivity|]. split; [vm_compute; reflexivity|]. split; [vm_compute; reflexivity|]. split; vm_compute; reflexivity.
Qed.
Print Assumptions adts_header_refuted.
