(* The properties of the captions: C111, C112, C113. *)
From Coq Require Import ZArith List Bool Lia ZifyBool Sorting.Sorted.
From Verif Require Import Bytes CcModel CcSpec CcProofs CcProofs2 CcProofs3.
Import ListNotations.
Open Scope Z_scope.

(* Reads one after another, up to the first that fails. *)
Fixpoint reads (e : ep) (sizes : list nat) : list (option (list Z)) :=
  match sizes with
  | [] => []
  | n :: r => match ep_read e n with Some (d, e') => Some d :: reads e' r | None => [None] end
  end.
Lemma reads_text ns : forall e R T, view e R T -> reads e ns = pieces (text e R) ns.
Proof.
  induction ns as [|n ns IH]; intros e R T V; [reflexivity|]. cbn [reads pieces]. pose proof (ep_read_gen e R T n V) as G. destruct (n <=? length (text e R))%nat; [|rewrite G; reflexivity]. destruct G as (e' & R' & G1 & G2 & G3). rewrite G1, (IH e' R' T G2), G3. reflexivity.
Qed.

(* C111.  However the bytes are split into buffers, the reader of a NAL unit of [length R] bytes
   gives the bytes of the unit without the emulation prevention bytes, in order, and fails at
   the first read that goes beyond the unit, whatever follows it. *)
Theorem reads_are_unescaped base R T sizes : concat base = R ++ T -> Forall is_byte R ->
  reads (ep_init base (Z.of_nat (length R))) sizes = pieces (unescape 0 R) sizes.
Proof. intros E B. apply (reads_text sizes (ep_init base (Z.of_nat (length R))) R T). unfold view, ep_init. cbn. split; [exact E|]. split; [reflexivity|]. split; [lia | exact B]. Qed.
Print Assumptions reads_are_unescaped.
Example reads_example : reads (ep_init [[9; 0]; []; [0; 3]; [1; 7; 0; 0; 3]; [5; 6]] 9) [2%nat; 3%nat; 2%nat; 1%nat; 4%nat] = [Some [9; 0]; Some [0; 1; 7]; Some [0; 0]; None].
Proof. vm_compute. reflexivity. Qed.

(* C111.  What an encoder escaped is read back. *)
Theorem escaped_is_read_back base L T sizes : concat base = escape 0 L ++ T -> Forall is_byte L ->
  reads (ep_init base (Z.of_nat (length (escape 0 L)))) sizes = pieces L sizes.
Proof. intros E B. rewrite (reads_are_unescaped base (escape 0 L) T sizes E (escape_bytes L 0 B)), unescape_escape. reflexivity. Qed.
Print Assumptions escaped_is_read_back.
Example escaped_example : concat [[0; 0; 3]; [0; 0; 3; 0; 3; 5]; [1]] = escape 0 [0; 0; 0; 0; 0; 3; 5] ++ [1].
Proof. vm_compute. reflexivity. Qed.

(* The configuration of H.264 and H.265. *)
Definition conf_of (hevc : bool) (n : nat) : conf := if hevc then hevc_conf n else avc_conf n.
Definition sei_type (hevc : bool) (h : Z) : bool := if hevc then (hevc_type h =? 39) || (hevc_type h =? 40) else avc_type h =? 6.
Definition header_size (hevc : bool) : nat := if hevc then 2%nat else 1%nat.
Lemma sei_types hevc n h : is_byte h -> is_sei (conf_of hevc n) h = sei_type hevc h.
Proof.
  intros H. apply Bool.eqb_prop. destruct hevc; cbn [conf_of].
  - revert h H. apply (byte_cases (fun h => Bool.eqb (is_sei (hevc_conf n) h) (sei_type true h))). vm_compute. reflexivity.
  - revert h H. apply (byte_cases (fun h => Bool.eqb (is_sei (avc_conf n) h) (sei_type false h))). vm_compute. reflexivity.
Qed.
Lemma hd_byte l : Forall is_byte l -> is_byte (hd 0 l).
Proof. intros [|? ? H _]; cbn [hd]; [unfold is_byte; lia | exact H]. Qed.
Lemma units_ok hevc n us : Forall (unit_ok (header_size hevc) n (sei_type hevc)) us -> Forall (unit_ok (c_header (conf_of hevc n)) (c_size_bytes (conf_of hevc n)) (is_sei (conf_of hevc n))) us.
Proof.
  apply Forall_impl. intros u (O1 & O2). unfold unit_ok. assert (c_header (conf_of hevc n) = header_size hevc) as -> by (destruct hevc; reflexivity). assert (c_size_bytes (conf_of hevc n) = n) as -> by (destruct hevc; reflexivity). split; [exact O1|].
  destruct u as [h ms|d].
  - destruct O2 as (A & B & C & D & E). rewrite (sei_types hevc n _ (hd_byte h B)). tauto.
  - destruct O2 as (A & B & C). rewrite (sei_types hevc n _ (hd_byte d B)). tauto.
Qed.

(* C112.  However the frame is split into buffers, the captions of all the messages of all its
   SEI units are found, in order, and nothing else.  The messages have room for their emulation
   prevention bytes (in [unit_ok], [room_for_escapes]): without it the captions can be lost, see
   below. *)
Theorem frame_captions_found_partial hevc n us data : (1 <= n <= 4)%nat -> Forall (unit_ok (header_size hevc) n (sei_type hevc)) us -> data <> [] -> concat data = frame n us ->
  frame_packets (conf_of hevc n) data = frame_captions us.
Proof.
  intros Hn OK NE E. unfold frame_packets. assert (c_size_bytes (conf_of hevc n) = n) as Q by (destruct hevc; reflexivity). rewrite Q. assert ((n =? 0)%nat = false) as -> by lia. apply frame_ok; [rewrite Q; lia | destruct hevc; cbn; lia | apply units_ok, OK | exact NE | rewrite Q; exact E | lia].
Qed.
Print Assumptions frame_captions_found_partial.
Definition ex_payload : list Z := cc_header ++ [66; 255] ++ [252; 148; 44; 0; 0; 1] ++ [255; 128].
Definition ex_units : list unit_ := [Other [9; 240]; Sei [6] [(5, [1; 2; 3]); (4, ex_payload); (4, [181; 0])]; Other [101; 0; 0; 3; 6]].
Lemma ex_units_ok : Forall (unit_ok 1 4 (sei_type false)) ex_units.
Proof.
  assert (forall l, forallb (fun b => (0 <=? b) && (b <? 256)) l = true -> Forall is_byte l) as FB. { intros l H. rewrite forallb_forall in H. apply Forall_forall. intros b Hb. specialize (H b Hb). unfold is_byte. lia. }
  unfold ex_units. constructor; [|constructor; [|constructor; [|constructor]]].
  - unfold unit_ok. split; [vm_compute; reflexivity|]. split; [cbn; lia|]. split; [apply FB; reflexivity | reflexivity].
  - unfold unit_ok. split; [vm_compute; reflexivity|]. split; [reflexivity|]. split; [apply FB; reflexivity|]. split; [discriminate|]. split; [reflexivity|].
    constructor; [|constructor; [|constructor; [|constructor]]]; unfold message_ok; cbn [fst snd]; (split; [lia|]; split; [vm_compute; reflexivity|]; split; [apply FB; reflexivity|]); intros d H; vm_compute in H; try discriminate H. injection H as <-. apply Nat.leb_le. vm_compute. reflexivity.
  - unfold unit_ok. split; [vm_compute; reflexivity|]. split; [cbn; lia|]. split; [apply FB; reflexivity | reflexivity].
Qed.
Example found_example : Forall (unit_ok 1 4 (sei_type false)) ex_units /\ frame_captions ex_units = [[252; 148; 44; 0; 0; 1]]
  /\ frame_packets (avc_conf 4) [firstn 15 (frame 4 ex_units); []; skipn 15 (frame 4 ex_units)] = [[252; 148; 44; 0; 0; 1]].
Proof. split; [exact ex_units_ok|]. split; vm_compute; reflexivity. Qed.

(* C112.  A message whose captions have more emulation prevention bytes than there are bytes
   after them: the reader of the payload counts them as bytes of the payload, and the captions
   are lost. *)
Theorem captions_with_escapes_lost_refuted : ~ (forall us data, data <> [] -> concat data = frame 4 us -> Forall (fun u => match u with Sei h ms => h = [6] /\ Forall (fun m => Forall is_byte (snd m)) ms | Other d => False end) us ->
  frame_packets (avc_conf 4) data = frame_captions us).
Proof.
  intros H. set (us := [Sei [6] [(4, cc_header ++ [66; 255] ++ [0; 0; 1; 0; 0; 1] ++ [255])]]). specialize (H us [frame 4 us]). assert (frame_packets (avc_conf 4) [frame 4 us] = []) as E by (vm_compute; reflexivity). rewrite E in H. assert (frame_captions us = [[0; 0; 1; 0; 0; 1]]) as E2 by (vm_compute; reflexivity). rewrite E2 in H.
  discriminate H; [discriminate | cbn [concat]; apply app_nil_r|]. constructor; [|constructor]. split; [reflexivity|]. constructor; [|constructor]. cbn [snd cc_header app]. repeat (apply Forall_cons; [unfold is_byte; lia|]). constructor.
Qed.
Print Assumptions captions_with_escapes_lost_refuted.

(* C113.  The frames of a stream, in the order of decoding, and the end of the stream: the
   decoders get all the captions, once, those of the same time in the order of the frames; and in
   the order of presentation when the groups of frames do not overlap. *)
Definition pushed (c : conf) (fs : list frame_evt) : list (Z * list Z) :=
  let '(out, x) := add_frames c cc_init fs in out ++ x_pending x.
Definition carries (hevc : bool) (n : nat) (e : frame_evt) (f : stream_frame) : Prop :=
  f_key e = fst (fst f) /\ f_dts e + f_delay e = snd (fst f) /\ f_data e <> [] /\ concat (f_data e) = frame n (snd f) /\ Forall (unit_ok (header_size hevc) n (sei_type hevc)) (snd f).
Lemma carries_timed hevc n es fs : (1 <= n <= 4)%nat -> Forall2 (carries hevc n) es fs -> map (timed (conf_of hevc n)) es = map with_captions fs.
Proof.
  intros Hn. induction 1 as [|e ((k, p), us) es fs (A & B & C & D & E) _ IH]; [reflexivity|]. cbn [map fst snd] in *. rewrite IH. f_equal. unfold timed, with_captions. cbn [fst snd]. rewrite A, B, (frame_captions_found_partial hevc n us (f_data e) Hn E C D). reflexivity.
Qed.
Theorem captions_pushed_once_partial hevc n es fs t : (1 <= n <= 4)%nat -> Forall2 (carries hevc n) es fs ->
  of_time t (pushed (conf_of hevc n) es) = of_time t (all_captions (map with_captions fs)).
Proof.
  intros Hn F. rewrite <- (carries_timed hevc n es fs Hn F). pose proof (frames_time t (conf_of hevc n) es cc_init) as G. unfold pushed. destruct (add_frames (conf_of hevc n) cc_init es) as (a, x). cbn [fst snd] in G. rewrite G. reflexivity.
Qed.
Print Assumptions captions_pushed_once_partial.
Theorem captions_in_order_partial hevc n es fs : (1 <= n <= 4)%nat -> Forall2 (carries hevc n) es fs -> groups 0 [] (map with_captions fs) ->
  StronglySorted (fun x y => fst x <= fst y) (pushed (conf_of hevc n) es).
Proof.
  intros Hn F G. rewrite <- (carries_timed hevc n es fs Hn F) in G. pose proof (frames_sorted (conf_of hevc n) es cc_init [] [] G (SSorted_nil _)) as S. unfold pushed. destruct (add_frames (conf_of hevc n) cc_init es) as (a, x). cbn [fst snd app] in S. apply S; [intros p [] | intros p f []].
Qed.
Print Assumptions captions_in_order_partial.
(* a key frame, a frame that is shown later, two in between *)
Definition ex_one (i : Z) : list unit_ := [Sei [6] [(4, cc_header ++ [65; 255] ++ [252; i; i] ++ [255])]].
Definition ex_fs : list stream_frame := [(true, 1000, ex_one 1); (false, 1300, ex_one 2); (false, 1100, ex_one 3); (false, 1200, ex_one 4); (false, 1400, ex_one 5)].
Definition ex_es : list frame_evt := map (fun f => FrameEvt (fst (fst f)) 900 (snd (fst f) - 900) [[]; frame 4 (snd f)]) ex_fs.
Example pushed_example : groups 0 [] (map with_captions ex_fs) /\ length (all_captions (map with_captions ex_fs)) = 5%nat
  /\ pushed (avc_conf 4) ex_es = [(1000, [252; 1; 1]); (1100, [252; 3; 3]); (1200, [252; 4; 4]); (1300, [252; 2; 2]); (1400, [252; 5; 5])].
Proof. split; [|split; vm_compute; reflexivity]. cbn [map ex_fs with_captions fst snd groups orb Z.ltb Z.compare Pos.compare Pos.compare_cont]. cbn [app In]. intuition lia. Qed.
Lemma ex_one_ok i : (0 < i < 256)%Z -> Forall (unit_ok 1 4 (sei_type false)) (ex_one i).
Proof.
  intros Hi. constructor; [|constructor]. assert (forall l, escape 0 (cc_header ++ [65; 255; 252; i; i; 255] ++ l) = cc_header ++ [65; 255; 252; i; i; 255] ++ escape 0 l) as E.
  { intros l. cbn [cc_header app escape Nat.eqb andb zeros Z.eqb Nat.min Pos.eqb]. unfold zeros. assert (i =? 0 = false) as -> by lia. reflexivity. }
  assert (escape 0 (rbsp [(4, cc_header ++ [65; 255] ++ [252; i; i] ++ [255])]) = [4; 14] ++ cc_header ++ [65; 255; 252; i; i; 255; 128]) as E2.
  { unfold rbsp, message. cbn [map concat fst snd cc_header app length]. change (Z.of_nat 14) with 14. change (ff 4) with [4]. change (ff 14) with [14]. cbn [app escape Nat.eqb andb zeros Z.eqb Nat.min Pos.eqb]. unfold zeros. assert (i =? 0 = false) as -> by lia. reflexivity. }
  unfold unit_ok, unit_bytes. rewrite E2. split; [vm_compute; reflexivity|]. split; [reflexivity|]. split; [repeat constructor; unfold is_byte; lia|]. split; [discriminate|]. split; [reflexivity|]. constructor; [|constructor]. unfold message_ok. cbn [fst snd]. split; [lia|]. split; [vm_compute; reflexivity|]. split; [cbn [cc_header app]; repeat (apply Forall_cons; [unfold is_byte; lia|]); constructor|].
  intros d H. vm_compute in H. injection H as <-. specialize (E []). cbn [app escape] in E. change ([65; 255] ++ [252; i; i] ++ [255]) with [65; 255; 252; i; i; 255]. rewrite E. cbn [length app cc_header]. lia.
Qed.
Example carried_example : Forall2 (carries false 4) ex_es ex_fs.
Proof.
  unfold ex_es, ex_fs. cbn [map fst snd]. repeat (apply Forall2_cons; [unfold carries; cbn [f_key f_dts f_delay f_data fst snd]; split; [reflexivity|]; split; [reflexivity|]; split; [discriminate|]; split; [cbn [concat app]; apply app_nil_r | apply ex_one_ok; lia]|]). constructor.
Qed.
