(* Specification of the receiving side of a KMP connection: what a client puts
   on the wire, and what the owner of the connection should be told about it.
   Only the types [frame] and [event] and the wire constants are shared with
   the model. *)
From Coq Require Import ZArith List Bool.
From Verif Require Import Bytes KmpInModel.
Import ListNotations.
Open Scope Z_scope.

(* What a client sends after the connect packet.  [ext] are bytes of a longer,
   future version of the packet header. *)
Inductive pkt :=
| PMediaInfo (mi ext data : list Z)
| PFrame (fr : frame) (ext data : list Z)
| PNull (ext data : list Z)
| PEnd (ext data : list Z).

Definition wire_header (type : Z) (header data : list Z) : list Z :=
  le 4 type ++ le 4 (16 + Z.of_nat (length header)) ++ le 4 (Z.of_nat (length data)) ++ le 4 0.

Definition wire (type : Z) (header data : list Z) : list Z :=
  wire_header type header data ++ header ++ data.

Definition wire_frame (fr : frame) : list Z :=
  le 8 (f_created fr) ++ le 8 (f_dts fr) ++ le 4 (f_flags fr) ++ le 4 (f_pts_delay fr).

Definition encode (p : pkt) : list Z :=
  match p with
  | PMediaInfo mi ext data => wire pt_media_info (mi ++ ext) data
  | PFrame fr ext data => wire pt_frame (wire_frame fr ++ ext) data
  | PNull ext data => wire pt_null ext data
  | PEnd ext data => wire pt_end ext data
  end.

Definition encode_all (ps : list pkt) : list Z := concat (map encode ps).

(* The connect packet: channel and track names (32 bytes each), the id of the
   first frame, the upstream frame id, the offset, the flags. *)
Record connect := mkConnect {
  k_channel : list Z; k_track : list Z; k_initial : Z;
  k_upstream : Z; k_offset : Z; k_flags : Z; k_ext : list Z; k_data : list Z }.

Definition connect_fields (k : connect) : list Z :=
  k_channel k ++ k_track k ++ le 8 (k_initial k) ++ le 8 (k_upstream k)
  ++ le 4 (k_offset k) ++ le 4 (k_flags k).

Definition encode_connect (k : connect) : list Z :=
  wire pt_connect (connect_fields k ++ k_ext k) (k_data k).

(* the part of the connect packet the owner sees in full *)
Definition connect_fixed (k : connect) : list Z := firstn 104 (encode_connect k).

Definition bytes (l : list Z) : Prop := Forall is_byte l.

(* limits of the protocol *)
Definition sized (header data : list Z) : Prop :=
  bytes header /\ bytes data /\
  16 + Z.of_nat (length header) <= 64 * 1024 /\
  Z.of_nat (length data) <= 16 * 1024 * 1024.

Definition ok_frame (fr : frame) : Prop :=
  - 2 ^ 63 <= f_created fr < 2 ^ 63 /\ - 2 ^ 63 <= f_dts fr < 2 ^ 63 /\
  0 <= f_flags fr < 2 ^ 32 /\ - 2 ^ 31 <= f_pts_delay fr < 2 ^ 31.

(* fields of the 32 bytes of a media info: type, codec, timescale, ... *)
Definition media_type_of (mi : list Z) : Z := unle (firstn 4 mi).
Definition timescale_of (mi : list Z) : Z := unle (firstn 4 (skipn 8 mi)).

Definition ok_pkt (p : pkt) : Prop :=
  match p with
  | PMediaInfo mi ext data =>
      length mi = 32%nat /\ 0 < timescale_of mi /\ sized (mi ++ ext) data
  | PFrame fr ext data => ok_frame fr /\ sized (wire_frame fr ++ ext) data
  | PNull ext data | PEnd ext data => sized ext data
  end.

Definition ok_connect (k : connect) : Prop :=
  length (k_channel k) = 32%nat /\ length (k_track k) = 32%nat /\
  0 <= k_initial k < 2 ^ 64 - 1 /\
  sized (connect_fields k ++ k_ext k) (k_data k).

(* History: how many frames were sent, the media info in force. *)
Definition frames_sent (ps : list pkt) : Z :=
  Z.of_nat (length (filter (fun p => match p with PFrame _ _ _ => true | _ => false end) ps)).

Fixpoint media_in_force (ps : list pkt) : option (list Z) :=
  match ps with
  | [] => None
  | PMediaInfo mi _ _ :: r =>
      match media_in_force r with Some m => Some m | None => Some mi end
  | _ :: r => media_in_force r
  end.

Definition key_frame (fr : frame) : Prop := Z.odd (f_flags fr) = true.

(* Video may flow: since the last media info there was a key frame that was not
   a duplicate and not empty; or, when the owner asked for it, the last
   duplicate. *)
Definition flowing (skip : Z) (keep : bool) (ps : list pkt) : Prop :=
  exists a fr ext data b,
    ps = a ++ PFrame fr ext data :: b /\ media_in_force b = None /\
    ((key_frame fr /\ data <> [] /\ skip <= frames_sent a) \/
     (keep = true /\ frames_sent a + 1 = skip)).

Inductive fate := Duplicate | NoMediaInfo | Empty | EmptyDuration | NoKey | Delivered.

(* The fate of a frame sent after the packets [ps]. *)
Inductive frame_fate (skip : Z) (keep : bool) (ps : list pkt) (fr : frame) (data : list Z)
    : fate -> Prop :=
| fate_duplicate :
    frames_sent ps < skip -> frame_fate skip keep ps fr data Duplicate
| fate_no_media_info :
    skip <= frames_sent ps -> media_in_force ps = None ->
    frame_fate skip keep ps fr data NoMediaInfo
| fate_empty : forall mi,
    skip <= frames_sent ps -> media_in_force ps = Some mi -> data = [] ->
    frame_fate skip keep ps fr data Empty
| fate_empty_duration : forall mi,
    skip <= frames_sent ps -> media_in_force ps = Some mi -> data <> [] ->
    media_type_of mi = media_subtitle -> f_pts_delay fr <= 0 ->
    frame_fate skip keep ps fr data EmptyDuration
| fate_no_key : forall mi,
    skip <= frames_sent ps -> media_in_force ps = Some mi -> data <> [] ->
    media_type_of mi = media_video -> ~ key_frame fr -> ~ flowing skip keep ps ->
    frame_fate skip keep ps fr data NoKey
| fate_delivered : forall mi,
    skip <= frames_sent ps -> media_in_force ps = Some mi -> data <> [] ->
    (media_type_of mi = media_subtitle -> 0 < f_pts_delay fr) ->
    (media_type_of mi = media_video -> key_frame fr \/ flowing skip keep ps) ->
    frame_fate skip keep ps fr data Delivered.

(* Only the key flag is passed on. *)
Definition shown (fr : frame) : frame :=
  mkFrame (f_created fr) (f_dts fr) (f_flags fr mod 2) (f_pts_delay fr).

(* told: the events the owner gets (oldest first) for the packets sent, and the
   fates of the frames. *)
Inductive told (initial skip : Z) (keep : bool) : list pkt -> list event -> list fate -> Prop :=
| told_nil : told initial skip keep [] [] []
| told_media_info : forall ps evs fs mi ext data,
    told initial skip keep ps evs fs ->
    told initial skip keep (ps ++ [PMediaInfo mi ext data])
      (evs ++ [EMediaInfo mi data (Z.of_nat (length data))]) fs
| told_null : forall ps evs fs ext data,
    told initial skip keep ps evs fs ->
    told initial skip keep (ps ++ [PNull ext data]) evs fs
| told_frame : forall ps evs fs fr ext data,
    told initial skip keep ps evs fs ->
    frame_fate skip keep ps fr data Delivered ->
    told initial skip keep (ps ++ [PFrame fr ext data])
      (evs ++ [EFrame ((initial + frames_sent ps) mod 2 ^ 64) (shown fr) data
                 (Z.of_nat (length data))]) (fs ++ [Delivered])
| told_dropped : forall ps evs fs fr ext data x,
    told initial skip keep ps evs fs ->
    frame_fate skip keep ps fr data x -> x <> Delivered ->
    told initial skip keep (ps ++ [PFrame fr ext data]) evs (fs ++ [x]).

Definition fate_eq_dec (x y : fate) : {x = y} + {x <> y}.
Proof. decide equality. Defined.

Definition tally (x : fate) (fs : list fate) : Z := Z.of_nat (count_occ fate_eq_dec fs x).

Definition no_end (ps : list pkt) : Prop :=
  Forall (fun p => match p with PEnd _ _ => False | _ => True end) ps.

(* An owner that never runs out of links, and one that accepts everything. *)
Definition has_links (o : owner) : Prop := forall n, o_alloc o n = true.
Definition accepts (a : answer) : Prop := a = AOk \/ a = ADone.
Definition agreeable (o : owner) : Prop :=
  has_links o /\ (forall h, o_connect_data o h = AOk) /\
  (forall h, accepts (o_media_info o h)) /\ (forall h, accepts (o_frame o h)).

(* get_input_buf never fails in the schedule *)
Definition has_bufs (s : schedule) : Prop := Forall (fun x => snd x <> None) s.

(* What is known of a connection from outside. *)
Definition seen (c : conn) : list event := rev (events (c_parser c)).

(* Acknowledgements: what may be requested and what the socket may accept. *)
Inductive ack_op := Ack (id : Z) | Writable (sends : list nat).
Definition ack_step (a : acker) (op : ack_op) : acker :=
  match op with Ack id => ack_frames a id | Writable s => write_handler a s end.
Definition ack_run (a : acker) (ops : list ack_op) : acker := fold_left ack_step ops a.

(* the wire format of an acknowledgement of all frames below [id] *)
Definition wire_ack (id : Z) : list Z :=
  wire pt_ack (le 8 id ++ le 8 0 ++ le 4 0 ++ le 4 0) [].

(* the highest id asked for *)
Fixpoint highest (initial : Z) (ops : list ack_op) : Z :=
  match ops with
  | [] => initial
  | Ack id :: r => highest (Z.max initial id) r
  | Writable _ :: r => highest initial r
  end.

Inductive increasing : Z -> list Z -> Prop :=
| inc_nil : forall lo, increasing lo []
| inc_cons : forall lo x r, lo < x -> increasing x r -> increasing lo (x :: r).

(* The links a handler kept: those of the calls it answered with NGX_OK
   (calls newest first). *)
Fixpoint kept (o : owner) (calls : list callback) : list nat :=
  match calls with
  | [] => []
  | c :: older =>
      kept o older ++
      match c with
      | CMediaInfo _ d _ =>
          match o_media_info o (map event_of calls) with AOk => map n_id d | _ => [] end
      | CFrame _ _ d _ =>
          match o_frame o (map event_of calls) with AOk => map n_id d | _ => [] end
      | _ => []
      end
  end.

(* an owner that never asks to go on without a key frame *)
Definition waits_for_key (o : owner) : Prop :=
  forall h skip keep, o_connected o h = inl (skip, keep) -> keep = false.

Definition is_media_info (e : event) : Prop :=
  match e with EMediaInfo _ _ _ => True | _ => False end.


(* The size an event announces is that of its data, within the limits.  (The
   data of a connect packet is passed on without a size.) *)
Definition right_size (e : event) : Prop :=
  match e with
  | EMediaInfo mi d s => length mi = 32%nat /\ s = Z.of_nat (length d) /\ s <= 16 * 1024 * 1024
  | EFrame _ _ d s => s = Z.of_nat (length d) /\ s <= 16 * 1024 * 1024
  | EConnectData d => Z.of_nat (length d) <= 16 * 1024 * 1024 + 88
  | EEndStream => True
  end.

(* what the owner is told about the connect packet itself *)
Definition greeting (o : owner) (k : connect) : list event :=
  if o_has_connect_data o then [EConnectData (k_data k)] else [].
