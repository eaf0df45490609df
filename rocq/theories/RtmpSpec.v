(* What an RTMP sender may send: messages on several chunk streams, each cut
   into chunks, the chunks of different chunk streams in any order.  This is
   written from the RTMP chunk format; only the end of this file refers to the
   reader. *)

From Coq Require Import List ZArith Bool.
From Verif Require Import Bytes RtmpModel.
Import ListNotations.
Open Scope Z_scope.

(* a message: chunk stream, time, type, message stream, content *)
Record smsg := SMsg {
  x_csid : Z;
  x_ts : Z;
  x_type : Z;
  x_msid : Z;
  x_body : list Z
}.

(* what a sender remembers of a chunk stream: the last message, the last time
   difference, the last number in a timestamp field, whether it needed an
   extended timestamp, and what is still to be sent of the message *)
Record pst := PSt {
  p_msg : smsg;
  p_delta : Z;
  p_field : Z;
  p_ext : bool;
  p_left : list Z
}.

Record sender := Sender {
  n_chunk : Z;                (* the chunk size in force *)
  n_st : Z -> pst;
  n_done : list smsg          (* the messages sent completely, in that order *)
}.

Definition sender0 : sender :=
  Sender 128 (fun cs => PSt (SMsg cs 0 0 0 []) 0 0 false []) [].

(* start a message with a header of type fmt, or send one more chunk of the
   message that was started on a chunk stream; form is the size of the basic
   header *)
Inductive act :=
  | Start (form fmt : Z) (m : smsg)
  | Next (form cs : Z).

Definition zlen (l : list Z) : Z := Z.of_nat (length l).
Definition ztake (n : Z) (l : list Z) : list Z := firstn (Z.to_nat n) l.
Definition zdrop (n : Z) (l : list Z) : list Z := skipn (Z.to_nat n) l.

(* ---- the bytes ---- *)

Definition w_basic (form fmt cs : Z) : list Z :=
  if form =? 1 then [fmt * 64 + cs]
  else if form =? 2 then [fmt * 64; cs - 64]
  else (fmt * 64 + 1) :: le 2 (cs - 64).

Definition form_ok (form cs : Z) : Prop :=
  (form = 1 /\ 2 <= cs <= 63) \/ (form = 2 /\ 64 <= cs <= 319) \/ (form = 3 /\ 64 <= cs <= 65599).

Definition no_ts : Z := 16777215.   (* 0xffffff: the time is in the extended timestamp *)

(* the time in the header: absolute, or the difference to the last message *)
Definition w_field (p : pst) (fmt : Z) (m : smsg) : Z :=
  if fmt =? 0 then x_ts m else u32 (x_ts m - x_ts (p_msg p)).

Definition w_mhdr (fmt f : Z) (m : smsg) : list Z :=
  (if fmt <=? 2 then be 3 (Z.min f no_ts) else []) ++
  (if fmt <=? 1 then be 3 (zlen (x_body m)) ++ [x_type m] else []) ++
  (if fmt =? 0 then le 4 (x_msid m) else []).

(* does the message use an extended timestamp *)
Definition w_has_ext (p : pst) (fmt f : Z) : bool :=
  if fmt =? 3 then p_ext p else f >=? no_ts.

(* repeats: the sender also puts the extended timestamp into headers of type 3 *)
Definition w_ext (repeats : bool) (p : pst) (fmt f : Z) : list Z :=
  if w_has_ext p fmt f && ((fmt <? 3) || repeats) then be 4 f else [].

Definition w_act (repeats : bool) (n : sender) (a : act) : list Z :=
  match a with
  | Start form fmt m =>
      let p := n_st n (x_csid m) in
      let f := w_field p fmt m in
      w_basic form fmt (x_csid m) ++ w_mhdr fmt f m ++ w_ext repeats p fmt f ++ ztake (n_chunk n) (x_body m)
  | Next form cs =>
      let p := n_st n cs in
      w_basic form 3 cs ++ (if p_ext p && repeats then be 4 (p_field p) else []) ++ ztake (n_chunk n) (p_left p)
  end.

(* ---- the sender's state ---- *)

Definition upd (f : Z -> pst) (k : Z) (x : pst) : Z -> pst := fun j => if j =? k then x else f j.

(* part of a message was sent; when it was the last part the message is done,
   and a message of type 1 sets the chunk size from then on *)
Definition n_sent (n : sender) (p : pst) : sender :=
  let m := p_msg p in
  match p_left p with
  | [] => Sender (if x_type m =? 1 then unbe (x_body m) else n_chunk n) (upd (n_st n) (x_csid m) p) (n_done n ++ [m])
  | _ => Sender (n_chunk n) (upd (n_st n) (x_csid m) p) (n_done n)
  end.

Definition n_act (n : sender) (a : act) : sender :=
  match a with
  | Start form fmt m =>
      let p := n_st n (x_csid m) in
      let f := w_field p fmt m in
      n_sent n (PSt m (if fmt =? 0 then 0 else f) f (w_has_ext p fmt f) (zdrop (n_chunk n) (x_body m)))
  | Next form cs =>
      let p := n_st n cs in
      n_sent n (PSt (p_msg p) (p_delta p) (p_field p) (p_ext p) (zdrop (n_chunk n) (p_left p)))
  end.

(* ---- what is allowed ---- *)

Definition msg_ok (min_chunk max_streams max_message : Z) (m : smsg) : Prop :=
  2 <= x_csid m < max_streams /\
  0 <= x_ts m < 2 ^ 32 /\ 0 <= x_type m < 256 /\ 0 <= x_msid m < 2 ^ 32 /\
  zlen (x_body m) < 2 ^ 24 /\ zlen (x_body m) <= max_message /\ Forall is_byte (x_body m) /\
  (* a chunk size message holds a chunk size up to 10 MB *)
  (x_type m = 1 -> zlen (x_body m) = 4 /\ min_chunk <= unbe (x_body m) <= 10485760).

Definition act_ok (min_chunk max_streams max_message : Z) (n : sender) (a : act) : Prop :=
  match a with
  | Start form fmt m =>
      let p := n_st n (x_csid m) in
      msg_ok min_chunk max_streams max_message m /\ form_ok form (x_csid m) /\ 0 <= fmt <= 3 /\
      p_left p = [] /\
      (1 <= fmt -> x_msid m = x_msid (p_msg p)) /\
      (2 <= fmt -> x_type m = x_type (p_msg p) /\ zlen (x_body m) = zlen (x_body (p_msg p))) /\
      (3 <= fmt -> w_field p fmt m = p_delta p)
  | Next form cs => 2 <= cs < max_streams /\ form_ok form cs /\ p_left (n_st n cs) <> []
  end.

Fixpoint acts_ok (min_chunk max_streams max_message : Z) (n : sender) (l : list act) : Prop :=
  match l with
  | [] => True
  | a :: r => act_ok min_chunk max_streams max_message n a /\ acts_ok min_chunk max_streams max_message (n_act n a) r
  end.

(* A reader that does not know whether the sender repeats extended timestamps
   decides when it sees the first header of type 3 that may hold one, by
   comparing it with the last number that was in the header of a message.  So
   that chunk has to belong to the message whose header came last (last is the
   number in it), and the sender has to be one that repeats. *)
Fixpoint auto_ok (repeats : bool) (last : Z) (n : sender) (l : list act) : Prop :=
  match l with
  | [] => True
  | a :: r =>
      match a with
      | Start form fmt m =>
          let p := n_st n (x_csid m) in
          if (fmt =? 3) && p_ext p then repeats = true /\ w_field p fmt m = last
          else auto_ok repeats (w_field p fmt m) (n_act n a) r
      | Next form cs =>
          if p_ext (n_st n cs) then repeats = true /\ p_field (n_st n cs) = last
          else auto_ok repeats last (n_act n a) r
      end
  end.

Fixpoint wire (repeats : bool) (n : sender) (l : list act) : list Z :=
  match l with
  | [] => []
  | a :: r => w_act repeats n a ++ wire repeats (n_act n a) r
  end.

Fixpoint sent (n : sender) (l : list act) : list smsg :=
  match l with
  | [] => n_done n
  | a :: r => sent (n_act n a) r
  end.

(* ---- comparing with what the reader's handlers get ---- *)

Definition view (m : msg) : smsg := SMsg (m_csid m) (m_ts m) (m_type m) (m_msid m) (concat (m_bufs m)).

(* there are no handlers for types above 22 *)
Definition known (m : smsg) : bool := x_type m <=? 22.

(* what the reader is told about extended timestamps is right *)
Definition agree (t3 : t3_mode) (repeats : bool) (l : list act) : Prop :=
  match t3 with
  | T3On => repeats = true
  | T3Off => repeats = false
  | T3Auto => auto_ok repeats 0 sender0 l
  end.
