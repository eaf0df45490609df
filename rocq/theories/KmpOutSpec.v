(* Specification of the sending side of KMP: what is written to a track, and
   what a connection to a receiver must carry.  The packets, their encoding
   and the connect packet are those of KmpInSpec (the receiving side). *)
From Coq Require Import ZArith List Bool.
From Verif Require Import Bytes KmpInModel KmpInSpec KmpOutModel.
Import ListNotations.
Open Scope Z_scope.

(* The packets a track writes before its end: media infos, frames and
   keepalives. *)
Definition sendable (p : pkt) : Prop :=
  zlen (encode p) < 2 ^ 32 /\
  match p with
  | PMediaInfo _ _ _ | PFrame _ _ _ => True
  | PNull ext data => ext = [] /\ data = []
  | PEnd _ _ => False
  end.

(* The last media info packet, as it was written; nothing if there was none. *)
Fixpoint last_media_info (ps : list pkt) : list Z :=
  match ps with
  | [] => []
  | PMediaInfo mi ext data :: r =>
      match last_media_info r with [] => encode (PMediaInfo mi ext data) | l => l end
  | _ :: r => last_media_info r
  end.

Definition is_prefix {A} (a b : list A) : Prop := exists r, b = a ++ r.

(* What a connection that resumes after the packets [pk] starts with: the
   connect packet, announcing the number of the next frame, and the media info
   in force. *)
Definition greeting (c : conf) (pk : list pkt) (up off : Z) (data : list Z) : list Z :=
  encode_connect
    (mkConnect (firstn 32 (c_names c)) (skipn 32 (c_names c))
       (c_initial c + frames_sent pk) up off (c_flags c) [] data)
  ++ last_media_info pk.

(* The bytes given to the track by a history. *)
Fixpoint written (ops : list op) : list Z :=
  match ops with
  | [] => []
  | OWrite d _ :: r => d ++ written r
  | _ :: r => written r
  end.

(* The history writes the packets [pkts], perhaps not yet all of them, in
   pieces of any size. *)
Definition writes (pkts : list pkt) (ops : list op) : Prop :=
  is_prefix (written ops) (encode_all pkts).

(* [u] has acknowledged exactly the packets [pk]. *)
Definition acknowledged (c : conf) (pk : list pkt) (u : upstream) : Prop :=
  u_reader u = zlen (encode_all pk) /\
  u_acked_bytes u = zlen (encode_all pk) /\
  u_acked_id u = c_initial c + frames_sent pk /\
  u_media_info u = last_media_info pk.

(* The acknowledgements in a history (the frame ids). *)
Fixpoint acks (ops : list op) : list Z :=
  match ops with
  | [] => []
  | OAck _ f _ _ _ :: r => f :: acks r
  | _ :: r => acks r
  end.

(* Histories in which memory is never low. *)
Definition op_world (o : op) : option world :=
  match o with
  | OWrite _ w | OFlush w | OWritable _ w | OAck _ _ _ _ w | OClosed _ w => Some w
  | _ => None
  end.
Definition memory_ok (ops : list op) : Prop :=
  forall o w, In o ops -> op_world o = Some w -> w_mem w = [].

(* The resume modes of the upstreams of a history. *)
Definition op_modes (o : op) : list mode :=
  match o with
  | OPublish l => map (fun x => fst (fst x)) l
  | OAdd _ m _ _ => [m]
  | _ => []
  end.
Definition modes (ops : list op) : list mode := concat (map op_modes ops).

(* Every upstream waits for acknowledgements; memory is never low. *)
Definition acked_only (ops : list op) : Prop :=
  memory_ok ops /\ Forall (fun m => m = LastAcked) (modes ops).

(* There is one upstream, which does not resume from the last frame written;
   memory is never low. *)
Definition one_sender (ops : list op) : Prop :=
  memory_ok ops /\ (length (modes ops) <= 1)%nat /\
  Forall (fun m => m <> LastWritten) (modes ops).

(* There is one upstream (of any kind, with any amount of memory), and it never
   starts a connection at a point beyond the data that was handed over for
   sending. *)
Fixpoint resumes_behind (c : conf) (t : track) (ops : list op) : Prop :=
  match ops with
  | [] => True
  | o :: rest =>
      (forall id w u, o = OWritable id w -> In u (t_ups t) -> u_id u = id ->
         u_queued u = false -> u_reader u <= t_appended t) /\
      (forall t', step c t o = Next t' -> resumes_behind c t' rest)
  end.
Definition one_upstream (c : conf) (ops : list op) : Prop :=
  (length (modes ops) <= 1)%nat /\ resumes_behind c init_track ops.

Definition ok_conf (c : conf) : Prop := 0 < c_bufsize c /\ length (c_names c) = 64%nat.

Definition covered (c : conf) (ops : list op) : Prop :=
  acked_only ops \/ one_sender ops \/ one_upstream c ops.

(* The buffers released so far hold the first [released] bytes of the track. *)
Definition released (c : conf) (t : track) : Z := t_base t * c_bufsize c.

(* What one event does to the acknowledged frame id of an upstream that waits
   for acknowledgements. *)
Inductive origin (c : conf) (t : track) (o : op) (u' : upstream) : Prop :=
| origin_kept : forall u,
    In u (t_ups t) -> u_id u' = u_id u -> u_mode u' = u_mode u ->
    u_acked_id u' = u_acked_id u -> origin c t o u'
| origin_acked : forall u f up off w,
    In u (t_ups t) -> u_id u' = u_id u -> u_mode u' = u_mode u ->
    o = OAck (u_id u) f up off w -> u_acked_id u' = Z.max (u_acked_id u) f -> origin c t o u'
| origin_published : forall l,
    o = OPublish l -> u_acked_id u' = c_initial c -> origin c t o u'
| origin_copied : forall u src m r d,
    o = OAdd src m r d -> In u (t_ups t) ->
    (src = Some (u_id u) \/ src = None /\ forall v, In v (t_ups t) -> u_acked_id u <= u_acked_id v) ->
    u_acked_id u' = u_acked_id u -> origin c t o u'.
