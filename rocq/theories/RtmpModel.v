(* A model of the RTMP chunk reader: how the bytes of a connection are read
   into buffers, split into chunks of several chunk streams and put together
   into messages.

   Modelled: nginx-rtmp-module/src/ngx_rtmp_handler.c:103-131 (input buffers),
   198-586 (ngx_rtmp_recv), 857-938 (ngx_rtmp_receive_message, up to the
   handlers), 941-1054 (chunk size changes); ngx_rtmp_receive.c:14-75 (the
   chunk size message); ngx_rtmp_init.c:200-221 (the initial state).

   Not modelled: failing allocations (they close the session), the ack and
   bandwidth counters, the input dump, logging, and what the message handlers
   do: a handler is a function of the messages delivered so far that says
   whether the session goes on.

   Numbers are Z; 32 bit fields wrap at 2^32.  An access to memory that is not
   there (a destroyed pool, a position outside a buffer, bytes that were
   overwritten) is the result None. *)

From Coq Require Import List ZArith Lia Bool.
From Verif Require Import Lists Bytes.
Import ListNotations.
Open Scope Z_scope.

Definition len {A} (l : list A) : Z := Z.of_nat (length l).
Definition take {A} (n : Z) (l : list A) : list A := firstn (Z.to_nat n) l.
Definition drop {A} (n : Z) (l : list A) : list A := skipn (Z.to_nat n) l.

(* ngx_rtmp.h:36-41 *)
Definition default_chunk_size : Z := 128.
Definition max_chunk_size : Z := 10485760.
(* ngx_rtmp.h:165 *)
Definition max_chunk_header : Z := 18.
(* ngx_rtmp.h: NGX_RTMP_MSG_CHUNK_SIZE, NGX_RTMP_MSG_MAX *)
Definition msg_chunk_size : Z := 1.
Definition msg_max : Z := 22.

(* ngx_rtmp.h:202-206 *)
Inductive t3_mode := T3Off | T3On | T3Auto.

(* ngx_rtmp_header_t and the numbers of ngx_rtmp_chunk_stream_t
   (ngx_rtmp.h:168-183); the number of the chunk stream is its index *)
Record chdr := Chdr {
  c_ts : Z;
  c_mlen : Z;
  c_type : Z;
  c_msid : Z;
  c_dtime : Z;
  c_len : Z;
  c_ext : bool
}.

Definition chdr0 : chdr := Chdr 0 0 0 0 0 0 false.

(* an input buffer (ngx_rtmp_handler.c:103-131): b_data are the bytes between
   start and last, b_pos is pos - start, b_cap is end - start; b_id tells
   buffers apart, b_pool is the memory pool it lives in *)
Record buf := Buf {
  b_id : nat;
  b_pool : nat;
  b_cap : Z;
  b_data : list Z;
  b_pos : Z
}.

Definition payload (b : buf) : list Z := drop (b_pos b) (b_data b).

(* a message as the handlers get it: the header and the chain of buffers *)
Record msg := Msg {
  m_csid : Z;
  m_ts : Z;
  m_mlen : Z;
  m_type : Z;
  m_msid : Z;
  m_bufs : list (list Z)
}.

(* old_pos: a position inside a buffer that still holds unread bytes *)
Record oldpos := Old {
  o_id : nat;
  o_pool : nat;
  o_data : list Z;
  o_off : Z
}.

(* the parts of ngx_rtmp_core_srv_conf_t that matter, and the handlers *)
Record cfg := Cfg {
  max_streams : Z;
  max_message : Z;
  accept : list msg -> bool
}.

(* ngx_rtmp_session_t and the locals of ngx_rtmp_recv that live from turn to
   turn.  The chain of stream 0 (unused buffers, the head is filled while
   in_csid is 0) is s_free; the chain of another stream is kept from the oldest
   to the newest buffer (in the code: cyclic, st->in is the newest). *)
Record sess := Sess {
  s_streams : list (chdr * list buf);
  s_free : list buf;
  s_csid : Z;
  s_old : option oldpos;
  s_osize : Z;
  s_last : Z;
  s_t3 : t3_mode;
  s_chunk : Z;
  s_pool : nat;
  s_oldpool : option nat;
  s_chg : bool;
  s_live : list nat;
  s_nid : nat;
  s_npool : nat;
  s_out : list msg
}.

Definition set_streams (s : sess) x := Sess x (s_free s) (s_csid s) (s_old s) (s_osize s) (s_last s)
  (s_t3 s) (s_chunk s) (s_pool s) (s_oldpool s) (s_chg s) (s_live s) (s_nid s) (s_npool s) (s_out s).
Definition set_free (s : sess) x := Sess (s_streams s) x (s_csid s) (s_old s) (s_osize s) (s_last s)
  (s_t3 s) (s_chunk s) (s_pool s) (s_oldpool s) (s_chg s) (s_live s) (s_nid s) (s_npool s) (s_out s).
Definition set_csid (s : sess) x := Sess (s_streams s) (s_free s) x (s_old s) (s_osize s) (s_last s)
  (s_t3 s) (s_chunk s) (s_pool s) (s_oldpool s) (s_chg s) (s_live s) (s_nid s) (s_npool s) (s_out s).
Definition set_old (s : sess) x n := Sess (s_streams s) (s_free s) (s_csid s) x n (s_last s)
  (s_t3 s) (s_chunk s) (s_pool s) (s_oldpool s) (s_chg s) (s_live s) (s_nid s) (s_npool s) (s_out s).
Definition set_last (s : sess) x t := Sess (s_streams s) (s_free s) (s_csid s) (s_old s) (s_osize s) x
  t (s_chunk s) (s_pool s) (s_oldpool s) (s_chg s) (s_live s) (s_nid s) (s_npool s) (s_out s).
Definition set_chunk (s : sess) x := Sess (s_streams s) (s_free s) (s_csid s) (s_old s) (s_osize s) (s_last s)
  (s_t3 s) x (s_pool s) (s_oldpool s) (s_chg s) (s_live s) (s_nid s) (s_npool s) (s_out s).
Definition set_pools (s : sess) p o c l := Sess (s_streams s) (s_free s) (s_csid s) (s_old s) (s_osize s) (s_last s)
  (s_t3 s) (s_chunk s) p o c l (s_nid s) (s_npool s) (s_out s).
Definition set_ids (s : sess) i p := Sess (s_streams s) (s_free s) (s_csid s) (s_old s) (s_osize s) (s_last s)
  (s_t3 s) (s_chunk s) (s_pool s) (s_oldpool s) (s_chg s) (s_live s) i p (s_out s).
Definition set_out (s : sess) x := Sess (s_streams s) (s_free s) (s_csid s) (s_old s) (s_osize s) (s_last s)
  (s_t3 s) (s_chunk s) (s_pool s) (s_oldpool s) (s_chg s) (s_live s) (s_nid s) (s_npool s) x.

(* ngx_rtmp_init.c:200-221: one pool, the default chunk size, nothing read *)
Definition init (c : cfg) (t3 : t3_mode) : sess :=
  Sess (repeat (chdr0, []) (Z.to_nat (max_streams c))) [] 0 None 0 0 t3 default_chunk_size
    0%nat None false [0%nat] 0%nat 1%nat [].

(* ---- memory ---- *)

Definition is_live (s : sess) (p : nat) : bool := existsb (Nat.eqb p) (s_live s).

Definition buf_cap (s : sess) : Z := s_chunk s + max_chunk_header.

(* ngx_rtmp_alloc_in_buf, ngx_rtmp_handler.c:103-131 *)
Definition alloc_in_buf (s : sess) : sess * buf :=
  (set_ids s (S (s_nid s)) (s_npool s), Buf (s_nid s) (s_pool s) (buf_cap s) [] 0).

Definition stream (s : sess) (c : Z) : chdr * list buf := nth (Z.to_nat c) (s_streams s) (chdr0, []).
Definition set_stream (s : sess) (c : Z) (x : chdr * list buf) : sess :=
  set_streams s (set_nth (s_streams s) (Z.to_nat c) x).

(* the buffer st->in of the current stream, ngx_rtmp_handler.c:228-242:
   a new one when there is none *)
Definition with_buf (s : sess) : sess :=
  if s_csid s =? 0 then
    match s_free s with
    | [] => let (s1, b) := alloc_in_buf s in set_free s1 [b]
    | _ => s
    end
  else
    match snd (stream s (s_csid s)) with
    | [] => let (s1, b) := alloc_in_buf s in
            set_stream s1 (s_csid s) (fst (stream s (s_csid s)), [b])
    | _ => s
    end.

Definition cur_buf (s : sess) : option buf :=
  if s_csid s =? 0 then
    match s_free s with [] => None | b :: _ => Some b end
  else
    match rev (snd (stream s (s_csid s))) with [] => None | b :: _ => Some b end.

Definition set_cur_buf (s : sess) (b : buf) : sess :=
  if s_csid s =? 0 then
    set_free s (b :: tl (s_free s))
  else
    let st := stream s (s_csid s) in
    set_stream s (s_csid s) (fst st, removelast (snd st) ++ [b]).

Definition set_data (b : buf) (d : list Z) (p : Z) : buf := Buf (b_id b) (b_pool b) (b_cap b) d p.

(* ngx_destroy_pool *)
Definition destroy_pool (s : sess) (p : nat) : option sess :=
  if is_live s p then
    Some (set_pools s (s_pool s) (s_oldpool s) (s_chg s) (remove Nat.eq_dec p (s_live s)))
  else None.

(* ngx_rtmp_finalize_set_chunk_size, ngx_rtmp_handler.c:1045-1054 *)
Definition finalize_set_chunk_size (s : sess) : option sess :=
  match s_oldpool s with
  | Some p =>
      if s_chg s then
        match destroy_pool s p with
        | Some s1 => Some (set_pools s1 (s_pool s1) None false (s_live s1))
        | None => None
        end
      else Some s
  | None => Some s
  end.

(* ---- set chunk size ---- *)

(* the copy loop of ngx_rtmp_set_chunk_size, ngx_rtmp_handler.c:1010-1037: cap is
   the size of a new buffer, bo the bytes in the buffer that is being filled,
   li the old buffers from the oldest on *)
Fixpoint repack_loop (fuel : nat) (cap : Z) (bo : list Z) (li : list (list Z)) : option (list (list Z)) :=
  match fuel with
  | O => None
  | S fuel1 =>
      match li with
      | [] => Some [bo]
      | bi :: li1 =>
          if len bi <=? cap - len bo then
            match li1 with
            | [] => Some [bo ++ bi]
            | _ => repack_loop fuel1 cap (bo ++ bi) li1
            end
          else
            match repack_loop fuel1 cap [] (drop (cap - len bo) bi :: li1) with
            | Some r => Some ((bo ++ take (cap - len bo) bi) :: r)
            | None => None
            end
      end
  end.

Definition repack_fuel (li : list (list Z)) : nat := (length li + length (concat li) + 1)%nat.

(* ngx_rtmp_handler.c:993-1037 for one stream: no buffers stay no buffers *)
Definition repack (cap : Z) (li : list (list Z)) : option (list (list Z)) :=
  match li with
  | [] => Some []
  | _ => repack_loop (repack_fuel li) cap [] li
  end.

(* the new buffers of a stream *)
Fixpoint mk_bufs (id pool : nat) (cap : Z) (l : list (list Z)) : list buf :=
  match l with
  | [] => []
  | d :: r => Buf id pool cap d 0 :: mk_bufs (S id) pool cap r
  end.

Definition bufs_live (s : sess) (l : list buf) : bool := forallb (fun b => is_live s (b_pool b)) l.

(* the loop over the streams, ngx_rtmp_handler.c:986-1038 (stream 0 and the
   current stream have no buffers here) *)
Fixpoint repack_all (live : list buf -> bool) (id pool : nat) (cap : Z) (l : list (chdr * list buf)) :
    option (list (chdr * list buf) * nat) :=
  match l with
  | [] => Some ([], id)
  | (h, bs) :: r =>
      if live bs then
        match repack cap (map payload bs) with
        | Some ds =>
            match repack_all live (id + length ds) pool cap r with
            | Some (r1, id1) => Some ((h, mk_bufs id pool cap ds) :: r1, id1)
            | None => None
            end
        | None => None
        end
      else None
  end.

(* ngx_rtmp_set_chunk_size, ngx_rtmp_handler.c:941-1042, for a session that has
   a pool *)
Definition set_chunk_size (s : sess) (size : Z) : option sess :=
  if size <? 1 then Some s
  else if size >? max_chunk_size then Some s
  else
    let p := s_npool s in
    let s1 := set_pools s p (Some (s_pool s)) true (p :: s_live s) in
    let s2 := set_free (set_chunk (set_ids s1 (s_nid s) (S p)) size) [] in
    match repack_all (bufs_live s2) (s_nid s2) p (buf_cap s2) (s_streams s2) with
    | Some (sts, id) => Some (set_streams (set_ids s2 id (s_npool s2)) sts)
    | None => None
    end.

(* ---- chunk headers ---- *)

Definition be24 (a b c : Z) : Z := a * 65536 + b * 256 + c.
Definition be32 (a b c d : Z) : Z := a * 16777216 + b * 65536 + c * 256 + d.
Definition le32 (a b c d : Z) : Z := be32 d c b a.

(* ngx_rtmp_handler.c:326-352: chunk type, chunk stream and size of the basic
   header; None: more bytes are needed *)
Definition parse_basic (d : list Z) : option (Z * Z * Z) :=
  match d with
  | [] => None
  | x :: r =>
      let fmt := x / 64 in
      let csid := x mod 64 in
      if csid =? 0 then
        match r with
        | a :: _ => Some (fmt, 64 + a, 2)
        | _ => None
        end
      else if csid =? 1 then
        match r with
        | a :: b :: _ => Some (fmt, 64 + a + 256 * b, 3)
        | _ => None
        end
      else Some (fmt, csid, 1)
  end.

Inductive hres :=
  | HMore (h : chdr)                                     (* more bytes are needed *)
  | HDone (h : chdr) (last : Z) (t3 : t3_mode) (n : Z).  (* n bytes of header read *)

Definition set_mlen (h : chdr) (mlen type : Z) : chdr :=
  Chdr (c_ts h) mlen type (c_msid h) (c_dtime h) (c_len h) (c_ext h).
Definition set_msid (h : chdr) (msid : Z) : chdr :=
  Chdr (c_ts h) (c_mlen h) (c_type h) msid (c_dtime h) (c_len h) (c_ext h).
Definition set_ext (h : chdr) (ext : bool) : chdr :=
  Chdr (c_ts h) (c_mlen h) (c_type h) (c_msid h) (c_dtime h) (c_len h) ext.
Definition set_ts (h : chdr) (ts dtime : Z) : chdr :=
  Chdr ts (c_mlen h) (c_type h) (c_msid h) dtime (c_len h) (c_ext h).
Definition set_len (h : chdr) (n : Z) : chdr :=
  Chdr (c_ts h) (c_mlen h) (c_type h) (c_msid h) (c_dtime h) n (c_ext h).

Definition is_off (t : t3_mode) : bool := match t with T3Off => true | _ => false end.
Definition is_auto (t : t3_mode) : bool := match t with T3Auto => true | _ => false end.

(* ngx_rtmp_handler.c:483-500: the first chunk of a message sets the time *)
Definition hdr_finish (t3 : t3_mode) (last : Z) (h : chdr) (fmt : Z) (ext : bool) (ts n : Z) : hres :=
  if c_len h =? 0 then
    let h1 := set_ext h (ext && negb (is_off t3)) in
    if negb (fmt =? 0) then HDone (set_ts h1 (c_ts h1) ts) ts t3 n
    else HDone (set_ts h1 ts 0) ts t3 n
  else HDone h last t3 n.

(* ngx_rtmp_handler.c:441-481: the extended timestamp *)
Definition hdr_ext (t3 : t3_mode) (last : Z) (h : chdr) (fmt : Z) (ext : bool) (ts : Z) (d : list Z) (n : Z) : hres :=
  if ext then
    match d with
    | e3 :: e2 :: e1 :: e0 :: _ =>
        let ts1 := be32 e3 e2 e1 e0 in
        if is_auto t3 && (fmt >? 2) then
          if negb (ts1 =? last) then
            hdr_finish T3Off last (set_ext h false) fmt ext (c_dtime h) n
          else hdr_finish T3On last h fmt ext ts1 (n + 4)
        else hdr_finish t3 last h fmt ext ts1 (n + 4)
    | _ => HMore h
    end
  else hdr_finish t3 last h fmt ext ts n.

(* ngx_rtmp_handler.c:392-439: the message header; the length, type and message
   stream are stored as soon as they are read *)
Definition parse_hdr (t3 : t3_mode) (last : Z) (h : chdr) (fmt : Z) (d : list Z) : hres :=
  if fmt <=? 2 then
    match d with
    | t2 :: t1 :: t0 :: d1 =>
        let ts := be24 t2 t1 t0 in
        let ext := ts =? 16777215 in
        if fmt <=? 1 then
          match d1 with
          | l2 :: l1 :: l0 :: ty :: d2 =>
              let h1 := set_mlen h (be24 l2 l1 l0) ty in
              if fmt =? 0 then
                match d2 with
                | i0 :: i1 :: i2 :: i3 :: d3 =>
                    hdr_ext t3 last (set_msid h1 (le32 i0 i1 i2 i3)) fmt ext ts d3 11
                | _ => HMore h1
                end
              else hdr_ext t3 last h1 fmt ext ts d2 7
          | _ => HMore h
          end
        else hdr_ext t3 last h fmt ext ts d1 3
    | _ => HMore h
    end
  else hdr_ext t3 last h fmt (c_ext h) (c_dtime h) d 0.

(* ---- one turn of the loop ---- *)

Inductive res :=
  | Go (s : sess)              (* the loop goes on *)
  | Closed (out : list msg).   (* ngx_rtmp_finalize_session; the messages delivered so far *)

(* ngx_rtmp_handler.c:362-388: the buffer moves from stream 0 to its stream *)
Definition link_orphan (s : sess) (csid : Z) : option sess :=
  if s_csid s =? 0 then
    match s_free s with
    | b :: r =>
        let s1 := set_csid (set_free s r) csid in
        let st := stream s1 csid in
        Some (set_stream s1 csid (fst st, snd st ++ [b]))
    | [] => None
    end
  else Some s.

(* ngx_rtmp_handler.c:539-545, 556-563: the bytes after the chunk stay unread;
   k is where the chunk ends in the buffer b, extra the number of bytes after it *)
Definition push_back (s : sess) (b : buf) (k extra : Z) : option sess :=
  if s_osize s =? 0 then
    Some (set_old s (Some (Old (b_id b) (b_pool b) (b_data b) k)) extra)
  else
    match s_old s with
    | Some o =>
        if extra <=? o_off o then
          Some (set_old s (Some (Old (o_id o) (o_pool o) (o_data o) (o_off o - extra))) (s_osize s + extra))
        else None
    | None => None
    end.

(* ngx_rtmp_protocol_message_handler, ngx_rtmp_receive.c:14-45: only the chunk
   size message changes what is modelled here; the number has to be in the
   first buffer *)
Definition protocol_message (s : sess) (m : msg) : option sess :=
  if m_type m =? msg_chunk_size then
    match m_bufs m with
    | (a :: b :: c :: d :: _) :: _ => set_chunk_size s (be32 a b c d)
    | _ => Some s
    end
  else Some s.

(* ngx_rtmp_receive_message, ngx_rtmp_handler.c:857-938, and what follows it,
   571-586; bs is the chain of the message *)
Definition deliver (c : cfg) (s : sess) (csid : Z) (h : chdr) (bs : list buf) : option res :=
  if bufs_live s bs then
    let m := Msg csid (c_ts h) (c_mlen h) (c_type h) (c_msid h) (map payload bs) in
    let after (s1 : sess) :=
      if s_chg s1 then
        if s_osize s1 =? 0 then
          match finalize_set_chunk_size s1 with
          | Some s2 => Some (Go (set_csid s2 0))
          | None => None
          end
        else Some (Go (set_csid s1 0))
      else Some (Go (set_csid (set_free s1 (bs ++ s_free s1)) 0)) in
    if c_type h >? msg_max then after s
    else
      let s1 := set_out s (s_out s ++ [m]) in
      match protocol_message s1 m with
      | Some s2 => if accept c (s_out s2) then after s2 else Some (Closed (s_out s2))
      | None => None
      end
  else None.

(* ngx_rtmp_handler.c:524-586: the body of a chunk *)
Definition chunk_body (c : cfg) (s : sess) : option res :=
  let csid := s_csid s in
  match cur_buf s with
  | None => None
  | Some b =>
      let h := fst (stream s csid) in
      let size := len (b_data b) - b_pos b in
      let fsize := u32 (c_mlen h - c_len h) in
      if size <? Z.min fsize (s_chunk s) then Some (Go s)
      else if fsize >? s_chunk s then
        let k := b_pos b + s_chunk s in
        let s1 := set_cur_buf s (set_data b (take k (b_data b)) (b_pos b)) in
        let st := stream s1 csid in
        let s2 := set_stream s1 csid (set_len h (u32 (c_len h + s_chunk s)), snd st) in
        match push_back s2 b k (size - s_chunk s) with
        | Some s3 => Some (Go (set_csid s3 0))
        | None => None
        end
      else
        let k := b_pos b + fsize in
        let s1 := set_cur_buf s (set_data b (take k (b_data b)) (b_pos b)) in
        let bs := snd (stream s1 csid) in
        let h1 := set_ts (set_len h 0) (u32 (c_ts h + c_dtime h)) (c_dtime h) in
        let s2 := set_stream s1 csid (h1, []) in
        match push_back s2 b k (size - fsize) with
        | Some s3 => deliver c s3 csid h1 bs
        | None => None
        end
  end.

(* ngx_rtmp_handler.c:321-522 and the body: what is done with the bytes in the
   buffer *)
Definition process (c : cfg) (s : sess) : option res :=
  match cur_buf s with
  | None => None
  | Some b =>
      if b_pos b =? 0 then
        match parse_basic (b_data b) with
        | None => Some (Go s)
        | Some (fmt, csid, n) =>
            if csid >=? max_streams c then Some (Closed (s_out s))
            else
              match link_orphan s csid with
              | None => None
              | Some s1 =>
                  let st := stream s1 (s_csid s1) in
                  match parse_hdr (s_t3 s1) (s_last s1) (fst st) fmt (drop n (b_data b)) with
                  | HMore h => Some (Go (set_stream s1 (s_csid s1) (h, snd st)))
                  | HDone h last t3 n1 =>
                      let s2 := set_last (set_stream s1 (s_csid s1) (h, snd st)) last t3 in
                      let s3 := set_cur_buf s2 (set_data b (b_data b) (n + n1)) in
                      if c_mlen h >? max_message c then Some (Closed (s_out s3))
                      else chunk_body c s3
                  end
              end
        end
      else chunk_body c s
  end.

(* ngx_rtmp_handler.c:246-276: unread bytes are copied to the buffer; the
   source may not be overwritten while some of it is still needed *)
Definition fill_old (s : sess) : option sess :=
  let s1 := with_buf s in
  match cur_buf s1, s_old s1 with
  | Some b, Some o =>
      let n := Z.min (s_osize s1) (b_cap b) in
      if is_live s1 (o_pool o) && is_live s1 (b_pool b) && (o_off o + s_osize s1 <=? len (o_data o))
         && ((s_osize s1 <=? n) || negb (Nat.eqb (b_id b) (o_id o)))
      then
        let s2 := set_cur_buf s1 (set_data b (take n (drop (o_off o) (o_data o))) 0) in
        if s_osize s1 - n =? 0 then
          let s3 := set_old s2 None 0 in
          if s_chg s3 then finalize_set_chunk_size s3 else Some s3
        else Some (set_old s2 (Some (Old (o_id o) (o_pool o) (o_data o) (o_off o + n))) (s_osize s1 - n))
      else None
  | _, _ => None
  end.

(* the loop while there are unread bytes *)
Fixpoint drain (fuel : nat) (c : cfg) (s : sess) : option res :=
  if s_osize s =? 0 then Some (Go s)
  else
    match fuel with
    | O => None
    | S fuel1 =>
        match fill_old s with
        | None => None
        | Some s1 =>
            match process c s1 with
            | Some (Go s2) => drain fuel1 c s2
            | r => r
            end
        end
    end.

(* ngx_rtmp_handler.c:278-285: the state in which the connection is read; it
   is also the state kept when there is nothing to read (NGX_AGAIN, 292-297) *)
Definition ready (s : sess) : option sess :=
  let s1 := with_buf s in
  match s_old s1 with
  | Some _ =>
      match cur_buf s1 with
      | Some b => Some (set_old (set_cur_buf s1 (set_data b [] 0)) None 0)
      | None => None
      end
  | None => Some s1
  end.

(* the number of bytes asked for, b->end - b->last *)
Definition room (s : sess) : Z :=
  match cur_buf s with Some b => b_cap b - len (b_data b) | None => 0 end.

(* c->recv returned the bytes d, ngx_rtmp_handler.c:285-319, and what follows
   until the connection is read again *)
Definition recv_read (c : cfg) (s : sess) (d : list Z) : option res :=
  match ready s with
  | None => None
  | Some s1 =>
      match cur_buf s1 with
      | None => None
      | Some b =>
          if is_live s1 (b_pool b) && (0 <? len d) && (len d <=? room s1) then
            let s2 := set_cur_buf s1 (set_data b (b_data b ++ d) (b_pos b)) in
            match process c s2 with
            | Some (Go s3) => drain (S (Z.to_nat (s_osize s3))) c s3
            | r => r
            end
          else None
      end
  end.

(* One read of the connection: net are the bytes the peer has sent that were
   not read yet, k is how many of them the kernel hands out at most (0: none,
   NGX_AGAIN).  The code asks for b->end - b->last bytes. *)
Definition read_net (c : cfg) (s : sess) (net : list Z) (k : Z) : option (res * list Z) :=
  match ready s with
  | None => None
  | Some s1 =>
      if (k <=? 0) || (len net =? 0) then Some (Go s1, net)
      else
        let n := Z.min k (Z.min (room s1) (len net)) in
        match recv_read c s1 (take n net) with
        | Some r => Some (r, drop n net)
        | None => None
        end
  end.

(* a history: the sizes of the reads *)
Fixpoint run (c : cfg) (s : sess) (net : list Z) (ks : list Z) : option (res * list Z) :=
  match ks with
  | [] => Some (Go s, net)
  | k :: r =>
      match read_net c s net k with
      | Some (Go s1, net1) => run c s1 net1 r
      | x => x
      end
  end.
