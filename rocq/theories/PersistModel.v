(* Model of the persistence file format: nginx-common/src/ngx_persist_write.c,
   ngx_persist_read.c, ngx_persist.c, ngx_mem_rstream.h, ngx_wstream.h.

   Not modelled: compression (zlib), the memory pools, logging, the hash table
   of block handlers (a predicate on the 4 id bytes instead). *)
From Coq Require Import ZArith List Bool Arith.
From Verif Require Import Bytes.
Import ListNotations.
Open Scope Z_scope.

(* ngx_persist_format.h:9-27 *)
Definition FILE_MAGIC : Z := 0x66706c6b.
Definition SIZE_MASK : Z := 0x0fffffff.
Definition FLAG_CONTAINER : Z := 0x10000000.
Definition MAX_BLOCK_DEPTH : nat := 5.
Definition FILE_MIN_VERSION : Z := 9.
Definition FILE_MAX_VERSION : Z := 10.

(* A byte of memory that was never written; not a value any byte can have. *)
Definition uninit : Z := -1.

(* ------------------------------------------------------------------ *)
(* Writer                                                              *)

(* ngx_persist_write.h ngx_persist_write_marker_t: position of reserved bytes
   as (index of the buffer in the chain, offset in it) and ctx->size there *)
Record marker := mk_marker { mk_buf : nat; mk_off : nat; mk_size : Z }.

(* ngx_persist_write.c:11-14 ngx_persist_write_block_t (header.size is computed
   at close) *)
Record wblock := mk_wblock { wb_marker : marker; wb_id : Z; wb_hsize : Z }.

(* ngx_persist_write.c:17-34.  The chain ctx->out is pw_done followed by the
   current buffer ctx->buf when that one is not empty (a buffer is linked when
   it gets its first byte, lines 95-96); pw_left is end - last of ctx->buf.
   pw_blocks is the stack blocks[0..depth), innermost first. *)
Record pw := mk_pw {
  pw_done   : list (list Z);
  pw_cur    : list Z;
  pw_left   : nat;
  pw_size   : Z;
  pw_blocks : list wblock
}.

Inductive pwres := PwOk (w : pw) | PwErr | PwUB.

(* ngx_persist_write.c:188-212, copying one byte; [bs] is
   NGX_PERSIST_WRITE_BUF_SIZE.  memcpy is modelled byte by byte: a new buffer
   is linked exactly when there is another byte to store and no room left. *)
Definition pw_put (bs : nat) (w : pw) (b : Z) : pw :=
  match pw_left w with
  | O => mk_pw (pw_done w ++ [pw_cur w]) [b] (bs - 1) (pw_size w) (pw_blocks w)
  | S l => mk_pw (pw_done w) (pw_cur w ++ [b]) l (pw_size w) (pw_blocks w)
  end.

Definition pw_add_size (w : pw) (n : Z) : pw :=
  mk_pw (pw_done w) (pw_cur w) (pw_left w) (pw_size w + n) (pw_blocks w).

(* ngx_persist_write.c:166-215 ngx_persist_write *)
Definition pw_write (bs : nat) (w : pw) (data : list Z) : pw :=
  fold_left (pw_put bs) data (pw_add_size w (Z.of_nat (length data))).

(* ngx_persist_write.c:114-133 ngx_persist_write_flush_buf: the rest of the
   buffer, or a new buffer, becomes the current one *)
Definition pw_flush (bs : nat) (w : pw) : pw :=
  mk_pw (pw_done w ++ [pw_cur w]) []
        (match pw_left w with O => bs | l => l end) (pw_size w) (pw_blocks w).

(* ngx_persist_write.c:136-163 ngx_persist_write_append: link the caller's
   memory into the chain *)
Definition pw_append (bs : nat) (w : pw) (data : list Z) : pw :=
  let w1 := pw_add_size w (Z.of_nat (length data)) in
  let w2 := match pw_cur w1 with [] => w1 | _ :: _ => pw_flush bs w1 end in
  mk_pw (pw_done w2 ++ [data]) (pw_cur w2) (pw_left w2) (pw_size w2) (pw_blocks w2).

(* ngx_persist_write.c:218-265 ngx_persist_write_reserve *)
Definition pw_reserve (bs : nat) (w : pw) (n : nat) : pw * marker :=
  (pw_write bs w (repeat uninit n),
   mk_marker (length (pw_done w)) (length (pw_cur w)) (pw_size w)).

(* ngx_copy over existing bytes of a buffer *)
Definition patch (b data : list Z) (off : nat) : list Z :=
  firstn off b ++ data ++ skipn (off + length data) b.

(* ngx_persist_write.c:268-302 ngx_persist_write_marker_write; [nodes] is the
   chain from the marker's buffer on; None models the NULL dereference when the
   chain ends first *)
Fixpoint marker_loop (nodes : list (list Z)) (off : nat) (data : list Z)
    : option (list (list Z)) :=
  match nodes with
  | [] => None
  | b :: rest =>
      let left := (length b - off)%nat in
      if (length data <=? left)%nat then Some (patch b data off :: rest)
      else match marker_loop rest 0 (skipn left data) with
           | Some r => Some (patch b (firstn left data) off :: r)
           | None => None
           end
  end.

Definition marker_write (w : pw) (m : marker) (data : list Z) : pwres :=
  let chain := pw_done w ++ [pw_cur w] in
  match marker_loop (skipn (mk_buf m) chain) (mk_off m) data with
  | None => PwUB
  | Some r =>
      let chain' := firstn (mk_buf m) chain ++ r in
      PwOk (mk_pw (removelast chain') (last chain' []) (pw_left w)
              (pw_size w) (pw_blocks w))
  end.

(* ngx_persist_write.c:397-413 ngx_persist_write_block_set_header; the field is
   a uint32_t *)
Definition pw_set_header (w : pw) (flags : Z) : pw :=
  match pw_blocks w with
  | [] => w
  | b :: rest =>
      if wb_hsize b =? 0 then
        mk_pw (pw_done w) (pw_cur w) (pw_left w) (pw_size w)
          (mk_wblock (wb_marker b) (wb_id b)
             (u32 (Z.lor (pw_size w - mk_size (wb_marker b)) flags)) :: rest)
      else w
  end.

(* ngx_persist_write.c:416-448 ngx_persist_write_block_open *)
Definition pw_open (bs : nat) (w : pw) (id : Z) : pwres :=
  if (MAX_BLOCK_DEPTH <=? length (pw_blocks w))%nat then PwErr
  else
    let w1 := pw_set_header w FLAG_CONTAINER in
    let (w2, m) := pw_reserve bs w1 12 in
    PwOk (mk_pw (pw_done w2) (pw_cur w2) (pw_left w2) (pw_size w2)
            (mk_wblock m id 0 :: pw_blocks w2)).

(* ngx_persist_format.h:41-45: id, size, header_size as three uint32_t *)
Definition block_header (id size hsize : Z) : list Z :=
  le 4 id ++ le 4 size ++ le 4 hsize.

(* ngx_persist_write.c:451-473 ngx_persist_write_block_close; with no open
   block the code indexes blocks[-1] *)
Definition pw_close (w : pw) : pwres :=
  match pw_blocks w with
  | [] => PwUB
  | b :: rest =>
      let w1 := mk_pw (pw_done w) (pw_cur w) (pw_left w) (pw_size w) rest in
      let size := u32 (pw_size w - mk_size (wb_marker b)) in
      let hsize := if wb_hsize b =? 0 then 12 else wb_hsize b in
      marker_write w1 (wb_marker b) (block_header (wb_id b) size hsize)
  end.

(* ngx_persist_write.c:476-495 ngx_persist_write_block *)
Definition pw_write_block (bs : nat) (w : pw) (id hsize : Z) (data : list Z) : pw :=
  let w1 := pw_set_header w FLAG_CONTAINER in
  pw_write bs
    (pw_write bs w1 (block_header id (u32 (12 + Z.of_nat (length data))) hsize))
    data.

(* ngx_persist_format.h:30-38 and ngx_persist_write.c:345-358: the file header
   with the size field not yet written *)
Definition file_header (size type created : Z) : list Z :=
  le 4 FILE_MAGIC ++ le 4 size ++ le 4 (Z.lor 32 FLAG_CONTAINER) ++ le 4 0
  ++ le 4 FILE_MAX_VERSION ++ le 4 type ++ le 8 created.

(* ngx_persist_write.c:305-369 ngx_persist_write_init without compression; a
   type of 0 means no file header.  The header is laid out in the first buffer. *)
Definition pw_init (bs : nat) (type created : Z) : pw :=
  if type =? 0 then mk_pw [] [] bs 0 []
  else mk_pw [] (firstn 4 (file_header 0 type created) ++ repeat uninit 4
                 ++ skipn 8 (file_header 0 type created)) (bs - 32) 32 [].

(* ngx_persist_write.c:650-677 ngx_persist_write_close without compression: the
   size field of the file header is stored through ctx->header, which points
   into the first buffer; the result is the chain and the size.  PwErr models
   the nonzero depth check. *)
Definition pw_finish (w : pw) (has_header : bool) : option (list (list Z) * Z) :=
  match pw_blocks w with
  | _ :: _ => None
  | [] =>
      let chain := pw_done w ++ [pw_cur w] in
      let chain' :=
        if has_header then
          match chain with
          | b :: rest => patch b (le 4 (pw_size w)) 4 :: rest
          | [] => []
          end
        else chain in
      Some (chain', pw_size w)
  end.

(* The calls a user of the writer makes *)
Inductive wop :=
| WWrite (data : list Z)
| WAppend (data : list Z)
| WOpen (id : Z)
| WSetHeader (flags : Z)
| WClose
| WBlock (id hsize : Z) (data : list Z).

Definition pw_step (bs : nat) (w : pw) (o : wop) : pwres :=
  match o with
  | WWrite d => PwOk (pw_write bs w d)
  | WAppend d => PwOk (pw_append bs w d)
  | WOpen id => pw_open bs w id
  | WSetHeader f => PwOk (pw_set_header w f)
  | WClose => pw_close w
  | WBlock id h d => PwOk (pw_write_block bs w id h d)
  end.

Fixpoint pw_run (bs : nat) (w : pw) (ops : list wop) : pwres :=
  match ops with
  | [] => PwOk w
  | o :: r =>
      match pw_step bs w o with
      | PwOk w' => pw_run bs w' r
      | e => e
      end
  end.

(* ngx_wstream.h:17-33 ngx_wstream_str: a string is its length as uint32_t and
   as many bytes of it *)
Definition wstream_str (s : list Z) : list wop :=
  [WWrite (le 4 (Z.of_nat (length s)));
   WWrite (firstn (Z.to_nat (u32 (Z.of_nat (length s)))) s)].

(* ------------------------------------------------------------------ *)
(* Reader                                                              *)

(* Outcome of a reader: RUB marks any access outside the buffer, RFuel an
   unfinished loop of the model (never reached, see PersistProofs). *)
Inductive rres (A : Type) := ROk (a : A) | RBad | RDeclined | RUB | RFuel.
Arguments ROk {A}. Arguments RBad {A}. Arguments RDeclined {A}.
Arguments RUB {A}. Arguments RFuel {A}.

(* ngx_mem_rstream.h:22-28, pointers as offsets into the buffer *)
Record rstream := mk_rs { rs_pos : nat; rs_end : nat }.

(* every memory read of the reader goes through this check *)
Definition mem_get (buf : list Z) (i n : nat) : rres (list Z) :=
  if (i + n <=? length buf)%nat then ROk (firstn n (skipn i buf)) else RUB.

(* ngx_mem_rstream.h:13 (size_t)(end - pos): a negative difference is treated
   as undefined behaviour *)
Definition rs_get_ptr (rs : rstream) (n : nat) : rres (nat * rstream) :=
  if (rs_end rs <? rs_pos rs)%nat then RUB
  else if (rs_end rs - rs_pos rs <? n)%nat then RBad
  else ROk (rs_pos rs, mk_rs (rs_pos rs + n) (rs_end rs)).

(* ngx_mem_rstream.h:49-60 ngx_mem_rstream_read *)
Definition rs_read (buf : list Z) (rs : rstream) (n : nat) : rres (list Z * rstream) :=
  match rs_get_ptr rs n with
  | ROk (p, rs') =>
      match mem_get buf p n with
      | ROk d => ROk (d, rs')
      | _ => RUB
      end
  | RBad => RBad
  | _ => RUB
  end.

(* ngx_mem_rstream.h:79-97 ngx_mem_rstream_get_stream: (sub-stream, rest) *)
Definition rs_get_stream (rs : rstream) (n : nat) : rres (rstream * rstream) :=
  match rs_get_ptr rs n with
  | ROk (p, rs') => ROk (mk_rs p (rs_pos rs'), rs')
  | RBad => RBad
  | _ => RUB
  end.

(* ngx_mem_rstream.h:108-126 ngx_mem_rstream_str_get: (data window, stream) *)
Definition rs_str_get (buf : list Z) (rs : rstream) : rres (nat * nat * rstream) :=
  match rs_read buf rs 4 with
  | ROk (lb, rs1) =>
      match rs_get_ptr rs1 (Z.to_nat (unle lb)) with
      | ROk (p, rs2) => ROk (p, Z.to_nat (unle lb), rs2)
      | RBad => RBad
      | _ => RUB
      end
  | RBad => RBad
  | _ => RUB
  end.

(* ngx_mem_rstream.h:129-146 ngx_mem_rstream_str_fixed: the bytes are copied to
   a destination of [max] bytes *)
Definition rs_str_fixed (buf : list Z) (rs : rstream) (max : nat)
    : rres (list Z * rstream) :=
  match rs_read buf rs 4 with
  | ROk (lb, rs1) =>
      if (max <? Z.to_nat (unle lb))%nat then RBad
      else rs_read buf rs1 (Z.to_nat (unle lb))
  | RBad => RBad
  | _ => RUB
  end.

(* ngx_persist_read.c:8-74 ngx_persist_read_file_header *)
Definition read_file_header (buf : list Z) (type : Z) : rres (rstream * Z) :=
  if (length buf <? 32)%nat then RBad else
  match mem_get buf 0 32 with
  | ROk h =>
      let field i := unle (firstn 4 (skipn i h)) in
      let version := field 16%nat in
      let hsize := Z.land (field 8%nat) SIZE_MASK in
      if negb (field 0%nat =? FILE_MAGIC) then RBad
      else if negb (field 20%nat =? type) then RBad
      else if version <? FILE_MIN_VERSION then RDeclined
      else if FILE_MAX_VERSION <? version then RDeclined
      else if hsize <? 32 then RBad
      else if Z.of_nat (length buf) <? hsize then RBad
      else ROk (mk_rs (Z.to_nat hsize) (length buf), version)
  | _ => RUB
  end.

(* ngx_persist_read.c:157-192 ngx_persist_read_block: (header address, stream of
   the block after the header, rest).  The id is only read for logging. *)
Definition read_block (buf : list Z) (rs : rstream) : rres (nat * rstream * rstream) :=
  match rs_get_ptr rs 12 with
  | ROk (hdr, rs1) =>
      match mem_get buf (hdr + 4) 4 with
      | ROk sb =>
          let size := unle sb in
          if size <? 12 then RBad
          else match rs_get_stream rs1 (Z.to_nat (size - 12)) with
               | ROk (brs, rs2) => ROk (hdr, brs, rs2)
               | RBad => RBad
               | _ => RUB
               end
      | _ => RUB
      end
  | RBad => RBad
  | _ => RUB
  end.

(* ngx_persist_read.c:195-225 ngx_persist_read_skip_block_header; read is a
   uint32_t *)
Definition skip_block_header (buf : list Z) (rs : rstream) (hdr : nat) : rres rstream :=
  match mem_get buf (hdr + 8) 4 with
  | ROk hb =>
      let size := Z.land (unle hb) SIZE_MASK in
      let read := u32 (Z.of_nat (rs_pos rs) - Z.of_nat hdr) in
      if size <? read then RBad
      else if read <? size then
        match rs_get_ptr rs (Z.to_nat (size - read)) with
        | ROk (_, rs') => ROk rs'
        | RBad => RBad
        | _ => RUB
        end
      else ROk rs
  | _ => RUB
  end.

(* ngx_persist.c:206-249 ngx_persist_conf_read_blocks.  [known] tells which ids
   (4 bytes) have a handler, [h] is that handler applied to an accumulated
   state.  One unit of fuel per block. *)
Fixpoint read_blocks {S : Type} (buf : list Z) (known : list Z -> bool)
    (h : S -> nat -> rstream -> rres S) (fuel : nat) (rs : rstream) (s : S)
    : rres S :=
  if (rs_end rs <=? rs_pos rs)%nat then ROk s
  else
    match fuel with
    | O => RFuel
    | Datatypes.S fuel' =>
        match read_block buf rs with
        | ROk (hdr, brs, rs') =>
            match mem_get buf hdr 4 with
            | ROk id =>
                if known id then
                  match h s hdr brs with
                  | ROk s' => read_blocks buf known h fuel' rs' s'
                  | e => e
                  end
                else read_blocks buf known h fuel' rs' s
            | _ => RUB
            end
        | RBad => RBad
        | _ => RUB
        end
    end.

(* A reader for whole files: the callbacks of the live module have this shape
   (e.g. nginx-live-module/src/persist/ngx_live_persist_core.c): take the header
   part, skip to the end of the header with skip_block_header, and, for a
   container, read the blocks inside. *)
Inductive ptree :=
| PRaw (id flags : Z) (hdr data : list Z)
| PNode (id flags : Z) (hdr : list Z) (kids : list ptree).

Fixpoint read_tree (depth : nat) (buf : list Z) (fuel : nat) (rs : rstream)
    : rres (list ptree) :=
  match depth with
  | O => if (rs_end rs <=? rs_pos rs)%nat then ROk [] else RFuel
  | S depth' =>
      read_blocks buf (fun _ => true)
        (fun acc hdr brs =>
           match mem_get buf hdr 4, mem_get buf (hdr + 8) 4,
                 skip_block_header buf brs hdr with
           | ROk id, ROk hb, ROk rs' =>
               match mem_get buf (rs_pos brs) (rs_pos rs' - rs_pos brs) with
               | ROk hbytes =>
                   let flags := unle hb - Z.land (unle hb) SIZE_MASK in
                   if Z.testbit (unle hb) 28 then
                     match read_tree depth' buf fuel rs' with
                     | ROk kids => ROk (acc ++ [PNode (unle id) flags hbytes kids])
                     | RBad => RBad | RDeclined => RDeclined | RUB => RUB | RFuel => RFuel
                     end
                   else
                     match mem_get buf (rs_pos rs') (rs_end rs' - rs_pos rs') with
                     | ROk data => ROk (acc ++ [PRaw (unle id) flags hbytes data])
                     | _ => RUB
                     end
               | _ => RUB
               end
           | ROk _, ROk _, RBad => RBad
           | _, _, _ => RUB
           end)
        fuel rs []
  end.
