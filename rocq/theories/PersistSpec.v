(* Specification of the persistence format, independent of the writer and the
   reader: a file is a list of blocks, a block is an id, a header part and
   either raw data or blocks. *)
From Coq Require Import ZArith List.
From Verif Require Import Bytes PersistModel.
Import ListNotations.
Open Scope Z_scope.

Inductive blk :=
| Leaf (id : Z) (data : list Z)                    (* no header part *)
| Split (id k : Z) (hdr data : list Z)             (* header part and data, flags k *)
| Node (id : Z) (hdr : list Z) (kids : list blk).  (* header part and blocks *)

(* Wire form: three little endian 32 bit words (id, total size, header size
   with flags in the 4 top bits) and the contents. *)
Definition enc (id hsize : Z) (payload : list Z) : list Z :=
  le 4 id ++ le 4 (12 + Z.of_nat (length payload)) ++ le 4 hsize ++ payload.

Fixpoint encode (b : blk) : list Z :=
  match b with
  | Leaf id data => enc id 12 data
  | Split id k hdr data =>
      enc id (12 + Z.of_nat (length hdr) + k * 2 ^ 28) (hdr ++ data)
  | Node id hdr kids =>
      enc id (12 + Z.of_nat (length hdr) + 1 * 2 ^ 28)
          (hdr ++ concat (map encode kids))
  end.

Definition encode_all (l : list blk) : list Z := concat (map encode l).

Fixpoint depth (b : blk) : nat :=
  match b with
  | Leaf _ _ => 1
  | Split _ _ _ _ => 1
  | Node _ _ kids => S (fold_right (fun k m => Nat.max (depth k) m) O kids)
  end.
Definition depth_all (l : list blk) : nat :=
  fold_right (fun k m => Nat.max (depth k) m) O l.

(* ids are 32 bit; the flags of a non-container do not include the container
   bit (bit 28) and are 4 bits wide *)
Fixpoint ok (b : blk) : Prop :=
  match b with
  | Leaf id data => 0 <= id < 2 ^ 32 /\ Forall is_byte data
  | Split id k hdr data =>
      0 <= id < 2 ^ 32 /\ 0 <= k < 16 /\ Z.testbit k 0 = false /\
      Forall is_byte hdr /\ Forall is_byte data
  | Node id hdr kids =>
      0 <= id < 2 ^ 32 /\ Forall is_byte hdr /\
      fold_right (fun k P => ok k /\ P) True kids
  end.
Definition ok_all (l : list blk) : Prop := fold_right (fun k P => ok k /\ P) True l.

(* Some calls that write the bytes [data]: any split into pieces, each either
   copied or linked. *)
Inductive emits : list Z -> list wop -> Prop :=
| emits_nil : emits [] []
| emits_write : forall d l ops, emits l ops -> emits (d ++ l) (WWrite d :: ops)
| emits_append : forall d l ops, emits l ops -> emits (d ++ l) (WAppend d :: ops).

(* Some calls that write the block: open, contents, close; or the one-call form
   for a block given with its header; setting the header explicitly is optional
   for a block with at least one inner block. *)
Inductive realise : blk -> list wop -> Prop :=
| r_leaf : forall id data ops,
    emits data ops -> realise (Leaf id data) (WOpen id :: ops ++ [WClose])
| r_direct : forall id data, realise (Leaf id data) [WBlock id 12 data]
| r_split : forall id k hdr data ops1 ops2,
    emits hdr ops1 -> emits data ops2 ->
    realise (Split id k hdr data)
      (WOpen id :: ops1 ++ WSetHeader (k * 2 ^ 28) :: ops2 ++ [WClose])
| r_node : forall id hdr kids ops1 ops2,
    emits hdr ops1 -> realise_all kids ops2 ->
    realise (Node id hdr kids)
      (WOpen id :: ops1 ++ WSetHeader FLAG_CONTAINER :: ops2 ++ [WClose])
| r_node_implicit : forall id hdr kid kids ops1 ops2,
    emits hdr ops1 -> realise_all (kid :: kids) ops2 ->
    realise (Node id hdr (kid :: kids)) (WOpen id :: ops1 ++ ops2 ++ [WClose])
with realise_all : list blk -> list wop -> Prop :=
| r_nil : realise_all [] []
| r_cons : forall b l ops1 ops2,
    realise b ops1 -> realise_all l ops2 -> realise_all (b :: l) (ops1 ++ ops2).

(* What a reader should see. *)
Fixpoint tree_of (b : blk) : ptree :=
  match b with
  | Leaf id data => PRaw id 0 [] data
  | Split id k hdr data => PRaw id (k * 2 ^ 28) hdr data
  | Node id hdr kids => PNode id (1 * 2 ^ 28) hdr (map tree_of kids)
  end.

(* All bytes of a chain of buffers. *)
Definition chain_bytes (c : list (list Z)) : list Z := concat c.

(* A stream lies inside the buffer. *)
Definition rs_ok (buf : list Z) (rs : rstream) : Prop :=
  (rs_pos rs <= rs_end rs)%nat /\ (rs_end rs <= length buf)%nat.

(* The bytes a stream still has. *)
Definition window (buf : list Z) (rs : rstream) : list Z :=
  firstn (rs_end rs - rs_pos rs) (skipn (rs_pos rs) buf).

(* rs' is part of rs. *)
Definition within (rs' rs : rstream) : Prop :=
  (rs_pos rs <= rs_pos rs')%nat /\ (rs_pos rs' <= rs_end rs')%nat /\
  (rs_end rs' <= rs_end rs)%nat.

(* A block as a reader of one level sees it, its wire form, and what handling a
   list of them in order means: the first failing handler stops. *)
Record rawblk := mk_rawblk { rb_id : Z; rb_hsize : Z; rb_payload : list Z }.
Definition rb_enc (b : rawblk) : list Z := enc (rb_id b) (rb_hsize b) (rb_payload b).
Definition rb_ok (b : rawblk) : Prop := 12 + Z.of_nat (length (rb_payload b)) < 2 ^ 32.

Fixpoint fold_res {S : Type} (f : S -> rawblk -> rres S) (l : list rawblk) (s : S) : rres S :=
  match l with
  | [] => ROk s
  | b :: r => match f s b with ROk s' => fold_res f r s' | e => e end
  end.
