(* Model of nginx-rtmp-module/src/ngx_rtmp_amf.c: reading and writing AMF0
   values through chains of buffers.

   Bytes are integers, a value in memory is the list of its bytes in memory
   order (little endian for numbers).  A destination is an object with an
   identity and a size; reading reports the stores it makes.  The flags of a
   type (ngx_rtmp_amf.h:33-35) are separate fields.  Left out: logging, the
   name buffer of Windows builds, and the depth of the C stack. *)
From Coq Require Import ZArith List Bool.
Import ListNotations.
Open Scope Z_scope.

(* ngx_rtmp_amf.h:15-30 *)
Definition T_NUMBER : Z := 0.
Definition T_BOOLEAN : Z := 1.
Definition T_STRING : Z := 2.
Definition T_OBJECT : Z := 3.
Definition T_NULL : Z := 5.
Definition T_ARRAY_NULL : Z := 6.
Definition T_MIXED_ARRAY : Z := 8.
Definition T_END : Z := 9.
Definition T_ARRAY : Z := 10.
Definition T_INT8 : Z := 256.
Definition T_INT16 : Z := 257.
Definition T_INT32 : Z := 258.
Definition T_VARIANT : Z := 259.

(* ngx_rtmp_amf.h:41-46 ngx_rtmp_amf_elt_t.  The array of elements of an object
   is a list, with as many elements as len says (len / sizeof). *)
Inductive elt :=
| Elt (ty : Z) (opt typeless ctxf : bool) (name : list Z) (d : dest) (len : Z)
with dest :=
| DNull
| DMem (id : nat) (cap : nat)
| DElts (es : list elt)
| DCtx (id : nat).

Definition e_ty (e : elt) := let (t, _, _, _, _, _, _) := e in t.
Definition e_opt (e : elt) := let (_, o, _, _, _, _, _) := e in o.
Definition e_typeless (e : elt) := let (_, _, t, _, _, _, _) := e in t.
Definition e_ctxf (e : elt) := let (_, _, _, c, _, _, _) := e in c.
Definition e_name (e : elt) := let (_, _, _, _, n, _, _) := e in n.
Definition e_data (e : elt) := let (_, _, _, _, _, d, _) := e in d.
Definition e_len (e : elt) := let (_, _, _, _, _, _, l) := e in l.

(* ---- reading ---- *)

(* ngx_rtmp_amf.h:52-58: link and offset; the buffers from link on *)
Record ctx := mkCtx { c_link : list (list Z); c_offset : nat }.

(* The bytes copied, and the outcome of ngx_rtmp_amf_get. *)
Inductive got := GOk (x : list Z) (c : ctx) | GDone (x : list Z).

(* ngx_rtmp_amf.c:82-110 *)
Fixpoint get_loop (l : list (list Z)) (offset n : nat) (acc : list Z) : got :=
  match l with
  | [] => GDone acc
  | b :: rest =>
      if Nat.leb (offset + n) (length b) then
        GOk (acc ++ firstn n (skipn offset b)) (mkCtx l (offset + n))
      else get_loop rest 0 (n - (length b - offset)) (acc ++ skipn offset b)
  end.

(* ngx_rtmp_amf.c:68-117 ngx_rtmp_amf_get *)
Definition get (c : ctx) (n : nat) : got :=
  match n with
  | O => GOk [] c
  | _ => get_loop (c_link c) (c_offset c) n []
  end.

(* A store: to the object, at the offset; or a copy of the reading context. *)
Inductive store :=
| SMem (id cap : nat) (offset : nat) (bytes : list Z)
| SCtx (id : nat) (c : ctx).

(* SCont: read on; SStop: NGX_OK, and the caller does not read on *)
Inductive status := SCont | SStop | SErr | SUB | SFuel.
Record res := mkRes { r_status : status; r_ctx : ctx; r_stores : list store }.

Definition be (l : list Z) : Z := fold_left (fun a b => a * 256 + b) l 0.

Fixpoint list_eqb (a b : list Z) : bool :=
  match a, b with
  | [], [] => true
  | x :: a, y :: b => (x =? y) && list_eqb a b
  | _, _ => false
  end.

(* strncmp(name, data, len) == 0, of len bytes on both sides *)
Fixpoint strn_eqb (a b : list Z) : bool :=
  match a, b with
  | x :: a, y :: b => (x =? y) && ((x =? 0) || strn_eqb a b)
  | _, _ => true
  end.

(* ngx_rtmp_amf.c:309-315 ngx_rtmp_amf_is_compatible_type *)
Definition compatible (t1 t2 : Z) : bool :=
  (t1 =? t2) || ((t1 =? T_OBJECT) && (t2 =? T_MIXED_ARRAY)) ||
  ((t2 =? T_OBJECT) && (t1 =? T_MIXED_ARRAY)).

(* ngx_rtmp_amf.c:14-28 ngx_rtmp_amf_reverse_copy(data, buf, n) *)
Definition store_rev (d : dest) (x : list Z) : option (list store) :=
  match d with
  | DNull => Some []
  | DMem id cap => Some [SMem id cap 0 (rev x)]
  | _ => None
  end.
(* a store through the pointer *)
Definition store_at (d : dest) (off : nat) (x : list Z) : option (list store) :=
  match d with
  | DNull => Some []
  | DMem id cap => Some [SMem id cap off x]
  | _ => None
  end.

Definition ok (c : ctx) (s : list store) : res := mkRes SCont c s.
Definition err (c : ctx) (s : list store) : res := mkRes SErr c s.
Definition ub (c : ctx) : res := mkRes SUB c [].
Definition with_stores (o : option (list store)) (c : ctx) (k : list store -> res) : res :=
  match o with Some s => k s | None => ub c end.
Definition prepend (s : list store) (r : res) : res :=
  mkRes (r_status r) (r_ctx r) (s ++ r_stores r).

(* get(ctx, buf, n) into a local buffer, then store reversed *)
Definition read_rev (c : ctx) (n : nat) (d : dest) : res :=
  match get c n with
  | GDone _ => err c []
  | GOk x c1 => with_stores (store_rev d x) c1 (ok c1)
  end.
(* get(ctx, data, 1) *)
Definition read_byte (c : ctx) (d : dest) : res :=
  match get c 1 with
  | GDone x => with_stores (store_at d 0 x) c (err c)
  | GOk x c1 => with_stores (store_at d 0 x) c1 (ok c1)
  end.

(* ngx_rtmp_amf.c:380-408, a string; [l] is elts->len.  elts->len - 1 wraps
   when it is 0. *)
Definition read_string (c : ctx) (d : dest) (l : Z) : res :=
  match get c 2 with
  | GDone _ => err c []
  | GOk x c1 =>
      let n := be x in
      match d with
      | DNull =>
          match get c1 (Z.to_nat n) with GDone _ => err c1 [] | GOk _ c2 => ok c2 [] end
      | DMem id cap =>
          if l <=? n then
            if l <=? 0 then ub c1
            else
              match get c1 (Z.to_nat (l - 1)) with
              | GDone y => err c1 [SMem id cap 0 y]
              | GOk y c2 =>
                  let s := [SMem id cap 0 y; SMem id cap (Z.to_nat (l - 1)) [0]] in
                  match get c2 (Z.to_nat (n - l + 1)) with
                  | GDone _ => err c2 s
                  | GOk _ c3 => ok c3 s
                  end
              end
          else
            match get c1 (Z.to_nat n) with
            | GDone y => err c1 [SMem id cap 0 y; SMem id cap (Z.to_nat n) [0]]
            | GOk y c2 => ok c2 [SMem id cap 0 y; SMem id cap (Z.to_nat n) [0]]
            end
      | _ => ub c1
      end
  end.

Definition max_name (es : list elt) : nat :=
  fold_left (fun m e => Nat.max m (length (e_name e))) es 0%nat.

(* ngx_rtmp_amf.c:226-238, the search for the name *)
Definition lookup (es : list elt) (n : nat) (name : list Z) : option elt :=
  List.find (fun e => Nat.eqb n (length (e_name e)) && strn_eqb name (e_name e)) es.

(* the array an object is read into, and none when there is no destination *)
Definition fields (d : dest) : option (list elt) :=
  match d with DNull => Some [] | DElts es => Some es | _ => None end.

(* ngx_rtmp_amf.c:297-301, the alternatives of a variant; the last one wins *)
Definition alternative (es : list elt) (type : Z) : elt :=
  fold_left (fun a e =>
    if (e_ty e =? type) && negb (e_opt e) && negb (e_typeless e) && negb (e_ctxf e)
    then Elt type false true false [] (e_data e) (e_len e) else a)
    es (Elt type false true false [] DNull 0).

(* ngx_rtmp_amf.c:364-474, the switch: [type] is the type, [d] the
   destination, [l] is elts->len; [ro], [ra] and [rv] read the fields of an
   object, the elements of an array and a variant. *)
Definition read_body (ro : ctx -> list elt -> res) (ra : ctx -> list elt -> Z -> res)
    (rv : ctx -> list elt -> res) (c : ctx) (type : Z) (d : dest) (l : Z) : res :=
  if type =? T_NUMBER then read_rev c 8 d
  else if type =? T_BOOLEAN then read_byte c d
  else if type =? T_STRING then read_string c d l
  else if (type =? T_NULL) || (type =? T_ARRAY_NULL) then ok c []
  else if type =? T_MIXED_ARRAY then
    match get c 4 with
    | GDone _ => err c []
    | GOk _ c1 => match fields d with None => ub c1 | Some es => ro c1 es end
    end
  else if type =? T_OBJECT then
    match fields d with None => ub c | Some es => ro c es end
  else if type =? T_ARRAY then
    match fields d with
    | None => ub c
    | Some es =>
        match get c 4 with
        | GDone _ => err c []
        | GOk x c1 => ra c1 es (be x)
        end
    end
  else if type =? T_VARIANT then
    match fields d with None => ub c | Some es => rv c es end
  else if type =? T_INT8 then read_byte c d
  else if type =? T_INT16 then read_rev c 2 d
  else if type =? T_INT32 then read_rev c 4 d
  else if type =? T_END then mkRes SStop c []
  else err c [].

(* ngx_rtmp_amf.c:332-478, one element of ngx_rtmp_amf_read, and the functions
   it calls.  [e]: None models elts == NULL. *)
Fixpoint read_one (fuel : nat) (c : ctx) (e : option elt) : res :=
  match fuel with
  | O => mkRes SFuel c []
  | S f =>
      let body := read_body (read_object f) (read_array f) (read_variant f) in
      match e with
      | Some (Elt ty opt true ctxf _ d l) =>
          if opt || ctxf then err c [] else body c ty d l
      | _ =>
          match get c 1 with
          | GDone _ =>
              match e with
              | Some e => if e_opt e then mkRes SStop c [] else err c []
              | None => err c []
              end
          | GOk x c1 =>
              let type := be x in
              match e with
              | None => body c1 type DNull 0
              | Some e =>
                  let d := if compatible (e_ty e mod 256) type then e_data e else DNull in
                  if e_ctxf e then
                    match d with
                    | DNull => body c1 type DNull (e_len e)
                    | DCtx id => prepend [SCtx id c1] (body c1 type DNull (e_len e))
                    | _ => ub c1
                    end
                  else body c1 type d (e_len e)
              end
          end
      end
  end

(* ngx_rtmp_amf.c:176-255 ngx_rtmp_amf_read_object, the loop.  More bytes of
   the name than the longest known name are undefined behaviour (name[maxlen]). *)
with read_object (fuel : nat) (c : ctx) (es : list elt) : res :=
  match fuel with
  | O => mkRes SFuel c []
  | S f =>
      let maxlen := max_name es in
      match get c 2 with
      | GDone _ => ok c []
      | GOk x c1 =>
          let n := Z.to_nat (be x) in
          if Nat.eqb n 0 then
            match get c1 1 with
            | GDone _ => err c1 []
            | GOk t c2 => if be t =? T_END then ok c2 [] else err c2 []
            end
          else
            let first := if Nat.leb n maxlen then n else maxlen in
            match get c1 first with
            | GDone _ => err c1 []
            | GOk name c2 =>
                if Nat.ltb maxlen (length name) then ub c2
                else
                  match get c2 (n - first) with
                  | GDone _ => err c2 []
                  | GOk _ c3 =>
                      let r := read_one f c3 (lookup es n name) in
                      match r_status r with
                      | SCont | SStop => prepend (r_stores r) (read_object f (r_ctx r) es)
                      | _ => r
                      end
                  end
            end
      end
  end

(* ngx_rtmp_amf.c:272-275, the loop of ngx_rtmp_amf_read_array *)
with read_array (fuel : nat) (c : ctx) (es : list elt) (len : Z) : res :=
  match fuel with
  | O => mkRes SFuel c []
  | S f =>
      if len <=? 0 then ok c []
      else
        let r := read_one f c (hd_error es) in
        match r_status r with
        | SCont | SStop => prepend (r_stores r) (read_array f (r_ctx r) (tl es) (len - 1))
        | _ => r
        end
  end

(* ngx_rtmp_amf.c:281-306 ngx_rtmp_amf_read_variant *)
with read_variant (fuel : nat) (c : ctx) (es : list elt) : res :=
  match fuel with
  | O => mkRes SFuel c []
  | S f =>
      match get c 1 with
      | GDone _ => err c []
      | GOk x c1 =>
          let r := read_one f c1 (Some (alternative es (be x))) in
          match r_status r with
          | SStop => mkRes SCont (r_ctx r) (r_stores r)
          | _ => r
          end
      end
  end.

(* ngx_rtmp_amf.c:318-482 ngx_rtmp_amf_read *)
Fixpoint read (fuel : nat) (c : ctx) (es : list elt) : res :=
  match es with
  | [] => ok c []
  | e :: rest =>
      let r := read_one fuel c (Some e) in
      match r_status r with
      | SCont => prepend (r_stores r) (read fuel (r_ctx r) rest)
      | SStop => mkRes SCont (r_ctx r) (r_stores r)
      | _ => r
      end
  end.

(* ---- writing ---- *)

(* The buffers written, the room left in the last one, and the answers the
   allocator is going to give (None: no buffer). *)
Record wctx := mkWctx { w_bufs : list (list Z); w_room : nat; w_alloc : list (option nat) }.
Inductive wres := WOk (c : wctx) | WErr | WUB.

Definition append_last (l : list (list Z)) (x : list Z) : list (list Z) :=
  match rev l with [] => l | b :: r => rev r ++ [b ++ x] end.

(* ngx_rtmp_amf.c:120-173 ngx_rtmp_amf_put *)
Fixpoint put_loop (allocs : list (option nat)) (bufs : list (list Z)) (room : nat) (p : list Z) : wres :=
  let bufs1 := append_last bufs (firstn room p) in
  if Nat.leb (length p) room then WOk (mkWctx bufs1 (room - length p) allocs)
  else
    match allocs with
    | Some size :: rest => put_loop rest (bufs1 ++ [[]]) size (skipn room p)
    | _ => WErr
    end.
Definition put (c : wctx) (p : list Z) : wres := put_loop (w_alloc c) (w_bufs c) (w_room c) p.

Definition wbind (r : wres) (k : wctx -> wres) : wres :=
  match r with WOk c => k c | WErr => WErr | WUB => WUB end.

Definition be_bytes (n : nat) (v : Z) : list Z :=
  rev (map (fun i => (v / 256 ^ Z.of_nat i) mod 256) (seq 0 n)).

(* n bytes of the memory the pointer points to *)
Definition load (mem : nat -> list Z) (d : dest) (n : nat) : option (list Z) :=
  match d with
  | DMem id _ => if Nat.leb n (length (mem id)) then Some (firstn n (mem id)) else None
  | _ => if Nat.eqb n 0 then Some [] else None
  end.
Definition put_rev (mem : nat -> list Z) (c : wctx) (d : dest) (n : nat) : wres :=
  match load mem d n with Some x => put c (rev x) | None => WUB end.
Definition put_mem (mem : nat -> list Z) (c : wctx) (d : dest) (n : nat) : wres :=
  match load mem d n with Some x => put c x | None => WUB end.

(* ngx_strlen *)
Fixpoint strlen (l : list Z) : option nat :=
  match l with
  | [] => None
  | x :: r => if x =? 0 then Some O else option_map S (strlen r)
  end.

(* ngx_rtmp_amf.c:562-662 one element of ngx_rtmp_amf_write, with
   ngx_rtmp_amf_write_object (485-518) and ngx_rtmp_amf_write_array (521-544).
   The flags OPTIONAL and CONTEXT are part of the type and not known to the
   switch. *)
Fixpoint write_one (mem : nat -> list Z) (c : wctx) (e : elt) : wres :=
  match e with
  | Elt ty opt typeless ctxf _ d len =>
      wbind (if typeless then WOk c else put c [ty mod 256]) (fun c =>
      let object (c : wctx) : wres :=
        match d with
        | DElts es =>
            wbind ((fix go (c : wctx) (es : list elt) : wres :=
              match es with
              | [] => WOk c
              | e :: rest =>
                  let n := Z.of_nat (length (e_name e)) mod 65536 in
                  wbind (put c (be_bytes 2 n)) (fun c =>
                  wbind (put c (firstn (Z.to_nat n) (e_name e))) (fun c =>
                  wbind (write_one mem c e) (fun c => go c rest)))
              end) c es) (fun c =>
            wbind (put c [0; 0]) (fun c => put c [T_END]))
        | DNull => wbind (put c [0; 0]) (fun c => put c [T_END])
        | _ => WUB
        end in
      if opt || ctxf then WErr
      else if ty =? T_NUMBER then put_rev mem c d 8
      else if ty =? T_BOOLEAN then put_mem mem c d 1
      else if ty =? T_STRING then
        let len16 := len mod 65536 in
        let n :=
          match d with
          | DMem id _ =>
              if len16 =? 0
              then option_map (fun n => Z.of_nat n mod 65536) (strlen (mem id))
              else Some len16
          | _ => Some len16
          end in
        match n with
        | None => WUB
        | Some n =>
            wbind (put c (be_bytes 2 n)) (fun c => put_mem mem c d (Z.to_nat n))
        end
      else if (ty =? T_NULL) || (ty =? T_ARRAY_NULL) then WOk c
      else if ty =? T_MIXED_ARRAY then wbind (put c [0; 0; 0; 0]) object
      else if ty =? T_OBJECT then object c
      else if ty =? T_ARRAY then
        match d with
        | DElts es =>
            wbind (put c (be_bytes 4 (Z.of_nat (length es)))) (fun c =>
            (fix go (c : wctx) (es : list elt) : wres :=
              match es with
              | [] => WOk c
              | e :: rest => wbind (write_one mem c e) (fun c => go c rest)
              end) c es)
        | DNull => put c (be_bytes 4 0)
        | _ => WUB
        end
      else if ty =? T_INT8 then put_mem mem c d 1
      else if ty =? T_INT16 then put_rev mem c d 2
      else if ty =? T_INT32 then put_rev mem c d 4
      else WErr)
  end.

(* ngx_rtmp_amf.c:547-666 ngx_rtmp_amf_write *)
Fixpoint write (mem : nat -> list Z) (c : wctx) (es : list elt) : wres :=
  match es with
  | [] => WOk c
  | e :: rest => wbind (write_one mem c e) (fun c => write mem c rest)
  end.
