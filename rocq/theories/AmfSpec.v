(* What AMF0 values are, how they look on the wire, and which destinations a
   reader's descriptors give them (Adobe, "Action Message Format -- AMF 0"). *)
From Coq Require Import ZArith List Bool.
From Verif Require Import AmfModel.
Import ListNotations.
Open Scope Z_scope.

(* A number is its eight bytes in memory order. *)
Inductive val :=
| VNum (b : list Z)
| VBool (x : Z)
| VStr (s : list Z)
| VNull
| VArrNull
| VObj (fs : list (list Z * val))
| VMixed (hint : list Z) (fs : list (list Z * val))
| VArr (vs : list val).

Definition u16 (n : nat) : list Z := [Z.of_nat n / 256; Z.of_nat n mod 256].
Definition u32 (n : nat) : list Z :=
  [Z.of_nat n / 16777216; Z.of_nat n / 65536 mod 256; Z.of_nat n / 256 mod 256; Z.of_nat n mod 256].

Definition tag (v : val) : Z :=
  match v with
  | VNum _ => 0 | VBool _ => 1 | VStr _ => 2 | VObj _ => 3 | VNull => 5
  | VArrNull => 6 | VMixed _ _ => 8 | VArr _ => 10
  end.

(* The wire format: a type byte, then the value; numbers are big endian, the
   fields of an object end with an empty name and the byte 9. *)
Fixpoint enc_body (v : val) : list Z :=
  let enc_fields fs :=
    (fix go (fs : list (list Z * val)) : list Z :=
       match fs with
       | [] => [0; 0; 9]
       | (n, w) :: r => u16 (length n) ++ n ++ (tag w :: enc_body w) ++ go r
       end) fs in
  match v with
  | VNum b => rev b
  | VBool x => [x]
  | VStr s => u16 (length s) ++ s
  | VNull | VArrNull => []
  | VObj fs => enc_fields fs
  | VMixed hint fs => hint ++ enc_fields fs
  | VArr vs => u32 (length vs) ++
      (fix go (vs : list val) : list Z :=
         match vs with [] => [] | w :: r => (tag w :: enc_body w) ++ go r end) vs
  end.
Definition enc (v : val) : list Z := tag v :: enc_body v.

(* The values the format can carry. *)
Fixpoint wf_val (v : val) : Prop :=
  let wf_fields fs :=
    (fix go (fs : list (list Z * val)) : Prop :=
       match fs with
       | [] => True
       | (n, w) :: r => (n <> [] /\ Z.of_nat (length n) < 65536) /\ wf_val w /\ go r
       end) fs in
  match v with
  | VNum b => length b = 8%nat
  | VBool _ | VNull | VArrNull => True
  | VStr s => Z.of_nat (length s) < 65536
  | VObj fs => wf_fields fs
  | VMixed hint fs => length hint = 4%nat /\ wf_fields fs
  | VArr vs => Z.of_nat (length vs) < 4294967296 /\
      (fix go (vs : list val) : Prop :=
         match vs with [] => True | w :: r => wf_val w /\ go r end) vs
  end.

(* ---- reading ---- *)

(* The first descriptor with the name. *)
Fixpoint field (es : list elt) (name : list Z) : option elt :=
  match es with
  | [] => None
  | e :: r => if list_eq_dec Z.eq_dec (e_name e) name then Some e else field r name
  end.

(* The kinds a descriptor takes: its own, and objects also as mixed arrays. *)
Definition takes (e : elt) (v : val) : Prop :=
  e_ty e = tag v \/ (e_ty e = T_OBJECT /\ tag v = T_MIXED_ARRAY) \/
  (e_ty e = T_MIXED_ARRAY /\ tag v = T_OBJECT).
Definition takes_dec (e : elt) (v : val) : {takes e v} + {~ takes e v}.
Proof.
  unfold takes.
  destruct (Z.eq_dec (e_ty e) (tag v)); [left; auto|].
  destruct (Z.eq_dec (e_ty e) T_OBJECT), (Z.eq_dec (tag v) T_MIXED_ARRAY),
    (Z.eq_dec (e_ty e) T_MIXED_ARRAY), (Z.eq_dec (tag v) T_OBJECT);
    solve [left; tauto | right; tauto].
Defined.

(* The destination a value gets, with its size: of a variant, that of the last
   alternative of the value's kind. *)
Fixpoint last_of_kind (es : list elt) (v : val) : option (dest * Z) :=
  match es with
  | [] => None
  | e :: r =>
      match last_of_kind r v with
      | Some x => Some x
      | None => if Z.eq_dec (e_ty e) (tag v) then Some (e_data e, e_len e) else None
      end
  end.
Definition target (e : elt) (v : val) : option (dest * Z) :=
  if Z.eq_dec (e_ty e) T_VARIANT then
    match e_data e with DElts es => last_of_kind es v | _ => None end
  else if takes_dec e v then Some (e_data e, e_len e) else None.

Definition to_mem (d : dest) (off : nat) (x : list Z) : list store :=
  match d with DMem id cap => [SMem id cap off x] | _ => [] end.
Definition elts_of (d : dest) : list elt := match d with DElts es => es | _ => [] end.

(* The stores a value makes.  A string that does not fit with its terminator
   is cut. *)
Fixpoint expect (v : val) (d : dest) (len : Z) : list store :=
  let sub (e : option elt) (w : val) : list store :=
    match e with
    | Some e => match target e w with Some (d, l) => expect w d l | None => [] end
    | None => []
    end in
  let expect_fields fs :=
    (fix go (fs : list (list Z * val)) : list store :=
       match fs with [] => [] | (n, w) :: r => sub (field (elts_of d) n) w ++ go r end) fs in
  match v with
  | VNum b => to_mem d 0 b
  | VBool x => to_mem d 0 [x]
  | VStr s =>
      let kept := if Z.of_nat (length s) <? len then s else firstn (Z.to_nat (len - 1)) s in
      to_mem d 0 kept ++ to_mem d (length kept) [0]
  | VNull | VArrNull => []
  | VObj fs | VMixed _ fs => expect_fields fs
  | VArr vs =>
      (fix go (es : list elt) (vs : list val) : list store :=
         match vs with [] => [] | w :: r => sub (hd_error es) w ++ go (tl es) r end)
        (elts_of d) vs
  end.
Definition expected (e : elt) (v : val) : list store :=
  match target e v with Some (d, l) => expect v d l | None => [] end.

(* ---- descriptors ---- *)

(* The kind of destination, and the room it must have, for each type.  A
   descriptor that is not typeless is matched by the low byte of its type, so
   INT8 (0x100) takes the eight bytes of a NUMBER and INT32 (0x102) a STRING. *)
Fixpoint ok_elt (e : elt) : Prop :=
  match e with
  | Elt ty opt typeless ctxf name d len =>
      let all es := (fix go (es : list elt) : Prop :=
        match es with [] => True | e :: r => ok_elt e /\ go r end) es in
      let mem (n : nat) := match d with DNull => True | DMem _ cap => (n <= cap)%nat | _ => False end in
      let str := match d with
                 | DNull => True
                 | DMem _ cap => 1 <= len <= Z.of_nat cap
                 | _ => False
                 end in
      let grp := match d with DNull => True | DElts es => all es | _ => False end in
      if ctxf && negb typeless then match d with DNull | DCtx _ => True | _ => False end
      else if ty =? T_NUMBER then mem 8%nat
      else if ty =? T_BOOLEAN then mem 1%nat
      else if ty =? T_STRING then str
      else if (ty =? T_OBJECT) || (ty =? T_MIXED_ARRAY) || (ty =? T_ARRAY) then grp
      else if typeless then
        if ty =? T_VARIANT then grp
        else if ty =? T_INT8 then mem 1%nat
        else if ty =? T_INT16 then mem 2%nat
        else if ty =? T_INT32 then mem 4%nat
        else True
      else d = DNull
  end.

(* Descriptors that read values with their type byte: plain ones, and variants
   of plain ones. *)
Fixpoint typed_elt (e : elt) : Prop :=
  match e with
  | Elt ty opt typeless ctxf name d len =>
      let all es := (fix go (es : list elt) : Prop :=
        match es with
        | [] => True
        | e :: r => (typed_elt e /\ Forall (fun x => x <> 0) (e_name e)) /\ go r
        end) es in
      ctxf = false /\
      (if typeless then opt = false /\ ty = T_VARIANT else 0 <= ty < 256) /\
      match d with
      | DElts es =>
          all es /\ (ty = T_VARIANT ->
                     Forall (fun a => e_typeless a = false /\ e_opt a = false) es)
      | _ => True
      end
  end.

(* ---- writing ---- *)

(* The value an element of the writer stands for, the memory being [mem]. *)
Inductive stands (mem : nat -> list Z) : elt -> val -> Prop :=
| S_num name m cap len b rest :
    mem m = b ++ rest -> length b = 8%nat ->
    stands mem (Elt T_NUMBER false false false name (DMem m cap) len) (VNum b)
| S_bool name m cap len x rest :
    mem m = x :: rest ->
    stands mem (Elt T_BOOLEAN false false false name (DMem m cap) len) (VBool x)
| S_str name m cap len s rest :
    mem m = s ++ rest -> Z.of_nat (length s) = len -> 0 < len < 65536 ->
    stands mem (Elt T_STRING false false false name (DMem m cap) len) (VStr s)
| S_cstr name m cap s rest :
    mem m = s ++ 0 :: rest -> ~ In 0 s -> Z.of_nat (length s) < 65536 ->
    stands mem (Elt T_STRING false false false name (DMem m cap) 0) (VStr s)
| S_nostr name : stands mem (Elt T_STRING false false false name DNull 0) (VStr [])
| S_null name d len : stands mem (Elt T_NULL false false false name d len) VNull
| S_arrnull name d len : stands mem (Elt T_ARRAY_NULL false false false name d len) VArrNull
| S_obj name es fs len :
    stands_fields mem es fs ->
    stands mem (Elt T_OBJECT false false false name (DElts es) len) (VObj fs)
| S_mixed name es fs len :
    stands_fields mem es fs ->
    stands mem (Elt T_MIXED_ARRAY false false false name (DElts es) len) (VMixed [0;0;0;0] fs)
| S_arr name es vs len :
    stands_list mem es vs -> Z.of_nat (length vs) < 4294967296 ->
    stands mem (Elt T_ARRAY false false false name (DElts es) len) (VArr vs)
with stands_fields (mem : nat -> list Z) : list elt -> list (list Z * val) -> Prop :=
| SF_nil : stands_fields mem [] []
| SF_cons e es v fs :
    stands mem e v -> e_name e <> [] -> Z.of_nat (length (e_name e)) < 65536 ->
    stands_fields mem es fs ->
    stands_fields mem (e :: es) ((e_name e, v) :: fs)
with stands_list (mem : nat -> list Z) : list elt -> list val -> Prop :=
| SL_nil : stands_list mem [] []
| SL_cons e es v vs :
    stands mem e v -> stands_list mem es vs -> stands_list mem (e :: es) (v :: vs).

(* The bytes in front of the reader, and those the writer has written. *)
Definition flat (c : ctx) : list Z := skipn (c_offset c) (concat (c_link c)).
Definition wf_ctx (c : ctx) : Prop := (c_offset c <= length (hd [] (c_link c)))%nat.
Definition wflat (c : wctx) : list Z := concat (w_bufs c).
(* there is no room without a buffer *)
Definition wf_wctx (c : wctx) : Prop := w_bufs c = [] -> w_room c = 0%nat.

(* The number of descriptors. *)
Fixpoint esize (e : elt) : nat :=
  match e with
  | Elt _ _ _ _ _ d _ =>
      S (match d with
         | DElts es => (fix go (es : list elt) : nat :=
                          match es with [] => O | e :: r => (esize e + go r)%nat end) es
         | _ => O
         end)
  end.
Definition sizes (es : list elt) : nat := fold_right (fun e n => (esize e + n)%nat) O es.

(* A store is within its object. *)
Definition in_bounds (s : store) : Prop :=
  match s with SMem _ cap off x => (off + length x <= cap)%nat | SCtx _ _ => True end.

(* Memory: what a list of stores leaves in it. *)
Definition poke (m : list Z) (off : nat) (x : list Z) : list Z :=
  firstn off m ++ x ++ skipn (off + length x) m.
Definition put_store (id : nat) (m : list Z) (s : store) : list Z :=
  match s with
  | SMem i _ off x => if Nat.eqb i id then poke m off x else m
  | SCtx _ _ => m
  end.
Definition memory_after (id : nat) (m : list Z) (s : list store) : list Z :=
  fold_left (put_store id) s m.

(* [id] is the destination of strings only, with [n] bytes each time. *)
Fixpoint strings_only (id : nat) (n : Z) (e : elt) : Prop :=
  match e with
  | Elt ty _ _ _ _ d len =>
      match d with
      | DMem i c => i = id -> ty = T_STRING /\ len = n
      | DElts es => (fix go (es : list elt) : Prop :=
          match es with [] => True | e :: r => strings_only id n e /\ go r end) es
      | _ => True
      end
  end.

(* The bytes the allocator is going to supply. *)
Fixpoint granted (l : list (option nat)) : nat :=
  match l with Some n :: r => n + granted r | _ => O end.
Definition supply (c : wctx) : nat := (w_room c + granted (w_alloc c))%nat.

(* ---- the same value on both sides ---- *)

(* The descriptor has a place for every part of the value: room for strings
   with their terminator, a field for every name. *)
Inductive mirrors : elt -> val -> Prop :=
| M_num o name m cap len b :
    (8 <= cap)%nat -> mirrors (Elt T_NUMBER o false false name (DMem m cap) len) (VNum b)
| M_bool o name m cap len x :
    (1 <= cap)%nat -> mirrors (Elt T_BOOLEAN o false false name (DMem m cap) len) (VBool x)
| M_str o name m cap len s :
    Z.of_nat (length s) < len <= Z.of_nat cap -> ~ In 0 s ->
    mirrors (Elt T_STRING o false false name (DMem m cap) len) (VStr s)
| M_null o name len : mirrors (Elt T_NULL o false false name DNull len) VNull
| M_arrnull o name len : mirrors (Elt T_ARRAY_NULL o false false name DNull len) VArrNull
| M_obj o name es fs len :
    mirrors_fields es fs -> NoDup (map e_name es) ->
    mirrors (Elt T_OBJECT o false false name (DElts es) len) (VObj fs)
| M_mixed o name es fs len :
    mirrors_fields es fs -> NoDup (map e_name es) ->
    mirrors (Elt T_MIXED_ARRAY o false false name (DElts es) len) (VMixed [0;0;0;0] fs)
| M_arr o name es vs len :
    mirrors_list es vs -> mirrors (Elt T_ARRAY o false false name (DElts es) len) (VArr vs)
with mirrors_fields : list elt -> list (list Z * val) -> Prop :=
| MF_nil : mirrors_fields [] []
| MF_cons e es v fs :
    mirrors e v -> ~ In 0 (e_name e) -> mirrors_fields es fs ->
    mirrors_fields (e :: es) ((e_name e, v) :: fs)
with mirrors_list : list elt -> list val -> Prop :=
| ML_nil : mirrors_list [] []
| ML_cons e es v vs :
    mirrors e v -> ~ In 0 (e_name e) -> mirrors_list es vs -> mirrors_list (e :: es) (v :: vs).

(* The memory a descriptor names, with sizes. *)
Fixpoint places (e : elt) : list (nat * nat) :=
  match e with
  | Elt _ _ _ _ _ d _ =>
      match d with
      | DMem i cap => [(i, cap)]
      | DElts es => (fix go (es : list elt) : list (nat * nat) :=
          match es with [] => [] | e :: r => places e ++ go r end) es
      | _ => []
      end
  end.
Definition all_places (es : list elt) : list (nat * nat) := flat_map places es.

(* The descriptor a writer uses for the same memory: the length of a string is
   that of the C string. *)
Fixpoint for_writing (e : elt) : elt :=
  match e with
  | Elt ty _ t x name d len =>
      Elt ty false t x name
        (match d with
         | DElts es => DElts ((fix go (es : list elt) : list elt :=
             match es with [] => [] | e :: r => for_writing e :: go r end) es)
         | _ => d
         end)
        (if ty =? T_STRING then 0 else len)
  end.
