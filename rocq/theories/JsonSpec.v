(* The JSON grammar that the parser of nginx-common accepts, and its meaning; the
   meaning of escaped strings. *)
From Coq Require Import List ZArith Bool.
From Verif Require Import JsonModel.
Import ListNotations.
Local Open Scope Z_scope.

(* white space: space, \t \n \v \f \r *)
Definition ws_char (c : Z) : Prop := In c [32; 9; 10; 11; 12; 13].
Definition ws (w : list Z) : Prop := Forall ws_char w.

(* decimal digits and the number they write *)
Definition digits (ds : list Z) : Prop := Forall (fun c => 48 <= c <= 57) ds.
Definition decimal (ds : list Z) : Z := fold_left (fun v c => v * 10 + (c - 48)) ds 0.
Definition signed (neg : bool) (v : Z) : Z := if neg then - v else v.
Definition minus (neg : bool) : list Z := if neg then [45] else [].

(* all but the last digit must write at most 922337203685477579, so that the whole is
   at most 9223372036854775799 *)
Definition fits (ds : list Z) : Prop := decimal ds / 10 <= 922337203685477579.

(* the characters of a string: plain ones, or any after a backslash *)
Inductive chars : list Z -> bool -> Prop :=
| chars_nil : chars [] false
| chars_plain : forall c s e, c <> 0 -> c <> 34 -> c <> 92 -> chars s e -> chars (c :: s) e
| chars_escape : forall c s e, c <> 0 -> chars s e -> chars (92 :: c :: s) true.

(* the key of an object as reported: in lower case except for the characters after a
   backslash; the hash is of the reported key without these *)
Inductive key_of : list Z -> list Z -> list Z -> Prop :=
| key_nil : key_of [] [] []
| key_upper : forall c s k h, 65 <= c <= 90 -> c <> 92 -> key_of s k h -> key_of (c :: s) (c + 32 :: k) (c + 32 :: h)
| key_plain : forall c s k h, ~ 65 <= c <= 90 -> c <> 0 -> c <> 34 -> c <> 92 ->
    key_of s k h -> key_of (c :: s) (c :: k) (c :: h)
| key_escape : forall c s k h, c <> 0 -> key_of s k h -> key_of (92 :: c :: s) (92 :: c :: k) (92 :: h).
Definition hash_of (h : list Z) : Z := fold_left (fun a c => (a * 31 + c) mod 2 ^ 64) h 0.

(* [value d t v]: the text [t] at nesting depth [d] means [v] *)
Inductive value : nat -> list Z -> jval -> Prop :=
| v_null : forall d, value d [110; 117; 108; 108] VNull
| v_true : forall d, value d [116; 114; 117; 101] (VBool true)
| v_false : forall d, value d [102; 97; 108; 115; 101] (VBool false)
| v_string : forall d s e, chars s e -> value d (34 :: s ++ [34]) (VStr e s)
| v_int : forall d neg ds, ds <> [] -> digits ds -> fits ds ->
    value d (minus neg ++ ds) (VInt (signed neg (decimal ds)))
| v_frac : forall d neg ds fs, ds <> [] -> digits ds -> fs <> [] -> digits fs ->
    fits (ds ++ fs) -> (length fs <= 19)%nat ->
    value d (minus neg ++ ds ++ 46 :: fs)
      (VFrac (signed neg (decimal (ds ++ fs))) (10 ^ Z.of_nat (length fs)))
| v_array : forall d t v, array d t v -> value d t v
| v_object : forall d t v, object d t v -> value d t v
(* at most 32 arrays and objects that are not empty within one another; at most
   524288 elements; all elements of one type, that of the first *)
with array : nat -> list Z -> jval -> Prop :=
| a_empty : forall d w, ws w -> array d (91 :: w ++ [93]) (VArr None [])
| a_items : forall d w ty t vs, (d < 32)%nat -> ws w -> items (S d) ty t vs ->
    (ty = TFrac -> exists n m r, vs = VFrac n m :: r /\ m <> 1) ->
    Z.of_nat (length vs) <= 524288 ->
    array d (91 :: w ++ t) (VArr (Some ty) vs)
with items : nat -> jtype -> list Z -> list jval -> Prop :=
| i_last : forall d ty t v w, element d ty t v -> ws w -> items d ty (t ++ w ++ [93]) [v]
| i_more : forall d ty t v w1 w2 t' vs, element d ty t v -> ws w1 -> ws w2 -> items d ty t' vs ->
    items d ty (t ++ w1 ++ 44 :: w2 ++ t') (v :: vs)
with element : nat -> jtype -> list Z -> jval -> Prop :=
| e_string : forall d s e, chars s e -> element d TStr (34 :: s ++ [34]) (VStr e s)
| e_true : forall d, element d TBool [116; 114; 117; 101] (VBool true)
| e_false : forall d, element d TBool [102; 97; 108; 115; 101] (VBool false)
| e_int : forall d neg ds, ds <> [] -> digits ds -> fits ds ->
    element d TInt (minus neg ++ ds) (VInt (signed neg (decimal ds)))
| e_frac : forall d neg ds fs, ds <> [] -> digits ds -> fs <> [] -> digits fs ->
    fits (ds ++ fs) -> (length fs <= 19)%nat ->
    element d TFrac (minus neg ++ ds ++ 46 :: fs)
      (VFrac (signed neg (decimal (ds ++ fs))) (10 ^ Z.of_nat (length fs)))
| e_whole : forall d neg ds, ds <> [] -> digits ds -> fits ds ->
    element d TFrac (minus neg ++ ds) (VFrac (signed neg (decimal ds)) 1)
| e_array : forall d t v, array d t v -> element d TArr t v
| e_object : forall d t v, object d t v -> element d TObj t v
with object : nat -> list Z -> jval -> Prop :=
| o_empty : forall d w, ws w -> object d (123 :: w ++ [125]) (VObj [])
| o_members : forall d w t kvs, (d < 32)%nat -> ws w -> members (S d) t kvs ->
    Z.of_nat (length kvs) <= 524288 ->
    object d (123 :: w ++ t) (VObj kvs)
with members : nat -> list Z -> list (list Z * Z * jval) -> Prop :=
| m_last : forall d t k v w, member d t k v -> ws w -> members d (t ++ w ++ [125]) [(k, v)]
| m_more : forall d t k v w1 w2 t' kvs, member d t k v -> ws w1 -> ws w2 -> members d t' kvs ->
    members d (t ++ w1 ++ 44 :: w2 ++ t') ((k, v) :: kvs)
with member : nat -> list Z -> (list Z * Z) -> jval -> Prop :=
| m_member : forall d s k h w1 w2 t v, key_of s k h -> ws w1 -> ws w2 -> value d t v ->
    member d (34 :: s ++ 34 :: w1 ++ 58 :: w2 ++ t) (k, hash_of h) v.

(* a document is a value with white space around *)
Definition document (s : list Z) (v : jval) : Prop :=
  exists w1 t w2, ws w1 /\ value 0 t v /\ ws w2 /\ s = w1 ++ t ++ w2.

(* how deep arrays and objects that are not empty are nested *)
Fixpoint depth_of (v : jval) : nat :=
  match v with
  | VArr (Some _) items => S (fold_right (fun v m => Nat.max (depth_of v) m) O items)
  | VObj ((_, _) :: _ as kvs) => S (fold_right (fun kv m => Nat.max (depth_of (snd kv)) m) O kvs)
  | _ => O
  end.

(* arrays and objects are not larger than the limit *)
Fixpoint small (v : jval) : Prop :=
  match v with
  | VArr _ items => Z.of_nat (length items) <= 524288 /\ fold_right (fun v P => small v /\ P) True items
  | VObj kvs => Z.of_nat (length kvs) <= 524288 /\ fold_right (fun kv P => small (snd kv) /\ P) True kvs
  | _ => True
  end.

(* escaped strings: a sequence of pieces, each with its text and its meaning *)
Definition hex_char (c v : Z) : Prop :=
  (48 <= c <= 57 /\ v = c - 48) \/ (97 <= c <= 102 /\ v = c - 87) \/ (65 <= c <= 70 /\ v = c - 55).
(* the encoding of a code point below 2^16 by the table of RFC 3629 *)
Inductive utf8 : Z -> list Z -> Prop :=
| utf8_1 : forall x, 0 <= x < 128 -> utf8 x [x]
| utf8_2 : forall a b, 0 <= a < 32 -> 0 <= b < 64 -> 128 <= a * 64 + b -> utf8 (a * 64 + b) [192 + a; 128 + b]
| utf8_3 : forall a b c, 0 <= a < 16 -> 0 <= b < 64 -> 0 <= c < 64 -> 2048 <= (a * 64 + b) * 64 + c ->
    utf8 ((a * 64 + b) * 64 + c) [224 + a; 128 + b; 128 + c].
Inductive piece : list Z -> list Z -> Prop :=
| p_plain : forall c, c <> 92 -> piece [c] [c]
| p_short : forall c b, In (c, b) [(34, 34); (92, 92); (47, 47); (98, 8); (102, 12); (110, 10); (114, 13); (116, 9)] ->
    piece [92; c] [b]
| p_unicode : forall a b c d va vb vc vd bs,
    hex_char a va -> hex_char b vb -> hex_char c vc -> hex_char d vd ->
    utf8 (va * 4096 + vb * 256 + vc * 16 + vd) bs ->
    piece [92; 117; a; b; c; d] bs.
Inductive decodes : list Z -> list Z -> Prop :=
| d_nil : decodes [] []
| d_piece : forall t m t' m', piece t m -> decodes t' m' -> decodes (t ++ t') (m ++ m').
