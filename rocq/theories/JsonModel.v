(* Model of nginx-common/src/ngx_json_parser.c.

   Characters are Z.  A position in the text is the list of the characters from
   there to the end of the memory of the text; reading beyond is JUB, as is a signed
   overflow.  Allocations succeed.  The layout of arrays in parts is not modelled,
   nor are the error messages.  Object keys are changed to lower case in place,
   which only changes characters already read. *)
From Coq Require Import List ZArith Bool.
Import ListNotations.
Local Open Scope Z_scope.

Inductive jres (A : Type) := JOk (a : A) (rest : list Z) | JBad | JUB | JFuel.
Arguments JOk {A} _ _.
Arguments JBad {A}.
Arguments JUB {A}.
Arguments JFuel {A}.

(* ngx_json_parser.c:9,10 *)
Definition max_elements : Z := 524288.
Definition max_depth : nat := 32.

Definition llong_max : Z := 2 ^ 63 - 1.
Definition ullong_max : Z := 2 ^ 64 - 1.

(* ctype.h in the C locale *)
Definition isspace (c : Z) : bool := ((9 <=? c) && (c <=? 13)) || (c =? 32).
Definition isdigit (c : Z) : bool := (48 <=? c) && (c <=? 57).

(* ngx_json_parser.c:65-94, the types of array elements *)
Inductive jtype := TStr | TArr | TObj | TBool | TFrac | TInt.

(* ngx_json_parser.h ngx_json_value_t; strings and keys are the characters in the
   text; an array has a type, none if empty; an object is a list of key, hash and
   value *)
Inductive jval :=
| VNull
| VBool (b : bool)
| VInt (z : Z)
| VFrac (num denom : Z)
| VStr (escape : bool) (raw : list Z)
| VArr (ty : option jtype) (items : list jval)
| VObj (kvs : list (list Z * Z * jval)).

(* ngx_json_parser.c:97-148 ngx_json_get_value_type *)
Fixpoint skip_digits (s : list Z) : option (list Z) :=
  match s with
  | [] => None
  | c :: r => if isdigit c then skip_digits r else Some s
  end.
Definition value_type (s : list Z) : jres jtype :=
  match s with
  | [] => JUB
  | c :: r =>
      if c =? 34 then JOk TStr s
      else if c =? 91 then JOk TArr s
      else if c =? 123 then JOk TObj s
      else if (c =? 102) || (c =? 116) then JOk TBool s
      else
        let s' := if c =? 45 then r else s in
        match s' with
        | [] => JUB
        | c' :: _ =>
            if isdigit c' then
              match skip_digits s' with
              | None | Some [] => JUB
              | Some (c'' :: _) => JOk (if c'' =? 46 then TFrac else TInt) s
              end
            else JBad
        end
  end.

(* ngx_json_parser.c:151-155 ngx_json_skip_spaces *)
Fixpoint skip_spaces (s : list Z) : option (list Z) :=
  match s with
  | [] => None
  | c :: r => if negb (c =? 0) && isspace c then skip_spaces r else Some s
  end.

(* ngx_json_parser.c:158-201 ngx_json_parse_string, after the quote *)
Fixpoint parse_string (s : list Z) (escape : bool) (raw : list Z) : jres jval :=
  match s with
  | [] => JUB
  | c :: r =>
      if c =? 0 then JBad
      else if c =? 92 then
        match r with
        | [] => JUB
        | c' :: r' => if c' =? 0 then JBad else parse_string r' true (c' :: c :: raw)
        end
      else if c =? 34 then JOk (VStr escape (rev raw)) r
      else parse_string r escape (c :: raw)
  end.

(* ngx_hash *)
Definition hash_step (h c : Z) : Z := (h * 31 + c) mod 2 ^ 64.

(* ngx_json_parser.c:204-253 ngx_json_parse_object_key, after the quote *)
Definition lower (c : Z) : Z := if (65 <=? c) && (c <=? 90) then Z.lor c 32 else c.
Fixpoint parse_key (s : list Z) (hash : Z) (raw : list Z) : jres (list Z * Z) :=
  match s with
  | [] => JUB
  | c0 :: r =>
      let c := lower c0 in
      if c0 =? 0 then JBad
      else if c =? 92 then
        match r with
        | [] => JUB
        | c' :: r' => if c' =? 0 then JBad else parse_key r' (hash_step hash c) (c' :: c :: raw)
        end
      else if c =? 34 then JOk (rev raw, hash) r
      else parse_key r (hash_step hash c) (c :: raw)
  end.

(* ngx_json_parser.c:276-287, the loop of ngx_json_parse_int; the first character
   is a digit *)
Fixpoint int_loop (s : list Z) (value : Z) : jres Z :=
  match s with
  | [] => JUB
  | c :: r =>
      if value >? llong_max / 10 - 1 then JBad
      else
        let v := value * 10 + (c - 48) in
        if v >? llong_max then JUB
        else
          match r with
          | [] => JUB
          | c' :: _ => if isdigit c' then int_loop r v else JOk v r
          end
  end.

(* ngx_json_parser.c:256-292 ngx_json_parse_int: the value and whether it is
   negative *)
Definition parse_int (s : list Z) : jres (Z * bool) :=
  match s with
  | [] => JUB
  | c :: r =>
      let negative := c =? 45 in
      let s' := if negative then r else s in
      match s' with
      | [] => JUB
      | c' :: _ =>
          if isdigit c' then
            match int_loop s' 0 with
            | JOk v rest => JOk (v, negative) rest
            | JBad => JBad
            | JUB => JUB
            | JFuel => JFuel
            end
          else JBad
      end
  end.

(* ngx_json_parser.c:317-328, the loop of ngx_json_parse_fraction *)
Fixpoint frac_loop (s : list Z) (value denom : Z) : jres (Z * Z) :=
  match s with
  | [] => JUB
  | c :: r =>
      if (value >? llong_max / 10 - 1) || (denom >? ullong_max / 10) then JBad
      else
        let v := value * 10 + (c - 48) in
        let d := (denom * 10) mod 2 ^ 64 in
        if v >? llong_max then JUB
        else
          match r with
          | [] => JUB
          | c' :: _ => if isdigit c' then frac_loop r v d else JOk (v, d) r
          end
  end.

(* ngx_json_parser.c:295-339 ngx_json_parse_fraction *)
Definition parse_fraction (s : list Z) : jres (Z * Z) :=
  match parse_int s with
  | JOk (value, negative) s1 =>
      let sign v := if negative : bool then - v else v in
      match s1 with
      | [] => JUB
      | c :: r =>
          if c =? 46 then
            match r with
            | [] => JUB
            | c' :: _ =>
                if isdigit c' then
                  match frac_loop r value 1 with
                  | JOk (v, d) rest => JOk (sign v, d) rest
                  | JBad => JBad
                  | JUB => JUB
                  | JFuel => JFuel
                  end
                else JBad
            end
          else JOk (sign value, 1) s1
      end
  | JBad => JBad
  | JUB => JUB
  | JFuel => JFuel
  end.

(* ngx_json_parser.c:26-33 EXPECT_STRING: strncmp reads up to the first difference *)
Fixpoint expect (lit s : list Z) : jres unit :=
  match lit with
  | [] => JOk tt s
  | l :: lit =>
      match s with
      | [] => JUB
      | c :: r => if c =? l then expect lit r else JBad
      end
  end.
Definition s_null : list Z := [110; 117; 108; 108].
Definition s_true : list Z := [116; 114; 117; 101].
Definition s_false : list Z := [102; 97; 108; 115; 101].

Definition jbind {A B} (r : jres A) (f : A -> list Z -> jres B) : jres B :=
  match r with
  | JOk a rest => f a rest
  | JBad => JBad
  | JUB => JUB
  | JFuel => JFuel
  end.

(* skip spaces and look at the next character *)
Definition skip_peek {A} (s : list Z) (f : Z -> list Z -> jres A) : jres A :=
  match skip_spaces s with
  | None | Some [] => JUB
  | Some (c :: r) => f c r
  end.

(* [n] bounds the calls; [depth] is state->depth, the functions for arrays and
   objects start after the opening bracket *)
(* ngx_json_parser.c:613-658 ngx_json_parse_value *)
Fixpoint parse_value (n : nat) (depth : nat) (s : list Z) {struct n} : jres jval :=
  match n with
  | O => JFuel
  | S n =>
      match s with
      | [] => JUB
      | c :: r =>
          if c =? 34 then parse_string r false []
          else if c =? 91 then parse_array n depth r
          else if c =? 123 then parse_object n depth r
          else if c =? 110 then jbind (expect s_null s) (fun _ rest => JOk VNull rest)
          else if c =? 116 then jbind (expect s_true s) (fun _ rest => JOk (VBool true) rest)
          else if c =? 102 then jbind (expect s_false s) (fun _ rest => JOk (VBool false) rest)
          else jbind (parse_fraction s) (fun nd rest =>
                 JOk (if snd nd =? 1 then VInt (fst nd) else VFrac (fst nd) (snd nd)) rest)
      end
  end
(* ngx_json_parser.c:342-460 ngx_json_parse_array *)
with parse_array (n : nat) (depth : nat) (s : list Z) {struct n} : jres jval :=
  match n with
  | O => JFuel
  | S n =>
      skip_peek s (fun c r =>
        if c =? 93 then JOk (VArr None []) r
        else if Nat.leb max_depth depth then JBad
        else jbind (value_type (c :: r)) (fun ty s =>
               jbind (parse_items n ty (S depth) s 0) (fun vs rest => JOk (VArr (Some ty) vs) rest)))
  end
(* ngx_json_parser.c:395-449, the loop of ngx_json_parse_array *)
with parse_items (n : nat) (ty : jtype) (depth : nat) (s : list Z) (count : Z) {struct n} : jres (list jval) :=
  match n with
  | O => JFuel
  | S n =>
      if count >=? max_elements then JBad
      else
        jbind (parse_elem n ty depth s) (fun v s =>
          skip_peek s (fun c r =>
            if c =? 93 then JOk [v] r
            else if c =? 44 then
              match skip_spaces r with
              | None => JUB
              | Some s => jbind (parse_items n ty depth s (count + 1)) (fun vs rest => JOk (v :: vs) rest)
              end
            else JBad))
  end
(* ngx_json_parser.c:545-610, the parsers of the types *)
with parse_elem (n : nat) (ty : jtype) (depth : nat) (s : list Z) {struct n} : jres jval :=
  match n with
  | O => JFuel
  | S n =>
      match s with
      | [] => JUB
      | c :: r =>
          match ty with
          | TStr => if c =? 34 then parse_string r false [] else JBad
          | TArr => if c =? 91 then parse_array n depth r else JBad
          | TObj => if c =? 123 then parse_object n depth r else JBad
          | TBool =>
              if c =? 116 then jbind (expect s_true s) (fun _ rest => JOk (VBool true) rest)
              else if c =? 102 then jbind (expect s_false s) (fun _ rest => JOk (VBool false) rest)
              else JBad
          | TFrac => jbind (parse_fraction s) (fun nd rest => JOk (VFrac (fst nd) (snd nd)) rest)
          | TInt => jbind (parse_int s) (fun vn rest => JOk (VInt (if snd vn then - fst vn else fst vn)) rest)
          end
      end
  end
(* ngx_json_parser.c:463-542 ngx_json_parse_object *)
with parse_object (n : nat) (depth : nat) (s : list Z) {struct n} : jres jval :=
  match n with
  | O => JFuel
  | S n =>
      skip_peek s (fun c r =>
        if c =? 125 then JOk (VObj []) r
        else if Nat.leb max_depth depth then JBad
        else jbind (parse_members n (S depth) (c :: r) 0) (fun kvs rest => JOk (VObj kvs) rest))
  end
(* ngx_json_parser.c:494-541, the loop of ngx_json_parse_object *)
with parse_members (n : nat) (depth : nat) (s : list Z) (count : Z) {struct n} : jres (list (list Z * Z * jval)) :=
  match n with
  | O => JFuel
  | S n =>
      if count >=? max_elements then JBad
      else
        match s with
        | [] => JUB
        | c :: r =>
            if c =? 34 then
              jbind (parse_key r 0 []) (fun k s =>
                skip_peek s (fun c r =>
                  if c =? 58 then
                    match skip_spaces r with
                    | None => JUB
                    | Some s =>
                        jbind (parse_value n depth s) (fun v s =>
                          skip_peek s (fun c r =>
                            if c =? 125 then JOk [(k, v)] r
                            else if c =? 44 then
                              match skip_spaces r with
                              | None => JUB
                              | Some s => jbind (parse_members n depth s (count + 1))
                                            (fun kvs rest => JOk ((k, v) :: kvs) rest)
                              end
                            else JBad))
                    end
                  else JBad))
            else JBad
        end
  end.

(* ngx_json_parser.c:661-694 ngx_json_parse *)
Definition json_parse (s : list Z) : jres jval :=
  match skip_spaces s with
  | None => JUB
  | Some s =>
      jbind (parse_value (3 * length s + 1) 0 s) (fun v s =>
        skip_peek s (fun c r => if c =? 0 then JOk v (c :: r) else JBad))
  end.

(* ngx_hextoi of nginx for four characters *)
Definition hex_digit (c : Z) : option Z :=
  if (48 <=? c) && (c <=? 57) then Some (c - 48)
  else let c := Z.lor c 32 in if (97 <=? c) && (c <=? 102) then Some (c - 97 + 10) else None.
Definition hextoi4 (a b c d : Z) : option Z :=
  match hex_digit a, hex_digit b, hex_digit c, hex_digit d with
  | Some a, Some b, Some c, Some d => Some (((a * 16 + b) * 16 + c) * 16 + d)
  | _, _, _, _ => None
  end.

(* ngx_json_parser.c:697-730 ngx_json_unicode_hex_to_utf8: the bytes written; four
   digits are never beyond 0xffff *)
Definition utf8_of (ch : Z) : list Z :=
  if ch <? 128 then [ch]
  else if ch <? 2048 then [Z.lor (Z.shiftr ch 6) 192; Z.lor (Z.land ch 63) 128]
  else [Z.lor (Z.shiftr ch 12) 224; Z.lor (Z.land (Z.shiftr ch 6) 63) 128; Z.lor (Z.land ch 63) 128].

(* ngx_json_parser.c:754-795 the character of a short escape *)
Definition short_escape (c : Z) : option Z :=
  if c =? 34 then Some 34
  else if c =? 92 then Some 92
  else if c =? 47 then Some 47
  else if c =? 98 then Some 8
  else if c =? 102 then Some 12
  else if c =? 110 then Some 10
  else if c =? 114 then Some 13
  else if c =? 116 then Some 9
  else None.

(* ngx_json_parser.c:733-809 ngx_json_decode_string on one memory: source and
   destination may overlap.  [cur] and [fin] are positions of the source, [p] of the
   destination; the result is the memory and the end of the destination.  [n]
   bounds the characters of the source. *)
Definition put (mem : list Z) (p : nat) (bs : list Z) : list Z :=
  firstn p mem ++ bs ++ skipn (p + length bs) mem.
Inductive dres := DOk (mem : list Z) (p : nat) | DBad | DUB.
Fixpoint decode_loop (n : nat) (mem : list Z) (cur fin p : nat) : dres :=
  match n with
  | O => if Nat.ltb cur fin then DUB else DOk mem p
  | S n =>
      if Nat.ltb cur fin then
        let at_ i := nth_error mem i in
        let out bs used := if Nat.leb (p + length bs) (length mem)
                           then decode_loop n (put mem p bs) (cur + used) fin (p + length bs) else DUB in
        match at_ cur with
        | None => DUB
        | Some c =>
            if negb (c =? 92) then out [c] 1%nat
            else if Nat.leb fin (S cur) then DBad
            else
              match at_ (S cur) with
              | None => DUB
              | Some e =>
                  match short_escape e with
                  | Some b => out [b] 2%nat
                  | None =>
                      if e =? 117 then
                        if Nat.ltb fin (S cur + 5) then DBad
                        else
                          match at_ (cur + 2)%nat, at_ (cur + 3)%nat, at_ (cur + 4)%nat, at_ (cur + 5)%nat with
                          | Some a, Some b, Some c, Some d =>
                              match hextoi4 a b c d with
                              | Some ch => out (utf8_of ch) 6%nat
                              | None => DBad
                              end
                          | _, _, _, _ => DUB
                          end
                      else DBad
                  end
              end
        end
      else DOk mem p
  end.
Definition decode_string (mem : list Z) (src len dst : nat) : dres := decode_loop len mem src (src + len) dst.

(* ngx_json_parser.c:812-826 ngx_json_get_string: in place.  The string is the
   bytes of the memory from [src]; the result is the memory and the length *)
Definition get_string (mem : list Z) (src len : nat) (escape : bool) : dres :=
  if escape then
    match decode_string mem src len src with
    | DOk mem p => DOk mem (p - src)
    | r => r
    end
  else DOk mem len.
