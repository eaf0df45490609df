(* Model of nginx-common/src/ngx_json_pretty.c.

   Characters are Z; the text is a list and a position the rest of it.  The bytes
   from start to p are kept as a list.  Allocations succeed. *)
From Coq Require Import List ZArith Bool.
From Verif Require Import JsonModel.
Import ListNotations.
Local Open Scope Z_scope.

(* ngx_json_pretty.c:6-11 *)
Definition indent : Z := 4.
Definition max_sep_len : Z := 1 + 16 * indent.
Definition buf_size : nat := 1024.

(* ngx_json_pretty.c:14-20; the chain is the full buffers and the current one *)
Record writer := mk_writer { w_full : list (list Z); w_cur : list Z; w_size : Z }.

(* ngx_json_pretty.c:84-93 ngx_json_pretty_write_init *)
Definition w_init : writer := mk_writer [] [] 0.

(* ngx_json_pretty.c:51-81 ngx_json_pretty_write; [n] bounds the buffers *)
Fixpoint w_write (n : nat) (w : writer) (bs : list Z) : writer :=
  let left := (buf_size - length (w_cur w))%nat in
  if Nat.leb (length bs) left then mk_writer (w_full w) (w_cur w ++ bs) (w_size w)
  else
    match n with
    | O => w
    | S n =>
        let cur := w_cur w ++ firstn left bs in
        w_write n (mk_writer (w_full w ++ [cur]) [] (w_size w + Z.of_nat (length cur))) (skipn left bs)
    end.
Definition write (w : writer) (bs : list Z) : writer := w_write (S (length bs)) w bs.

(* ngx_json_pretty.c:96-109 ngx_json_pretty_write_close: the size; the chain is all
   buffers *)
Definition w_close (w : writer) : list (list Z) * Z :=
  (w_full w ++ [w_cur w], w_size w + Z.of_nat (length (w_cur w))).

(* ngx_json_pretty.c:157 *)
Fixpoint skip_isspace (s : list Z) : list Z :=
  match s with
  | c :: r => if isspace c then skip_isspace r else s
  | [] => []
  end.

(* ngx_json_pretty.c:224-236 the string after its quote: the characters up to its
   end and the rest *)
Fixpoint scan_string (s : list Z) : list Z * list Z :=
  match s with
  | [] => ([], [])
  | c :: r =>
      if c =? 34 then ([c], r)
      else if c =? 92 then
        match r with
        | c' :: r' => let (a, b) := scan_string r' in (c :: c' :: a, b)
        | [] => ([c], [])
        end
      else let (a, b) := scan_string r in (c :: a, b)
  end.

(* ngx_json_pretty.c:241-261 *)
Definition token_end (c : Z) : bool :=
  (c =? 125) || (c =? 93) || (c =? 44) || (c =? 32) || (c =? 13) || (c =? 10) || (c =? 9).
Fixpoint scan_token (s : list Z) : list Z * list Z :=
  match s with
  | [] => ([], [])
  | c :: r => if token_end c then ([], s) else let (a, b) := scan_token r in (c :: a, b)
  end.

(* ngx_json_pretty.c:127,128 the first bytes of the separator *)
Definition sep (len : Z) : list Z := 10 :: repeat 32 (Z.to_nat (len - 1)).

(* ngx_json_pretty.c:140-264 the loop and the last write; [pend] are the bytes from
   start to p; [n] bounds the steps *)
Fixpoint pretty_loop (n : nat) (w : writer) (pend s : list Z) (sep_len : Z) : option writer :=
  match s with
  | [] => Some (write w pend)
  | c :: r =>
      match n with
      | O => None
      | S n =>
          if (c =? 32) || (c =? 13) || (c =? 10) || (c =? 9) then
            pretty_loop n (write w pend) [] r sep_len
          else if (c =? 91) || (c =? 123) then
            let w := write w (pend ++ [c]) in
            match skip_isspace r with
            | [] => pretty_loop n w [] [] sep_len
            | c' :: r' =>
                if (c' =? 125) || (c' =? 93) then pretty_loop n w [c'] r' sep_len
                else
                  let sep_len := if sep_len + indent >? max_sep_len then max_sep_len else sep_len + indent in
                  pretty_loop n (write w (sep sep_len)) [] (c' :: r') sep_len
            end
          else if c =? 44 then
            pretty_loop n (write (write w (pend ++ [c])) (sep sep_len)) [] r sep_len
          else if c =? 58 then
            pretty_loop n (write (write w (pend ++ [c])) [32]) [] r sep_len
          else if (c =? 93) || (c =? 125) then
            let sep_len := if sep_len >? indent then sep_len - indent else sep_len in
            pretty_loop n (write (write w pend) (sep sep_len)) [c] r sep_len
          else if c =? 34 then
            let (a, b) := scan_string r in pretty_loop n w (pend ++ c :: a) b sep_len
          else
            let (a, b) := scan_token r in pretty_loop n w (pend ++ c :: a) b sep_len
      end
  end.

(* ngx_json_pretty.c:112-277 ngx_json_pretty: the chain and its size *)
Definition pretty (json : list Z) (level : Z) : option (list (list Z) * Z) :=
  let sep_len := (1 + level * indent) mod 2 ^ 64 in
  let sep_len := if sep_len >? max_sep_len then max_sep_len else sep_len in
  match pretty_loop (length json) w_init [] json sep_len with
  | Some w => Some (w_close w)
  | None => None
  end.
