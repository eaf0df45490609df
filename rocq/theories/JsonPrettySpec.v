(* Text with string literals: white space removed outside of them. *)
From Coq Require Import List ZArith Bool.
Import ListNotations.
Local Open Scope Z_scope.

(* outside of literals, in a literal, in a literal after a backslash *)
Inductive place := Out | Lit | Esc.

(* white space: space, \t \n \v \f \r *)
Definition is_ws (c : Z) : bool := (c =? 32) || ((9 <=? c) && (c <=? 13)).

Definition next (p : place) (c : Z) : place :=
  match p with
  | Out => if c =? 34 then Lit else Out
  | Lit => if c =? 34 then Out else if c =? 92 then Esc else Lit
  | Esc => Lit
  end.

(* every character but white space outside of literals, each with its place *)
Fixpoint strip (p : place) (s : list Z) : list (place * Z) :=
  match s with
  | [] => []
  | c :: r =>
      match p with
      | Out => if is_ws c then strip Out r else (Out, c) :: strip (next Out c) r
      | _ => (p, c) :: strip (next p c) r
      end
  end.

(* string literals, with their quotes *)
Fixpoint literals (p : place) (cur : list Z) (s : list Z) : list (list Z) :=
  match s with
  | [] => match p with Out => [] | _ => [cur] end
  | c :: r =>
      match p with
      | Out => if c =? 34 then literals Lit [c] r else literals Out [] r
      | Lit => if c =? 34 then (cur ++ [c]) :: literals Out [] r else literals (next Lit c) (cur ++ [c]) r
      | Esc => literals Lit (cur ++ [c]) r
      end
  end.

(* no literal starts within a word such as true or 12: a word ends at a space, tab,
   line break, comma or closing bracket *)
Inductive spot := Start | Word | InLit | InEsc.
Definition word_end (c : Z) : bool := existsb (Z.eqb c) [32; 9; 10; 13; 44; 93; 125].
Definition punct (c : Z) : bool := existsb (Z.eqb c) [91; 123; 58].
Fixpoint tidy (p : spot) (s : list Z) : bool :=
  match s with
  | [] => true
  | c :: r =>
      match p with
      | InEsc => tidy InLit r
      | InLit => tidy (if c =? 34 then Start else if c =? 92 then InEsc else InLit) r
      | Start => tidy (if c =? 34 then InLit else if word_end c || punct c then Start else Word) r
      | Word => negb (c =? 34) && tidy (if word_end c then Start else Word) r
      end
  end.
