(* Specification of the chain helpers: the same operations on one byte
   string. *)
From Coq Require Import ZArith List.
Import ListNotations.

(* The data of a chain. *)
Definition bytes_of (chain : list (list Z)) : list Z := concat chain.

(* Unsigned lexicographic order of two byte strings of the same length:
   negative, zero or positive. *)
Inductive lex : list Z -> list Z -> Z -> Prop :=
| lex_eq : forall a, lex a a 0%Z
| lex_lt : forall p x y a b, (x < y)%Z -> lex (p ++ x :: a) (p ++ y :: b) (-1)%Z
| lex_gt : forall p x y a b, (x > y)%Z -> lex (p ++ x :: a) (p ++ y :: b) 1%Z.
