(** Specification for C136: the last totals of the register. *)
From Coq Require Import ZArith NArith List Bool String.
From Verif Require Import Base Str Date SpecRows.
Import ListNotations.

(** [c] is the last cell of the currency, or there is none. *)
Definition no_cell (sym : option str) (rows : list (date * list cell)) : Prop :=
  forall r c, In r rows -> In c (snd r) -> fst (fst c) <> sym.
Definition last_cell (sym : option str) (rows : list (date * list cell)) (c : cell) : Prop :=
  exists a r b, rows = a ++ r :: b /\ In c (snd r) /\ fst (fst c) = sym /\ no_cell sym b.
