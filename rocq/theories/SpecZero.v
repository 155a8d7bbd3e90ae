(** Specification for C134: journals in which every entry balances. *)
From Coq Require Import ZArith NArith List Bool String Reals.
From Verif Require Import Base Str SpecAmount SpecEntry SpecEnvelope SpecLedger SpecReport SpecTyped.
Import ListNotations.
Local Open Scope Z_scope.

(** An amount is left out, or the amounts of every currency add up to zero. *)
Definition of_currency {A} (key : A -> option str) (sym : option str) (l : list A) : list A :=
  filter (fun x => if sym_dec (key x) sym then true else false) l.
Definition balances (ps : list typed) : Prop :=
  (exists p, In p ps /\ t_amount p = None)
  \/ forall sym, Zsum (map fst (of_currency snd sym (given ps))) = 0.

(** Rows of the report with the amounts that they show. *)
Definition row : Type := (str * list (option str * str * Z))%type.
Definition texts (r : row) : str * list (option str * str) := (fst r, map fst (snd r)).
Definition shown_in (sym : option str) (rows : list row) : list Z :=
  map snd (of_currency (fun x => fst (fst x)) sym (flat_map snd rows)).
