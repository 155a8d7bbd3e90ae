(** Specification for C137: journals with the same totals. *)
From Coq Require Import ZArith NArith List Bool String.
From Verif Require Import Base Str SpecAmount SpecLedger SpecEntry SpecEnvelope SpecReport SpecTotals SpecTyped.
Import ListNotations.
Local Open Scope Z_scope.

(** The same accounts occur, with the same currencies and the same totals. *)
Definition same_totals (es es' : list typed_entry) : Prop :=
  (forall name, named_in es name <-> named_in es' name)
  /\ forall name sym, (moves es name sym = [] <-> moves es' name sym = [])
     /\ Zsum (moves es name sym) = Zsum (moves es' name sym).

(** Every account has a single currency, and money. *)
Definition settled (es : list typed_entry) : Prop :=
  forall name, named_in es name -> exists sym, Zsum (moves es name sym) <> 0
  /\ forall sym', moves es name sym' <> [] -> sym' = sym.

(** The rows show the same: the currencies can come in another order, and a zero
    can be written in another way. *)
Definition same_row (es : list typed_entry) (r r' : str * list (option str * str)) : Prop :=
  fst r = fst r'
  /\ (forall sym, In sym (map fst (snd r)) <-> In sym (map fst (snd r')))
  /\ NoDup (map fst (snd r)) /\ NoDup (map fst (snd r'))
  /\ forall sym t t', In (sym, t) (snd r) -> In (sym, t') (snd r') -> Zsum (moves es (fst r) sym) <> 0 -> t = t'.
