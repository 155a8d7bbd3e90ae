(** Specification: how an entry is divided into postings (C129). *)
From Coq Require Import ZArith List Bool Reals Permutation.
From Verif Require Import Base Str F64 Date Amount Posting Entry Envelope Account Ledger SpecAmount.
Import ListNotations.
Local Open Scope Z_scope.

(** A posting without price and assertion. *)
Definition plain (name : str) (m : f64) (sym : option str) : posting := Classic (mkClassic (Some (mkAmount m sym)) name None None).
(** The postings in another order; two postings to one account written as one;
    one posting written as two. *)
Inductive regrouped (ps qs : list posting) : Prop :=
  | regrouped_order : Permutation ps qs -> regrouped ps qs
  | regrouped_join name sym m k s x y rs : f64_is m (IZR x) -> f64_is k (IZR y) -> f64_is s (IZR (x + y)) ->
      Permutation ps (plain name m sym :: plain name k sym :: rs) -> Permutation qs (plain name s sym :: rs) -> regrouped ps qs
  | regrouped_part name sym m k s x y rs : f64_is m (IZR x) -> f64_is k (IZR y) -> f64_is s (IZR (x + y)) ->
      Permutation ps (plain name s sym :: rs) -> Permutation qs (plain name m sym :: plain name k sym :: rs) -> regrouped ps qs.
Definition rewritten (e e' : entry) : Prop := e_date e' = e_date e /\ regrouped (e_postings e) (e_postings e').

(** The numbers of an entry: its amounts, and what they are worth. *)
Definition figures (e : entry) : list f64 :=
  flat_map (fun p => (match get_amount p with Some a => [mag a] | None => [] end)
                     ++ (match native_value p with Some m => [m] | None => [] end)) (e_postings e).
Definition blanks_of (e : entry) : list posting := filter (fun p => match get_amount p with None => true | Some _ => false end) (e_postings e).
(** At most one amount is left out in each entry; all are whole numbers, of
    2^52 in total. *)
Definition modest (es : list entry) : Prop :=
  Forall (fun e => (List.length (blanks_of e) <= 1)%nat) es
  /\ exists zs, Forall2 (fun x z => f64_is x (IZR z)) (flat_map figures es) zs /\ Zsum (map Z.abs zs) <= 2 ^ 52.
(** The same account: the same envelopes, and the same amounts of each currency. *)
Definition same_holdings (a b : account) : Prop :=
  a_name b = a_name a /\ a_expenses b = a_expenses a /\ a_goals b = a_goals a
  /\ forall sym, exists n, f64_is (mag (pool_only (a_real a) sym)) (IZR n) /\ f64_is (mag (pool_only (a_real b) sym)) (IZR n).
