(** Specification of what does not depend on the order of the entries. *)
From Coq Require Import ZArith List Bool Reals.
From Verif Require Import Base Str F64 Date Amount Posting Entry Envelope Account Ledger
  SpecAmount SpecDate SpecEntry SpecEnvelope SpecHistory SpecLedger.
Import ListNotations.
Local Open Scope Z_scope.

(** The same entries on each day, in the same order. *)
Definition same_days (es es' : list entry) : Prop := forall d, on d es = on d es'.

(** Whole numbers that cannot become too large to be added exactly. *)
Definition whole (xs : list f64) : Prop :=
  exists zs, Forall2 (fun x z => f64_is x (IZR z)) xs zs /\ Zsum (map Z.abs zs) <= 2 ^ 53.
(** The entries move only whole numbers into and out of the envelope. *)
Definition whole_moves (v : envelope) (es : list entry) : Prop :=
  exists h, moves_of_all v es h /\ whole (map (fun x => mag (snd x)) h).
(** The entries post only whole numbers of the currency to the account. *)
Definition whole_postings (name : str) (sym : option str) (es : list entry) : Prop :=
  exists xs, worths (filter (to_classic name) (postings es)) xs
  /\ whole (map mag (filter (fun a => if sym_dec (symbol a) sym then true else false) xs)).

(** The accounts [a] and [b] after the same entries in different orders. *)
Definition same_money (es : list entry) (a b : account) : Prop :=
  a_name b = a_name a
  /\ Forall2 (fun v w => same_definition v w
                /\ (whole_moves v es -> v_now w = v_now v /\ v_next w = v_next v))
       (all_envelopes a) (all_envelopes b)
  /\ forall sym, whole_postings (a_name a) sym es ->
       exists n, f64_is (mag (pool_only (a_real a) sym)) (IZR n)
              /\ f64_is (mag (pool_only (a_real b) sym)) (IZR n).
