(** Specification: entries that move money without making or losing any. *)
From Coq Require Import ZArith List Bool Reals.
From Verif Require Import Base Str F64 Date Amount Posting Entry Envelope Account Ledger
  SpecAmount SpecDate SpecEntry SpecEnvelope SpecLedger SpecOrder.
Import ListNotations.
Local Open Scope Z_scope.

Definition is_classic (x : entry * posting) : bool :=
  match snd x with Classic _ => true | EnvPosting _ => false end.
Definition in_sym (sym : option str) (a : amount) : bool := if sym_dec (symbol a) sym then true else false.
(** The real amounts of an entry in a currency are whole numbers [zs]. *)
Definition real_amounts (sym : option str) (e : entry) (zs : list Z) : Prop :=
  exists xs, worths (filter is_classic (map (pair e) (e_postings e))) xs
  /\ Forall2 (fun a z => f64_is (mag a) (IZR z)) (filter (in_sym sym) xs) zs.
(** The real amounts of the entries, entry by entry, and their size. *)
Definition all_amounts (sym : option str) (es : list entry) (zss : list (list Z)) : Prop :=
  Forall2 (real_amounts sym) es zss /\ Zsum (map Z.abs (List.concat zss)) <= 2 ^ 53.
(** What the accounts hold of a currency. *)
Definition holdings (sym : option str) (l : ledger) (ns : list Z) : Prop :=
  Forall2 (fun ka n => f64_is (mag (pool_only (a_real (snd ka)) sym)) (IZR n)) (l_accounts l) ns.
