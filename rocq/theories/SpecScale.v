(** Specification: entries whose amounts are in proportion (C130). *)
From Coq Require Import ZArith List Bool Reals.
From Verif Require Import Base Str F64 Date Amount Posting Entry Envelope Account Ledger SpecAmount SpecEnvelope.
Import ListNotations.
Local Open Scope Z_scope.

(** The whole numbers [x] and [y] are in the proportion [c : k]. *)
Definition in_ratio (c k : Z) (x y : f64) : Prop := exists n m, f64_is x (IZR n) /\ f64_is y (IZR m) /\ k * n = c * m.
Definition amounts_ratio (c k : Z) (a b : amount) : Prop := symbol b = symbol a /\ in_ratio c k (mag a) (mag b).
(** What the amounts are worth is in the proportion too (as with the same
    price of a unit). *)
Definition worth_ratio (c k : Z) (x y : option f64) : Prop :=
  match x, y with Some m, Some n => in_ratio c k m n | None, None => True | _, _ => False end.
Inductive postings_ratio (c k : Z) : posting -> posting -> Prop :=
  | ratio_written name a b o o' h h' : amounts_ratio c k a b ->
      worth_ratio c k (classic_native (mkClassic (Some a) name o h)) (classic_native (mkClassic (Some b) name o' h')) ->
      postings_ratio c k (Classic (mkClassic (Some a) name o h)) (Classic (mkClassic (Some b) name o' h'))
  | ratio_blank name o o' h h' : postings_ratio c k (Classic (mkClassic None name o h)) (Classic (mkClassic None name o' h'))
  | ratio_envelope name env a b : amounts_ratio c k a b ->
      postings_ratio c k (EnvPosting (mkEnvPosting name env a)) (EnvPosting (mkEnvPosting name env b)).
Definition entries_ratio (c k : Z) (e e' : entry) : Prop := e_date e' = e_date e /\ Forall2 (postings_ratio c k) (e_postings e) (e_postings e').

Definition envelopes_ratio (c k : Z) (v w : envelope) : Prop :=
  same_definition v w /\ v_last w = v_last v /\ amounts_ratio c k (v_now v) (v_now w) /\ amounts_ratio c k (v_next v) (v_next w).
Definition accounts_ratio (c k : Z) (a b : account) : Prop :=
  a_name b = a_name a /\ Forall2 (envelopes_ratio c k) (a_expenses a) (a_expenses b) /\ Forall2 (envelopes_ratio c k) (a_goals a) (a_goals b)
  /\ forall sym, in_ratio c k (mag (pool_only (a_real a) sym)) (mag (pool_only (a_real b) sym)).
