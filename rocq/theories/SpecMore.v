(** Specification: an account with more money than another (C131). *)
From Coq Require Import ZArith List Reals.
From Verif Require Import Base Str F64 Date Amount Posting Envelope Account SpecAmount.
Import ListNotations.
Local Open Scope Z_scope.

(** [x] and [y] are numbers or infinite, and [x] is not above [y]. *)
Definition no_more (x y : f64) : Prop := fleb x y = true.
(** Not infinite, and not near it. *)
Definition sane (x : f64) : Prop := exists r, f64_is x r /\ (Rabs r <= IZR (10 ^ 300))%R.
Definition sane_envelope (v : envelope) : Prop := sane (mag (v_amount v)) /\ sane (mag (v_next v)) /\ sane (mag (v_now v)).
(** The same envelopes, and at least as much money of every currency. *)
Definition richer (a b : account) : Prop :=
  a_expenses b = a_expenses a /\ a_goals b = a_goals a
  /\ forall sym, no_more (mag (pool_only (a_real a) sym)) (mag (pool_only (a_real b) sym)).
(** Moves to the same envelopes of the same currencies, with amounts that are not smaller. *)
Definition no_less_moved (p q : posting) : Prop :=
  exists name env x y sym, p = EnvPosting (mkEnvPosting name env (mkAmount x sym)) /\ q = EnvPosting (mkEnvPosting name env (mkAmount y sym)) /\ no_more x y.
(** What is left when the moves are made. *)
Definition left_over (a : account) (ps : list posting) : pool :=
  fold_left pool_sub (flat_map (fun p => match get_amount p with Some x => [x] | None => [] end) ps) (available_value a).
