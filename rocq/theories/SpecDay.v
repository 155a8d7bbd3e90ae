(** Specification: the same journal on two days (C122). *)
From Coq Require Import ZArith List Bool Reals.
From Verif Require Import Base Str F64 Date Amount Posting Entry Envelope Account Ledger Importer Cli
  SpecAmount SpecEnvelope SpecLedger.
Import ListNotations.
Local Open Scope Z_scope.

(** The same envelope but for what of its money is ready and what is saved. *)
Definition divided (v w : envelope) : Prop := same_definition v w /\ v_last v = v_last w.
Definition divided_account (a b : account) : Prop :=
  a_name a = a_name b /\ a_real a = a_real b
  /\ Forall2 divided (a_expenses a) (a_expenses b) /\ Forall2 divided (a_goals a) (a_goals b).
Definition divided_ledger (l m : ledger) : Prop :=
  l_path l = l_path m /\ l_entries l = l_entries m /\ l_format l = l_format m /\ l_currency l = l_currency m
  /\ Forall2 (fun x y => fst x = fst y /\ divided_account (snd x) (snd y)) (l_accounts l) (l_accounts m).

(** The same outcome, unless one crashes. *)
Definition unless_crash {A B} (R : A -> B -> Prop) (r : res A) (s : res B) : Prop :=
  r = Panic \/ s = Panic
  \/ match r, s with
     | Ok a, Ok b => R a b
     | Err e, Err f => e = f
     | Loop, Loop => True
     | _, _ => False
     end.

(** The envelope holds [z] altogether. *)
Definition contains (v : envelope) (z : Z) : Prop :=
  exists x y, f64_is (mag (v_now v)) (IZR x) /\ f64_is (mag (v_next v)) (IZR y) /\ x + y = z.
(** Accounts with the same money in each envelope, and the same available. *)
Definition same_contents (a b : account) : Prop :=
  (exists zs, Forall2 contains (all_envelopes a) zs /\ Forall2 contains (all_envelopes b) zs)
  /\ forall sym, exists z, f64_is (mag (pool_only (available_value a) sym)) (IZR z)
                        /\ f64_is (mag (pool_only (available_value b) sym)) (IZR z).

(** The same run on another day. *)
Definition on_day (x : context) (t : date) : context :=
  mkContext t (x_tty x) (x_env x) (x_lower x) (x_ord x) (x_csv x) (x_fuel x).
