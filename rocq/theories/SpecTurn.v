(** Specification: entries with all signs turned (C127). *)
From Coq Require Import ZArith NArith List Bool String Floats.SpecFloat.
From Verif Require Import Base Str F64 Date Amount Posting Entry Account Ledger.
Import ListNotations.

(** Opposite numbers; all zeros are alike. *)
Definition is_zero (x : f64) : Prop := exists s, sf x = S754_zero s.
Definition opposed (x y : f64) : Prop := y = fneg x \/ is_zero x /\ is_zero y.
Definition turned (a b : amount) : Prop := symbol b = symbol a /\ opposed (mag a) (mag b).
Definition turned_pool (p q : pool) : Prop := Forall2 turned p q.
(** The total cost has the sign of the amount; a price has no sign. *)
Inductive turned_cost : cost -> cost -> Prop :=
  | turned_total a b : turned a b -> turned_cost (TotalCost a) (TotalCost b)
  | turned_unit a : turned_cost (UnitCost a) (UnitCost a).
Inductive maybe {A} (R : A -> A -> Prop) : option A -> option A -> Prop :=
  | maybe_none : maybe R None None
  | maybe_some a b : R a b -> maybe R (Some a) (Some b).
Inductive turned_posting : posting -> posting -> Prop :=
  | turned_classic a b name k k' bal bal' : maybe turned a b -> maybe turned_cost k k' ->
      turned_posting (Classic (mkClassic a name k bal)) (Classic (mkClassic b name k' bal'))
  | turned_envelope name v a b : turned a b ->
      turned_posting (EnvPosting (mkEnvPosting name v a)) (EnvPosting (mkEnvPosting name v b)).
Definition turned_entry (e e' : entry) : Prop :=
  e_date e' = e_date e /\ e_status e' = e_status e /\ e_desc e' = e_desc e /\ e_payee e' = e_payee e
  /\ Forall2 turned_posting (e_postings e) (e_postings e').
(** The same outcome, with results that correspond. *)
Definition matched {A B} (R : A -> B -> Prop) (r : res A) (r' : res B) : Prop :=
  match r, r' with
  | Ok a, Ok b => R a b
  | Err _, Err _ | Panic, Panic | Loop, Loop => True
  | _, _ => False
  end.
Definition turned_totals (m m' : list (str * pool)) : Prop :=
  Forall2 (fun x y => fst x = fst y /\ turned_pool (snd x) (snd y)) m m'.
(** Accounts with the same names and the opposite money. *)
Definition turned_accounts (l l' : ledger) : Prop :=
  Forall2 (fun x y => fst x = fst y /\ a_name (snd x) = a_name (snd y) /\ turned_pool (a_real (snd x)) (a_real (snd y)))
    (l_accounts l) (l_accounts l').
(** Rows of the register: opposite amounts that flow the other way. *)
Definition turned_row (d d' : register_data) : Prop :=
  rd_date d' = rd_date d /\ rd_status d' = rd_status d /\ rd_description d' = rd_description d /\ rd_payee d' = rd_payee d
  /\ rd_flow d' = (snd (rd_flow d), fst (rd_flow d)) /\ turned_pool (rd_amounts d) (rd_amounts d').
