(** Specification: the currencies that an entry does not name (C128). *)
From Coq Require Import List Bool String.
From Verif Require Import Base Str Date Amount Posting Entry Envelope Account World Ledger SpecAmount SpecEnvelope SpecLedger.
Import ListNotations.
Local Open Scope list_scope.

(** The entry has an amount of the currency, written or inferred. *)
Definition deals_in (e : entry) (sym : option str) : Prop :=
  exists p a, In p (e_postings e) /\ worth e p a /\ symbol a = sym.
(** The amounts of the currency among others. *)
Definition only_in (sym : option str) (p : list amount) : list amount := filter (fun x => if sym_dec (symbol x) sym then true else false) p.
(** The same envelope, but for the day on which it was last used. *)
Definition same_but_day (v w : envelope) : Prop := same_definition v w /\ v_now w = v_now v /\ v_next w = v_next v.
(** The same money of a currency, in the account and in its envelopes. *)
Definition same_coins (sym : option str) (a b : account) : Prop :=
  a_name b = a_name a /\ only_in sym (a_real b) = only_in sym (a_real a)
  /\ Forall2 (fun v w => same_definition v w /\ (symbol (v_amount v) = sym -> same_but_day v w)) (a_expenses a) (a_expenses b)
  /\ Forall2 (fun v w => same_definition v w /\ (symbol (v_amount v) = sym -> same_but_day v w)) (a_goals a) (a_goals b).
(** The amount of the first posting to the account is written down. *)
Definition said_first (es : list entry) (name : str) : Prop :=
  forall x rest, filter (to_account name) (postings es) = x :: rest -> get_amount (snd x) <> None.
