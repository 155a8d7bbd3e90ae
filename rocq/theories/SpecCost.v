(** Specification: prices. *)
From Coq Require Import ZArith NArith List Bool String.
From Verif Require Import Base Str F64 Date Amount Posting Entry Envelope SpecEntry SpecEnvelope.
Import ListNotations.

(** The posting with the price [k]. *)
Definition priced (c : classic) (k : cost) : posting :=
  Classic (mkClassic (c_amount c) (c_account c) (Some k) (c_balance c)).

(** A price per unit and the cost of all units, both without a symbol. *)
Definition same_price (a unit_price total : amount) : Prop :=
  symbol unit_price = None /\ symbol total = None /\ mag total = fmul (fabs (mag a)) (mag unit_price).

(** An entry that concerns an envelope although it does not name it. *)
Definition concerns (e : entry) (v : envelope) : Prop :=
  ~ manual e /\ (exists p, In p (e_postings e) /\ own v p) /\ (exists p, In p (e_postings e) /\ linked v p).
(** An amount in a currency with a symbol. *)
Definition foreign (p : posting) : Prop := exists a s, get_amount p = Some a /\ symbol a = Some s.
