(** Specification: journals of whole amounts (C121). *)
From Coq Require Import ZArith List Bool Reals.
From Verif Require Import Base Str F64 Date Amount Posting Entry Envelope Account Ledger
  SpecAmount SpecDate SpecEntry SpecEnvelope SpecLedger.
Import ListNotations.
Local Open Scope Z_scope.

(** Whole numbers of size [m] altogether. *)
Definition whole_to (m : Z) (xs : list f64) : Prop :=
  exists zs, Forall2 (fun x z => f64_is x (IZR z)) xs zs /\ Zsum (map Z.abs zs) <= m.
(** All amounts of the entries are whole, the inferred ones too. *)
Definition whole_entries (m : Z) (es : list entry) : Prop :=
  exists xs, worths (postings es) xs /\ whole_to m (map mag xs).
Definition envelopes_of (l : ledger) : list envelope := flat_map (fun ka => all_envelopes (snd ka)) (l_accounts l).
(** All amounts of the ledger are whole, and no envelope is filled by parts of
    its target.  [m] is the size of the targets, and of the entries as often as
    there are envelopes. *)
Definition whole_ledger (m : Z) (l : ledger) : Prop :=
  exists n k, whole_entries n (l_entries l) /\ whole_to k (map (fun v => mag (v_amount v)) (envelopes_of l))
  /\ k + (1 + n) * (1 + Z.of_nat (List.length (envelopes_of l))) <= m
  /\ forall v, In v (envelopes_of l) -> v_funding v <> Conservative.

(** The same for the amounts as they are written, one currency in an entry with
    a blank amount. *)
Definition plain_entry (e : entry) : Prop :=
  (blanks (e_postings e) <= 1)%nat
  /\ ((exists p, In p (e_postings e) /\ blank p) -> written (e_postings e) <> [] /\ ~ mixed (e_postings e)).
Definition whole_written (m : Z) (es : list entry) : Prop :=
  whole_to m (map mag (flat_map (fun e => written (e_postings e)) es)).

(** The currency of the target can be written and read again. *)
Definition plain_target (v : envelope) : Prop :=
  plain_symbol (symbol (v_amount v)) /\ match symbol (v_amount v) with Some s => unmarked s /\ ~ op_token s | None => True end.
