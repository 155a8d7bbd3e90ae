(** Specifications of C99 and C100 for decimals. *)
From Coq Require Import ZArith List Bool Reals.
From Verif Require Import Base Str F64 Date Amount Posting Entry Envelope Account Ledger
  SpecAmount SpecDate SpecEntry SpecEnvelope SpecHistory SpecLedger SpecTotals SpecConserve.
Import ListNotations.
Local Open Scope Z_scope.

(** The numbers [zs] are so few and small, altogether within [m], that sums of
    [k] of them are shown exactly. *)
Definition small (m : Z) (k : nat) (zs : list Z) : Prop :=
  0 < m /\ Zsum (map Z.abs zs) <= m /\ Z.of_nat k * m <= 2 ^ 47.

(** [a] and [b] are both shown as [n] units, with the same text unless [n] is
    zero. *)
Definition same_shown (a b : amount) (n : Z) : Prop :=
  symbol b = symbol a
  /\ total_shown (show_amount a) n (symbol a) /\ total_shown (show_amount b) n (symbol a)
  /\ (n <> 0 -> show_amount b = show_amount a).

(** What the account holds of a currency. *)
Definition held (a : account) (sym : option str) : amount := mkAmount (mag (pool_only (a_real a) sym)) sym.

(** The accounts [a] and [b] after the same entries in different orders. *)
Definition same_texts (es : list entry) (a b : account) : Prop :=
  a_name b = a_name a
  /\ Forall2 (fun v w => same_definition v w
        /\ forall h m zs, moves_of_all v es h -> Forall2 (fun x z => units (mag (snd x)) z) h zs ->
             small m (List.length zs) zs ->
             (exists n, same_shown (v_now v) (v_now w) n) /\ (exists n, same_shown (v_next v) (v_next w) n))
       (all_envelopes a) (all_envelopes b)
  /\ forall m sym zs k, exact_worths m sym (filter (to_classic (a_name a)) (postings es)) zs k -> small m k zs ->
       same_shown (held a sym) (held b sym) (Zsum zs).

(** The real amounts of an entry in a currency are worth [zs] units. *)
Definition real_units (m : Z) (sym : option str) (e : entry) (zk : list Z * nat) : Prop :=
  exact_worths m sym (filter is_classic (map (pair e) (e_postings e))) (fst zk) (snd zk).
(** The accounts are shown with these holdings. *)
Definition holdings_shown (sym : option str) (l : ledger) (ns : list Z) : Prop :=
  Forall2 (fun ka n => total_shown (show_amount (held (snd ka) sym)) n sym) (l_accounts l) ns.
