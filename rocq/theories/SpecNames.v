(** Specification: other names (C126). *)
From Coq Require Import ZArith NArith List Bool String.
From Verif Require Import Base Str F64 Date Amount Posting Entry Envelope Account Ledger.
Import ListNotations.

(** New names for accounts, envelopes and currencies. *)
Record naming : Set := mkNaming { n_account : str -> str; n_envelope : str -> str; n_symbol : str -> str }.
(** Different things keep different names. *)
Definition one_to_one (f : str -> str) : Prop := forall a b, f a = f b -> a = b.
Definition distinct (n : naming) : Prop := one_to_one (n_account n) /\ one_to_one (n_envelope n) /\ one_to_one (n_symbol n).

Section Renaming.
Variable n : naming.
Definition re_amount (a : amount) : amount := mkAmount (mag a) (option_map (n_symbol n) (symbol a)).
Definition re_cost (c : cost) : cost :=
  match c with TotalCost a => TotalCost (re_amount a) | UnitCost a => UnitCost (re_amount a) end.
Definition re_posting (p : posting) : posting :=
  match p with
  | Classic c => Classic (mkClassic (option_map re_amount (c_amount c)) (n_account n (c_account c))
                   (option_map re_cost (c_cost c)) (option_map re_amount (c_balance c)))
  | EnvPosting e => EnvPosting (mkEnvPosting (n_account n (ep_account e)) (n_envelope n (ep_envelope e)) (re_amount (ep_amount e)))
  end.
Definition re_entry (e : entry) : entry :=
  mkEntry (e_date e) (e_status e) (e_desc e) (e_payee e) (e_comment e) (map re_posting (e_postings e)).
Definition re_envelope (v : envelope) : envelope :=
  mkEnvelope (n_envelope n (v_name v)) (re_amount (v_amount v)) (v_type v) (map (n_account n) (v_auto v)) (v_freq v) (v_funding v)
    (v_starting v) (re_amount (v_next v)) (re_amount (v_now v)) (n_account n (v_account v)) (v_last v).
Definition re_account (a : account) : account :=
  mkAccount (n_account n (a_name a)) (map re_envelope (a_expenses a)) (map re_envelope (a_goals a)) (map re_amount (a_real a)).
Definition re_ledger (l : ledger) : ledger :=
  mkLedger (l_path l) (map re_entry (l_entries l)) (l_format l)
    (map (fun ka => (n_account n (fst ka), re_account (snd ka))) (l_accounts l)) (l_currency l).
Definition re_totals (m : list (str * pool)) : list (str * pool) :=
  map (fun kp => (n_account n (fst kp), map re_amount (snd kp))) m.
End Renaming.

(** The same kind of outcome, and results that correspond. *)
Definition alike {A B} (f : A -> B) (r : res A) (r' : res B) : Prop :=
  match r, r' with
  | Ok a, Ok b => b = f a
  | Err _, Err _ | Panic, Panic | Loop, Loop => True
  | _, _ => False
  end.
(** One row of the register with other names: the same date, texts, and amounts. *)
Definition re_row (n : naming) (d d' : option register_data) : Prop :=
  match d, d' with
  | Some d, Some d' => rd_date d' = rd_date d /\ rd_status d' = rd_status d /\ rd_description d' = rd_description d
      /\ rd_payee d' = rd_payee d /\ rd_amounts d' = map (re_amount n) (rd_amounts d)
  | None, None => True
  | _, _ => False
  end.
