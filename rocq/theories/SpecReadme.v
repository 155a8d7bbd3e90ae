(** What the README promises about assertions, currencies, envelope postings
    and kinds of envelopes. *)
From Coq Require Import ZArith NArith List Bool String.
From Verif Require Import Base Str F64 Date Amount Posting Entry Envelope Ledger.
Import ListNotations.

(** ** Balance assertions *)

(** Postings that are the same apart from their balance assertions. *)
Definition alike_posting (p q : posting) : Prop :=
  match p, q with
  | Classic c, Classic d =>
      c_account c = c_account d /\ c_amount c = c_amount d /\ c_cost c = c_cost d
  | EnvPosting a, EnvPosting b => a = b
  | _, _ => False
  end.
Definition alike_entry (e f : entry) : Prop :=
  e_date e = e_date f /\ e_status e = e_status f /\ e_desc e = e_desc f
  /\ e_payee e = e_payee f /\ e_comment e = e_comment f
  /\ Forall2 alike_posting (e_postings e) (e_postings f).
(** Ledgers that are the same apart from balance assertions and the currency
    that was set with [currency]. *)
Definition alike (l m : ledger) : Prop :=
  l_path l = l_path m /\ l_format l = l_format m /\ l_accounts l = l_accounts m
  /\ Forall2 alike_entry (l_entries l) (l_entries m).

(** An error without the entry, or the header of an envelope, that it quotes. *)
Definition bare (e : err) : err :=
  match e with
  | EProcessing (NoNativeValue _) => EProcessing (NoNativeValue [])
  | EProcessing (ForeignEnvelope n a _) => EProcessing (ForeignEnvelope n a [])
  | EProcessing (NoEnvelopeValue _) => EProcessing (NoEnvelopeValue [])
  | EParse (EnvelopeBlank _) => EParse (EnvelopeBlank [])
  | EParse (NoDueDate _) => EParse (NoDueDate [])
  | EParse (StartingDate _ f) => EParse (StartingDate [] f)
  | _ => e
  end.

(** Two outcomes: both fail in the same way or both give related results. *)
Definition outcomes {A} (R : A -> A -> Prop) (r s : res A) : Prop :=
  match r, s with
  | Ok a, Ok b => R a b
  | Err x, Err y => bare x = bare y
  | Panic, Panic => True
  | Loop, Loop => True
  | _, _ => False
  end.

(** What a posting with an amount adds to the balance of an account in one
    currency, and when the assertions of a list of postings hold: the balance
    of the account, in the currency of the posting, is the asserted one. *)
Definition moves (account : str) (sym : option str) (p : posting) : list f64 :=
  match p with
  | Classic c =>
      match c_amount c with
      | Some a => if str_eqb (c_account c) account && ostr_eqb (symbol a) sym then [mag a] else []
      | None => []
      end
  | EnvPosting _ => []
  end.
Definition assertions_hold (ps : list posting) : Prop :=
  forall before c after a b, ps = before ++ Classic c :: after ->
    c_amount c = Some a -> c_balance c = Some b ->
    feqb (fold_left fadd (flat_map (moves (c_account c) (symbol a)) (before ++ [Classic c])) fzero) (mag b) = true.

(** ** Kinds of envelopes *)
Definition with_kind (k : envtype) (v : envelope) : envelope :=
  mkEnvelope (v_name v) (v_amount v) k (v_auto v) (v_freq v) (v_funding v) (v_starting v)
    (v_next v) (v_now v) (v_account v) (v_last v).
Definition same_but_kind (v w : envelope) : Prop := exists k, w = with_kind k v.
