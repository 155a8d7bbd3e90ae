(** Specification for C103: entries in error texts. *)
From Coq Require Import ZArith NArith List Bool String.
From Verif Require Import Base Str F64 Date Amount Posting Entry SpecDate SpecEntry.
Import ListNotations.

Definition dashed_date : list piece :=
  [PNum NYear ZeroPad; PText 45%N; PNum NMonth ZeroPad; PText 45%N; PNum NDay ZeroPad].
(** A column of 50 characters. *)
Definition column (s : str) : str := s ++ repeat 32%N (50 - List.length s).
Definition said_or_not {A} (f : A -> str) (x : option A) : str := match x with Some a => f a | None => [] end.
(** The texts of the amounts are those of [shown] (see C95). *)
Definition posting_quoted (shown : amount -> str) (p : posting) : str :=
  match p with
  | Classic c => column (c_account c) ++ lit " " ++ said_or_not shown (c_amount c)
      ++ said_or_not (fun k => match k with TotalCost a => lit "  = " ++ shown a | UnitCost a => lit "  @ " ++ shown a end) (c_cost c)
      ++ said_or_not (fun b => lit " ! " ++ shown b) (c_balance c)
  | EnvPosting v => column (lit "envelope " ++ ep_account v ++ lit " " ++ ep_envelope v) ++ lit " " ++ shown (ep_amount v)
  end.
(** Date, status, description and payee, then a line for each posting. *)
Definition quoted (shown : amount -> str) (e : entry) (t : str) : Prop :=
  exists s, sign_of (e_status e) s
  /\ t = date_text dashed_date (e_date e) ++ lit " " ++ s ++ lit " " ++ e_desc e
       ++ lit " [" ++ match e_payee e with Some p => p | None => lit "No payee" end ++ lit "]"
       ++ flat_map (fun p => [10%N; 9%N] ++ posting_quoted shown p) (e_postings e).
