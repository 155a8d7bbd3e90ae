(** Specifications for the entry that moves money to envelopes. *)
From Coq Require Import ZArith NArith List Bool String.
From Verif Require Import Base Str F64 Date Amount Posting Entry Envelope Account World Ledger SpecAmount SpecEntry SpecReport.
Import ListNotations.

(** An account, one of its envelopes, and the amount that is moved there. *)
Record move : Set := mkMove { m_account : str; m_envelope : str; m_amount : amount }.

(** The envelopes [vs] get money one after the other, each from what the ones
    before it have left of [p].  Nothing is recorded for a zero. *)
Inductive moves_of (today : date) : list amount -> list envelope -> list move -> Prop :=
  | moves_nil p : moves_of today p [] []
  | moves_zero p v a vs ms : filling_amount today v (pool_only p (symbol (v_amount v))) = Ok a ->
      feqb (mag a) fzero = true -> moves_of today (pool_sub p a) vs ms -> moves_of today p (v :: vs) ms
  | moves_some p v a vs ms : filling_amount today v (pool_only p (symbol (v_amount v))) = Ok a ->
      feqb (mag a) fzero = false -> moves_of today (pool_sub p a) vs ms ->
      moves_of today p (v :: vs) (mkMove (v_account v) (v_name v) a :: ms).
(** Goals come before expenses, the last one first. *)
Definition account_moves (today : date) (a : account) (ms : list move) : Prop :=
  moves_of today (available_value a) (rev (a_goals a) ++ rev (a_expenses a)) ms.

(** The text in the journal. *)
Definition move_line (m : move) : str :=
  let what := lit "envelope " ++ m_account m ++ lit " " ++ m_envelope m in
  lit "    " ++ what ++ blanks 50 what ++ lit " " ++ show_amount (m_amount m) ++ [10%N].
Definition moves_text (fmt : str) (today : date) (ms : list move) : str :=
  match ms with
  | [] => []
  | _ => [10%N] ++ format_date fmt today ++ lit " ~ move to envelopes // automatically generated by silverfox" ++ [10%N]
         ++ flat_map move_line ms
  end.
Definition move_posting (m : move) : posting :=
  EnvPosting (mkEnvPosting (m_account m) (m_envelope m) (m_amount m)).
(** The entries for these moves. *)
Definition moves_entry (today : date) (ms : list move) : list entry :=
  match ms with
  | [] => []
  | _ => [mkEntry today Cleared (lit "move to envelopes") None (Some (lit "automatically generated by silverfox"))
            (map move_posting ms)]
  end.
(** The amounts that are moved within the account [name]. *)
Definition moved (name : str) (ms : list move) : list amount :=
  map m_amount (filter (fun m => if str_dec (m_account m) name then true else false) ms).
