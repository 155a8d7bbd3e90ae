(** Specifications for rules and for the entry made from a record. *)
From Coq Require Import ZArith NArith List Bool String Permutation.
From Verif Require Import Base Str F64 Date World Amount Posting Entry Ledger Importer
  SpecAmount SpecDate SpecEntry SpecEnvelope SpecLedger SpecRegister SpecImport.
Import ListNotations.
Local Open Scope Z_scope.

(** ** What a rule sets *)
Inductive setting : Set :=
  | Words (s : str)
  | Symbol (c : char)
  | Names (l : list str)
  | Count (n : Z)
  | Perhaps (o : option str).
Definition entry_of (m : list (str * str)) (k : str) : option str :=
  option_map snd (List.find (fun x => if str_dec (fst x) k then true else false) m).
Definition setting_of (s : slot) (r : rules) : setting :=
  match s with
  | SComment => Words (r_comment r)
  | SFormat => Words (r_format r)
  | SDate => Words (r_date r)
  | SDecimal => Symbol (r_decimal r)
  | SDesc => Words (r_desc r)
  | SFields => Names (r_fields r)
  | SPayee => Words (r_payee r)
  | SSkip => Count (r_skip r)
  | SStatus => Words (r_status r)
  | SAmount k => Perhaps (entry_of (r_amounts r) k)
  | SAccount k => Perhaps (entry_of (r_accounts r) k)
  end.

(** The value of digits. *)
Fixpoint whole (n : Z) (s : str) : Z :=
  match s with
  | [] => n
  | c :: s' => whole (10 * n + (Z.of_N c - 48)) s'
  end.
Definition digits (s : str) : Prop := s <> [] /\ Forall (fun c => (48 <= c <= 57)%N) s.
Inductive integer_text : str -> Z -> Prop :=
  | int_plain s : digits s -> integer_text s (whole 0 s)
  | int_plus s : digits s -> integer_text (lit "+" ++ s) (whole 0 s)
  | int_minus s : digits s -> integer_text (lit "-" ++ s) (- whole 0 s).
(** Parts between commas. *)
Inductive between_commas : str -> list str -> Prop :=
  | commas_last s : ~ In 44%N s -> between_commas s [s]
  | commas_more s rest ps : ~ In 44%N s -> between_commas rest ps -> between_commas (s ++ 44%N :: rest) (s :: ps).
(** A text without white space at its ends. *)
Inductive stripped : str -> str -> Prop :=
  | stripped_ends a s b : Forall blank_char a -> Forall blank_char b ->
      (forall c t, s = c :: t -> ~ blank_char c) -> (forall t c, s = t ++ [c] -> ~ blank_char c) ->
      stripped (a ++ s ++ b) s.

(** The new setting for a value, given the old one. *)
Inductive set_to : slot -> str -> setting -> setting -> Prop :=
  | set_words s v old : In s [SComment; SFormat; SDate; SDesc; SPayee; SStatus] -> set_to s v old (Words v)
  | set_symbol c old : (c < 128)%N -> set_to SDecimal [c] old (Symbol c)
  | set_names v ps ns old : between_commas v ps -> Forall2 stripped ps ns ->
      set_to SFields v (Names old) (Names (old ++ ns))
  | set_count v n old : integer_text v n -> - 2 ^ 31 <= n < 2 ^ 31 -> set_to SSkip v old (Count n)
  | set_amount k v old : set_to (SAmount k) v old (Perhaps (Some v))
  | set_account k v old : set_to (SAccount k) v old (Perhaps (Some v)).

(** ** The entry of a record *)
(** [t] is the text [s] with the fields of the record put in. *)
Definition filled_in (vars : list (str * str)) (s t : str) : Prop :=
  exists ps, s = template ps /\ Forall (plain_piece vars) ps /\ well_separated vars ps /\ t = meaning vars ps.
(** Nothing if the text is blank. *)
Definition perhaps_filled (vars : list (str * str)) (s : str) (o : option str) : Prop :=
  (Forall blank_char s /\ o = None) \/ (~ Forall blank_char s /\ exists t, filled_in vars s t /\ o = Some t).
(** A text without the white space at its start. *)
Definition past_blanks (v v' : str) : Prop :=
  exists a, v = a ++ v' /\ Forall blank_char a /\ (forall c t, v' = c :: t -> ~ blank_char c).
