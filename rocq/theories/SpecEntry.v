(** Specifications for postings and entries. *)
From Coq Require Import ZArith NArith List Bool String.
From Verif Require Import Base Str F64 Date Amount Posting Entry SpecAmount SpecDate.
Import ListNotations.

(** ** Texts that survive printing *)

(** A name that can stand in a journal: one token without comment marks. *)
Definition name_ok (s : str) : Prop := token s /\ unmarked s.

(** The tokens with a meaning of their own in a posting line. *)
Definition op_token (s : str) : Prop :=
  s = lit "!" \/ s = lit "!!" \/ s = lit "@" \/ s = lit "=".

(** An amount that is displayed as a number and whose symbol is a plain one. *)
Definition writable (a : amount) : Prop :=
  finite (rounded_mag a) /\ plain_symbol (symbol a)
  /\ match symbol a with Some s => unmarked s /\ ~ op_token s | None => True end.
Definition opt_holds {A} (P : A -> Prop) (o : option A) : Prop :=
  match o with Some a => P a | None => True end.
Definition cost_amount (c : cost) : amount :=
  match c with TotalCost a => a | UnitCost a => a end.
Definition writable_posting (accounts : list str) (p : posting) : Prop :=
  match p with
  | Classic c =>
      name_ok (c_account c) /\ c_account c <> lit "envelope" /\ In (c_account c) accounts
      /\ opt_holds writable (c_amount c)
      /\ opt_holds (fun k => writable (cost_amount k)) (c_cost c)
      /\ opt_holds writable (c_balance c)
  | EnvPosting e => name_ok (ep_account e) /\ name_ok (ep_envelope e) /\ writable (ep_amount e)
  end.

(** The same with every magnitude as displayed, see [eight_decimals]. *)
Definition to8 (a : amount) : amount := mkAmount (rounded_mag a) (symbol a).
Definition to8_cost (c : cost) : cost :=
  match c with TotalCost a => TotalCost (to8 a) | UnitCost a => UnitCost (to8 a) end.
Definition to8_posting (p : posting) : posting :=
  match p with
  | Classic c => Classic (mkClassic (option_map to8 (c_amount c)) (c_account c)
                            (option_map to8_cost (c_cost c)) (option_map to8 (c_balance c)))
  | EnvPosting e => EnvPosting (mkEnvPosting (ep_account e) (ep_envelope e) (to8 (ep_amount e)))
  end.

(** ** Clauses of a posting line *)

(** An operator token and the tokens after it. *)
Definition clause : Type := (str * list str)%type.
Definition clause_tokens (cl : list clause) : list str :=
  flat_map (fun k : clause => fst k :: snd k) cl.
(** Operator tokens stand only at the heads of the clauses, and no operator
    occurs twice. *)
Definition clauses_ok (amt : list str) (cl : list clause) : Prop :=
  Forall (fun t => ~ op_token t) amt
  /\ Forall (fun k : clause => op_token (fst k) /\ Forall (fun t => ~ op_token t) (snd k)) cl
  /\ NoDup (map fst cl).
Definition str_dec : forall a b : str, {a = b} + {a <> b} := list_eq_dec N.eq_dec.
Definition clause_of (op : str) (cl : list clause) : option (list str) :=
  option_map snd (List.find (fun k : clause => if str_dec (fst k) op then true else false) cl).

(** [ts], if there are any, are the tokens of the amount [o]. *)
Definition reads (dsym : char) (ts : option (list str)) (o : option amount) : Prop :=
  match ts with
  | None => o = None
  | Some ts => exists a, parse_amount (join (lit " ") ts) dsym = Ok a /\ o = Some a
  end.

(** ** Entries *)

Definition blank (p : posting) : Prop := get_amount p = None.
(** The written amounts of an entry, in order. *)
Definition written (ps : list posting) : list amount :=
  flat_map (fun p => match get_amount p with Some a => [a] | None => [] end) ps.
Definition blanks (ps : list posting) : nat :=
  List.length (filter (fun p => match get_amount p with None => true | Some _ => false end) ps).
(** The named currencies. *)
Definition named (ps : list posting) : list str :=
  flat_map (fun a => match symbol a with Some s => [s] | None => [] end) (written ps).

(** The rule about blank postings. *)
Definition acceptable (ps : list posting) : Prop :=
  (blanks ps <= 1)%nat
  /\ (blanks ps = 1%nat -> forall s t, In s (named ps) -> In t (named ps) -> s = t).

(** The worth of a posting in the native currency. *)
Inductive native : posting -> f64 -> Prop :=
  | native_plain c a : c_amount c = Some a -> symbol a = None -> native (Classic c) (mag a)
  | native_total c a s b : c_amount c = Some a -> symbol a = Some s ->
      c_cost c = Some (TotalCost b) -> symbol b = None -> native (Classic c) (mag b)
  | native_unit c a s b : c_amount c = Some a -> symbol a = Some s ->
      c_cost c = Some (UnitCost b) -> symbol b = None -> native (Classic c) (fmul (mag a) (mag b)).

(** Two written amounts have different currencies. *)
Definition mixed (ps : list posting) : Prop :=
  exists a b, In a (written ps) /\ In b (written ps) /\ symbol a <> symbol b.

(** The signs of the statuses. *)
Inductive sign_of : status -> str -> Prop :=
  | sign_pending : sign_of Pending (lit "?")
  | sign_cleared : sign_of Cleared (lit "~")
  | sign_reconciled : sign_of Reconciled (lit "*").

(** Description and payee in the words after the status: the payee stands
    between the first opening and the last closing bracket. *)
Definition payee_split (t desc : str) (payee : option str) : Prop :=
  (~ In 91%N t /\ desc = t /\ payee = None)
  \/ (exists a b c, t = a ++ 91%N :: b ++ 93%N :: c /\ ~ In 91%N a /\ ~ In 93%N c
      /\ desc = trim a /\ payee = Some (trim b)).
(** Both brackets occur, but every closing one before every opening one. *)
Definition brackets_reversed (t : str) : Prop :=
  In 91%N t /\ In 93%N t /\ exists a b, t = a ++ b /\ ~ In 91%N a /\ ~ In 93%N b.

(** The header line [h] says so. *)
Definition header_reads (fmt h : str) (d : date) (st : status) (desc : str)
  (payee : option str) : Prop :=
  exists dtok stok words,
    split_ws (remove_comments h) = dtok :: stok :: words
    /\ parse_date dtok fmt = Some d
    /\ sign_of st stok
    /\ payee_split (join (lit " ") words) desc payee.

(** Header lines on which the parser panics: a date and nothing else, or
    reversed brackets after a good date and status. *)
Definition header_panics (fmt h : str) : Prop :=
  (exists dtok d, split_ws (remove_comments h) = [dtok] /\ parse_date dtok fmt = Some d)
  \/ (exists dtok d stok st words,
        split_ws (remove_comments h) = dtok :: stok :: words
        /\ parse_date dtok fmt = Some d /\ sign_of st stok
        /\ brackets_reversed (join (lit " ") words)).

(** A text of words with single spaces between them. *)
Definition words_text (s : str) : Prop :=
  exists ws, Forall token ws /\ s = join (lit " ") ws.
(** A date that can stand at the beginning of an entry: its text tells the date
    and has neither white space nor a comment mark. *)
Definition journal_date (fmt : str) (x : date) : Prop :=
  exists ps, pattern fmt ps x /\ (forall c, In c (date_text ps x) -> is_ws c = false) /\ unmarked (date_text ps x).
(** An entry that can be written down. *)
Definition writable_entry (accounts : list str) (e : entry) : Prop :=
  (0 <= year (e_date e) < 10000)%Z
  /\ words_text (e_desc e) /\ unmarked (e_desc e) /\ ~ In 91%N (e_desc e)
  /\ opt_holds (fun p => words_text p /\ unmarked p) (e_payee e)
  /\ opt_holds (fun c => ~ In 10%N c) (e_comment e)
  /\ Forall (writable_posting accounts) (e_postings e)
  /\ acceptable (e_postings e).
