(** What an error of an import may say. *)
From Coq Require Import ZArith NArith List Bool String.
From Verif Require Import Base Str F64 Date World Amount Posting Entry Envelope Account Ledger Importer Cli
  SpecAmount SpecEntry SpecLedger SpecImport SpecCrash SpecErrors.
Import ListNotations.

(** A line of the rules [r] or of the files they include, and a text in one. *)
Definition rule_line (w : world) (r l : str) : Prop :=
  exists q t is, rules_file w (cwd w) r q /\ files w q = Some t /\ layout (rule_lines t) is /\ ruled is l.
Definition ruling (w : world) (r s : str) : Prop := exists l, rule_line w r l /\ part s l.
Definition first_word (l : str) (k : string) : Prop := hd_error (split_ws l) = Some (lit k).
(** The line without the blanks before it. *)
Definition rule_line_from (w : world) (r l : str) : Prop := exists b, Forall blank_char b /\ rule_line w r (b ++ l).

(** References are replaced by the values of fields, and [%%] by [%]. *)
Inductive filled_in (vars : list (str * str)) : str -> str -> Prop :=
  | filled_none t : filled_in vars t t
  | filled_ref t a n v b : filled_in vars t (a ++ 37%N :: n ++ 37%N :: b) -> In (n, v) vars -> filled_in vars t (a ++ v ++ b)
  | filled_percent t a b : filled_in vars t (a ++ 37%N :: 37%N :: b) -> filled_in vars t (a ++ 37%N :: b).

(** The text of a rule or its default; the text of a posting. *)
Definition rule_text (w : world) (r s : str) : Prop :=
  ruling w r s \/ In s (map lit ["%date%"; "%description%"; "%account%"; "%amount%"; "~"; ""]%string).
Definition posting_rule (w : world) (r s : str) : Prop :=
  rule_text w r s \/ exists a b, rule_text w r a /\ rule_text w r b /\ s = a ++ 32%N :: b.
(** A record of the file [c] and the values of its fields, with names that stand
    in [fields] rules. *)
Definition record_of (x : context) (w : world) (c : str) (rec : record) : Prop :=
  exists t, files w (located (cwd w) c) = Some t /\ In (Some rec) (x_csv x t).
Definition field_name (w : world) (r n : str) : Prop := exists l, rule_line w r l /\ first_word l "fields" /\ part n l.
Definition valued (x : context) (w : world) (c r : str) (vars : list (str * str)) : Prop :=
  exists rec, record_of x w c rec /\ Forall (fun v => field_name w r (fst v) /\ In (snd v) rec) vars.

(** An error that has its reason in the import of [c] with the rules [r] into the
    journal [j] of [w0]. *)
Definition import_reason (x : context) (w0 : world) (j : str) (w : world) (c r : str) (e : err) : Prop :=
  match e with
  | EFile p => p = j \/ p = c \/ p = r \/ exists l, rule_line w r l /\ includes_file l p
  | EParse (RuleNoValue l) => rule_line_from w r l /\ Forall (fun c => ~ blank_char c) l
  | EParse (UnknownRule n l) =>
      rule_line_from w r l /\ part n l /\ slot_of n = None /\ ~ In n (map lit ["if"; "include"; "use"]%string)
  | EParse (DecimalLong l) => rule_line_from w r l /\ (first_word l "decimal" \/ first_word l "decimal_symbol")
  | EParse (SkipNumber s) => exists l, rule_line w r l /\ first_word l "skip" /\ part s l
  | EParse NestedSubrules => exists l, rule_line w r l /\ first_word l "if"
  | EValidation FieldsDiscarded => exists l, rule_line w r l /\ first_word l "fields" /\ part (lit "-") l
  | EParse CsvRecord => exists t, files w (located (cwd w) c) = Some t /\ In None (x_csv x t)
  | EParse (DuplicateField n) => field_name w r n
  | EParse (ImportDate s f) =>
      (exists t vars, rule_text w r t /\ valued x w c r vars /\ filled_in vars t s) /\ (ruling w r f \/ f = lit "%Y/%m/%d")
  | EValidation OneBlankPosting => exists rec, record_of x w c rec
  | EValidation (NoPostings s) => exists rec, record_of x w c rec /\ s = List.concat rec
  | EProcessing (NoNativeValue y) | EProcessing (NoEnvelopeValue y) => exists n, imported x w c r n /\ y = full_string n
  | EProcessing (ForeignEnvelope v a y) =>
      (exists n, imported x w c r n /\ y = full_string n)
      /\ exists d u, defined_in w0 j d /\ In u (all_envelopes d) /\ v_name u = v /\ a_name d = a
  | EBasic _ => False
  | _ => exists t vars s, posting_rule w r t /\ valued x w c r vars /\ filled_in vars t s /\ founded (fun q => part q s) e
  end.

(** The world after the journal was loaded and moves were appended to it. *)
Definition reached (w w' : world) (j : str) : Prop :=
  (forall p, dirs w' p = dirs w p) /\ dirs w (cwd w') = true
  /\ (forall q, files w q = None -> files w' q = None)
  /\ forall q t, files w q = Some t -> exists u, files w' q = Some (t ++ u) /\ (u <> [] -> q = located (cwd w') j).
