(** What an error message may say. *)
From Coq Require Import ZArith NArith List Bool String.
From Verif Require Import Base Str F64 Date World Amount Posting Entry Envelope Account Ledger Cli
  SpecAmount SpecEntry SpecLedger SpecInclude SpecCrash.
From Verif Require Errors.
Import ListNotations.

Definition part (s t : str) : Prop := exists a b, t = a ++ s ++ b.

(** The values that are put into the text of an error about a journal. *)
Definition mentions (e : err) : list str :=
  match e with
  | EParse p =>
      match p with
      | AmountTokens s | AmountMag s => [s]
      | NoAccountName l | NoEnvelopeName l => [l]
      | UnknownStatus s => [s]
      | EntryNoHeader c => [c]
      | EntryDate t _ h => [t; h]
      | NoClosingBracket h => [h]
      | UnknownType s | UnknownFunding s | OtherNoStarting s | UnknownFrequency s | YearNoStarting s => [s]
      | DueDate s _ | StartingDate s _ => [s]
      | NoDueDate h | EnvelopeBlank h => [h]
      | EnvelopeNoHeader c => [c]
      | PropertyBlank k n a => [k; n; a]
      | UnknownProperty k => [k]
      | ForSpaces s | ForBlank s => [s]
      | AccountNoHeader c => [c]
      | AccountSpaces l | AccountBlank l => [l]
      | RuleNoValue l | DecimalLong l => [l]
      | UnknownRule n l => [n; l]
      | DuplicateField n => [n]
      | ImportDate s f => [s; f]
      | _ => []
      end
  | EValidation v =>
      match v with
      | UndefinedAccount n => [n]
      | TwoBlanks c | MixedBlank c => [c]
      | DuplicateEnvelope n a => [n; a]
      | NoPostings r => [r]
      | _ => []
      end
  | EProcessing (NoNativeValue x) | EProcessing (NoEnvelopeValue x) => [x]
  | EProcessing (ForeignEnvelope n a x) => [n; a; x]
  | EBasic (UnknownFlag s) | EBasic (NotSupported s) | EBasic (UnknownCommand s) | EBasic (NoValue s) => [s]
  | EBasic _ => []
  | EFile p => [p]
  end.

(** What a message says about the values of the error, with each value in its place. *)
Definition sentence (e : err) : str :=
  match e with
  | EParse (EntryDate t f _) => lit "couldn't parse date `" ++ t ++ lit "` with format `" ++ f ++ lit "`"
  | EParse (DueDate t f) => lit "couldn't parse `" ++ t ++ lit "` with format `" ++ f ++ lit "`"
  | EParse (StartingDate t f) => lit "couldn't parse starting date `" ++ t ++ lit "` with format `" ++ f ++ lit "`"
  | EParse (PropertyBlank k n a) => lit "the property `" ++ k ++ lit "` to an envelope (`" ++ n ++ lit "` in " ++ a ++ lit ") is blank"
  | EParse (UnknownRule n _) => lit "`" ++ n ++ lit "` is not a rule that silverfox understands"
  | EParse (UnknownStatus s) => lit "`" ++ s ++ lit "` is not a status that silverfox understands"
  | EParse (UnknownProperty k) => lit "the `" ++ k ++ lit "` property isn't understood by silverfox"
  | EParse (DuplicateField n) => lit "duplicate field definition in your rules file: `" ++ n ++ lit "`"
  | EParse (ImportDate t f) => lit "there was an error parsing `" ++ t ++ lit "` with the format `" ++ f ++ lit "`"
  | EValidation (UndefinedAccount n) => lit "the account `" ++ n ++ lit "` is not defined in your journal"
  | EValidation (DuplicateEnvelope n a) => lit "duplicate envelope definition for `" ++ n ++ lit "` in the account `" ++ a ++ lit "`"
  | EProcessing (ForeignEnvelope n a _) => lit "the envelope `" ++ n ++ lit "` in `" ++ a ++ lit "` was set up with a currency that isn't your native"
  | EBasic (UnknownFlag s) => lit "doesn't recognize this flag: `" ++ s ++ lit "`"
  | EBasic (NotSupported s) => lit "the `" ++ s ++ lit "` subcommand is recognized by silverfox, but not supported yet"
  | EBasic (UnknownCommand s) => lit "`" ++ s ++ lit "` is not a recognized subcommand"
  | EBasic (NoValue s) => lit "no value was supplied for the argument `" ++ s ++ lit "`"
  | EFile p => lit "(file: " ++ p ++ lit ")"
  | _ => []
  end.

(** Errors that cannot come from reading a journal. *)
Definition of_import (e : err) : Prop :=
  match e with
  | EParse (CsvRecord | RuleNoValue _ | NestedSubrules | UnknownRule _ _ | DecimalLong _ | SkipNumber _
      | DuplicateField _ | ImportDate _ _) => True
  | EValidation (FieldsDiscarded | OneBlankPosting | NoPostings _) => True
  | _ => False
  end.

(** The text without blank characters. *)
Definition solid (s : str) : str := filter (fun c => negb (is_ws c)) s.

(** An error in what stands in the texts [W]. *)
Definition founded (W : str -> Prop) (e : err) : Prop :=
  match e with
  | EParse (AmountTokens s) | EParse (AmountMag s) => exists q r, W q /\ solid r = solid q /\ s = without_double_dash r
  | EParse _ | EValidation _ => ~ of_import e /\ Forall W (mentions e)
  | _ => False
  end.

(** The path of the journal or a path that an [include] in it gives. *)
Definition read_path (w : world) (j p : str) : Prop :=
  p = j \/ exists q t, journal_file w j q /\ files w q = Some t /\ includes t p.

(** An error that has its reason in the journal [j]. *)
Definition reason (w : world) (j : str) (e : err) : Prop :=
  match e with
  | EFile p => read_path w j p
  | EProcessing (NoNativeValue x) | EProcessing (NoEnvelopeValue x) =>
      exists n, recorded_in w j n /\ x = full_string n
  | EProcessing (ForeignEnvelope v a x) =>
      (exists n, recorded_in w j n /\ x = full_string n)
      /\ exists c u, defined_in w j c /\ In u (all_envelopes c) /\ v_name u = v /\ a_name c = a
  | EBasic _ => False
  | _ => exists c, stands_in w j c /\ founded (fun s => part s c) e
  end.

(** A chunk that defines the account [n], and one with a posting to it. *)
Definition defines (c n : str) : Prop :=
  keyword c "account" /\ exists h ls k, lines c = h :: ls /\ split_ws (remove_comments h) = [k; n].
Definition posts_to (c n : str) : Prop :=
  ~ directive c /\ exists h ls l, lines (trim c) = h :: ls /\ In l ls /\ hd_error (split_ws (remove_comments l)) = Some n.
(** The account is used, and not defined above in this file. *)
Definition undefined_use (w : world) (j n : str) : Prop :=
  exists p t pre c post, journal_file w j p /\ files w p = Some t /\ cut_up t (pre ++ c :: post)
  /\ posts_to c n /\ forall d, In d pre -> ~ defines d n.

(** [w'] is [w] with the journal [j] continued by [t2]. *)
Definition continued (w w' : world) (j t2 : str) : Prop :=
  exists t, files w (located (cwd w) j) = Some t /\ files w' (located (cwd w) j) = Some (above t t2)
  /\ (forall q, q <> located (cwd w) j -> files w' q = files w q) /\ (forall q, dirs w' q = dirs w q) /\ cwd w' = cwd w.
(** No file of the journal includes the journal itself. *)
Definition not_circular (w : world) (j : str) : Prop :=
  forall q t f d, journal_file w j q -> files w q = Some t -> includes t f -> dirs w d = true ->
    located d f <> located (cwd w) j.
(** How reading ended. *)
Definition fails {A} (r r' : res A) : Prop :=
  match r with
  | Ok _ => False
  | Err e => r' = Err e
  | Panic => r' = Panic
  | Loop => r' = Loop
  end.
