(** Outcomes of Rust functions.

    A Rust function returning [Result<T, _>] (or [T], if it can panic) is
    modelled by a function returning [res T].  [Panic] stands for every Rust
    panic (a failed [unwrap], [assert_eq!], [unreachable!], an index or slice
    out of range).  [Loop] stands for running out of the fuel that the model
    gives to the few functions whose Rust counterpart need not terminate. *)
From Verif Require Import Str.

(** Errors: src/errors.rs 9-17 (SilverfoxError).  A constructor stands for a
    place in the code where an error is created, with the values that the code
    puts into its context and message; the texts are in [Errors.v].  Errors of
    libraries appear as their [cause]. *)
Inductive cause : Set :=
  | CauseInt (s : str)            (* std::num::ParseIntError for [s] *)
  | CauseDate (s fmt : str)       (* chrono::ParseError for [s] with [fmt] *)
  | CauseCsv                      (* csv::Error *)
  | CauseFile (p : str).          (* std::io::Error for the path [p] *)

(** ParseError: src/errors.rs 71-75 *)
Inductive parse_error : Set :=
  (* src/amount.rs 22-27, 43-48 *)
  | AmountTokens (s : str) | AmountMag (s : str)
  (* src/posting.rs 134-137, 39-42, 48-51 *)
  | PostingBlank | NoAccountName (line : str) | NoEnvelopeName (line : str)
  (* src/entry.rs 41-46, 112-115, 124-128, 158-161, 166-176, 195-198 *)
  | UnknownStatus (s : str) | EntryEmpty | EntryNoHeader (chunk : str) | HeaderBlank
  | EntryDate (token fmt header : str) | NoClosingBracket (header : str)
  (* src/envelope.rs 82-88, 106-109, 137-140, 150-153, 164-167, 172-175,
     184-187, 372-377, 405-408, 464-467, 499-504, 519-522, 526-529, 556-559,
     587-590 *)
  | UnknownType (s : str) | UnknownFunding (s : str)
  | OtherNoStarting (s : str) | UnknownFrequency (s : str) | YearNoStarting (s : str)
  | DueDate (s fmt : str) | NoDueDate (header : str) | StartingDate (s fmt : str)
  | EnvelopeNoHeader (chunk : str) | EnvelopeBlank (header : str)
  | PropertyBlank (key name account : str) | UnknownProperty (key : str)
  | ForSpaces (s : str) | ForBlank (s : str)
  (* src/account.rs 27-33, 93-98, 99-102 *)
  | AccountNoHeader (chunk : str) | AccountSpaces (line : str) | AccountBlank (line : str)
  (* src/ledger/mod.rs 126-129, 138-143, 151-154 *)
  | NoCurrency | NoDateFormat | NoIncludeFile
  (* src/importer.rs 58-61, 225-231, 262-265 and 315-318, 278-283 and 345-350,
     295-300, 326-331, 389-394, 405-411 *)
  | CsvRecord | RuleNoValue (line : str) | NestedSubrules | UnknownRule (name line : str)
  | DecimalLong (line : str) | SkipNumber (s : str) | DuplicateField (name : str)
  | ImportDate (s fmt : str).

(** ValidationError: src/errors.rs 106-110 *)
Inductive validation_error : Set :=
  (* src/posting.rs 335-339 *)
  | UndefinedAccount (name : str)
  (* src/entry.rs 297-299, 308 *)
  | TwoBlanks (chunk : str) | MixedBlank (chunk : str)
  (* src/account.rs 121-128 *)
  | DuplicateEnvelope (name account : str)
  (* src/importer.rs 251-256, 469, 473 *)
  | FieldsDiscarded | OneBlankPosting | NoPostings (rec : str).

(** ProcessingError: src/errors.rs 165-169.  [shown] is the entry as text. *)
Inductive processing_error : Set :=
  (* src/entry.rs 232-236 *)
  | NoNativeValue (shown : str)
  (* src/envelope.rs 690-700, 704-710 *)
  | ForeignEnvelope (name account shown : str) | NoEnvelopeValue (shown : str).

(** SilverfoxError::Basic: src/errors.rs 11 *)
Inductive basic_error : Set :=
  (* src/flags.rs 63-65, 81-83, 100-102, 107-110, 158-165, 187-189 *)
  | UnknownFlag (arg : str) | NoJournal | NoCsvFile | NotSupported (command : str)
  | UnknownCommand (s : str) | NoValue (name : str)
  (* src/ledger/register.rs 17-19, 115-117 *)
  | NoTerminal | NoRegister.

Inductive err : Set :=
  | EParse (e : parse_error)
  | EValidation (e : validation_error)
  | EProcessing (e : processing_error)
  | EBasic (e : basic_error)
  | EFile (p : str).

Inductive res (A : Type) : Type :=
  | Ok (a : A)
  | Err (e : err)
  | Panic
  | Loop.
Arguments Ok {A} a.
Arguments Err {A} e.
Arguments Panic {A}.
Arguments Loop {A}.

Definition bind {A B} (r : res A) (f : A -> res B) : res B :=
  match r with
  | Ok a => f a
  | Err e => Err e
  | Panic => Panic
  | Loop => Loop
  end.

Declare Scope res_scope.
Delimit Scope res_scope with res.
Notation "'let!' x ':=' r 'in' k" := (bind r (fun x => k))
  (at level 200, x pattern, r at level 100, k at level 200) : res_scope.
Open Scope res_scope.

(** [Option::ok_or], [Option::unwrap]. *)
Definition ok_or {A} (o : option A) (e : err) : res A :=
  match o with Some a => Ok a | None => Err e end.
Definition unwrap {A} (o : option A) : res A :=
  match o with Some a => Ok a | None => Panic end.
Definition is_ok {A} (r : res A) : bool :=
  match r with Ok _ => true | _ => false end.

(** [for x in l { acc = f(acc, x)? }] *)
Fixpoint fold_res {A B} (f : B -> A -> res B) (l : list A) (b : B) : res B :=
  match l with
  | nil => Ok b
  | cons a l' => bind (f b a) (fun b' => fold_res f l' b')
  end.

(** [l.into_iter().map(f).collect::<Result<Vec<_>, _>>()] *)
Fixpoint map_res {A B} (f : A -> res B) (l : list A) : res (list B) :=
  match l with
  | nil => Ok nil
  | cons a l' => bind (f a) (fun b => bind (map_res f l') (fun bs => Ok (cons b bs)))
  end.
