(** src/errors.rs: what an error says.

    [why] is the text ([Display]) of an error of a library. *)
From Coq Require Import NArith List String.
From Verif Require Import Str Base.
Import ListNotations.

(** The fields of ParseError, ValidationError and ProcessingError
    (src/errors.rs 71-75, 106-110, 165-169). *)
Record report : Set := mkReport { context : option str; message : option str }.

(** [set_message] alone, and a report with both fields. *)
Definition says (m : str) : report := mkReport None (Some m).
Definition about (c m : str) : report := mkReport (Some c) (Some m).

(** A value between back quotes. *)
Definition quoted (s : str) : str := lit "`" ++ s ++ lit "`".

(** The reports made at the places listed in [Base.v]. *)
Definition parse_report (why : cause -> str) (e : parse_error) : report :=
  match e with
  | AmountTokens s => about s (lit "this amount isn't valid")
  | AmountMag s => about s (lit "couldn't parse magnitude of amount")
  | PostingBlank => says (lit "nothing to parse for a Posting")
  | NoAccountName l => about l (lit "probably missing an account name")
  | NoEnvelopeName l => about l (lit "probably missing an envelope name")
  | UnknownStatus s =>
      says (lit "silverfox requires statuses on entries and " ++ quoted s
            ++ lit " is not a status that silverfox understands")
  | EntryEmpty =>
      says (lit "entry to parse is completely empty. this is an error with silverfox's programming. please report it!")
  | EntryNoHeader c =>
      about c (lit "header couldn't be parsed because it doesn't exist. this is an error with silverfox's programming. please report it!")
  | HeaderBlank =>
      says (lit "couldn't parse an entry header because it's blank." ++ [10%N]
            ++ lit "this is an error with silverfox's programming; please report it!")
  | EntryDate t f h =>
      about h (lit "couldn't parse date " ++ quoted t ++ lit " with format " ++ quoted f)
  | NoClosingBracket h =>
      about h (lit "silverfox wanted to parse a payee in this header, but couldn't because it wasn't given a closing square bracket: ]")
  | UnknownType s =>
      about s (lit "this envelope type doesn't exist; instead use either `expense` or `goal`")
  | UnknownFunding s => about s (lit "this funding method doesn't exist")
  | OtherNoStarting s =>
      about s (lit "a `starting` clause is required for `every other` frequencies so silverfox knows which weeks or months to use")
  | UnknownFrequency s => about s (lit "invalid frequency")
  | YearNoStarting s =>
      about s (lit "envelopes due annually require a `starting` date so that silverfox knows which day of the year the envelope is due")
  | DueDate s f => says (lit "couldn't parse " ++ quoted s ++ lit " with format " ++ quoted f)
  | NoDueDate h =>
      about h (lit "couldn't figure out when this envelope is due; use `no date` if you don't want to specify a due date")
  | StartingDate s f =>
      about s (lit "couldn't parse starting date " ++ quoted s ++ lit " with format " ++ quoted f)
  | EnvelopeNoHeader c => about c (lit "envelope header can't be parsed because it doesn't exist")
  | EnvelopeBlank h => about h (lit "blank envelope header")
  | PropertyBlank k n a =>
      says (lit "the property " ++ quoted k ++ lit " to an envelope (" ++ quoted n ++ lit " in "
            ++ a ++ lit ") is blank")
  | UnknownProperty k =>
      says (lit "the " ++ quoted k ++ lit " property isn't understood by silverfox")
  | ForSpaces s =>
      about s (lit "remember that account names can't contain spaces; this `for` property couldn't be parsed correctly")
  | ForBlank s => about s (lit "a `for` property is blank")
  | AccountNoHeader c => about c (lit "account header can't be parsed because it doesn't exist")
  | AccountSpaces l => about l (lit "accounts can't have spaces in them; use underscores instead: _")
  | AccountBlank l => about l (lit "blank account definition")
  | NoCurrency => says (lit "no currency provided, but currency keyword was found")
  | NoDateFormat => says (lit "no date format provided, but date_format keyword was found")
  | NoIncludeFile => says (lit "no file provided to an `include` clause")
  | CsvRecord => says (lit "there was an error reading csv records: " ++ why CauseCsv)
  | RuleNoValue l =>
      about l (lit "this rule has no value. use `-` if you want to discard a value:"
               ++ [10%N; 10%N] ++ trim l ++ lit " -")
  | NestedSubrules => says (lit "nested subrules aren't allowed")
  | UnknownRule n l => about l (quoted n ++ lit " is not a rule that silverfox understands")
  | DecimalLong l => about l (lit "decimal_symbol should be a single character")
  | SkipNumber s =>
      says (lit "the `skip` rule couldn't be parsed because of this error: " ++ why (CauseInt s))
  | DuplicateField n =>
      says (lit "there is a duplicate field definition in your rules file: " ++ quoted n)
  | ImportDate s f =>
      says (lit "there was an error parsing " ++ quoted s ++ lit " with the format " ++ quoted f
            ++ lit ": " ++ why (CauseDate s f))
  end.

Definition validation_report (e : validation_error) : report :=
  match e with
  | UndefinedAccount n =>
      says (lit "the account " ++ quoted n ++ lit " is not defined in your journal")
  | TwoBlanks c => about c (lit "a single entry can't have more than one blank posting")
  | MixedBlank c =>
      about c (lit "silverfox can't infer the amount of a blank posting when other postings have mixed currencies")
  | DuplicateEnvelope n a =>
      says (lit "there's a duplicate envelope definition for " ++ quoted n
            ++ lit " in the account " ++ quoted a)
  | FieldsDiscarded => says (lit "`fields` cannot be discarded; a value is required")
  | OneBlankPosting =>
      says (lit "an entry with only one posting was generated, and that posting had a blank amount. make sure you've included an `amount` rule")
  | NoPostings r =>
      about r (lit "this record produced an entry without any postings. make sure you've included rules for `account` and `amount` so that postings can be generated")
  end.

Definition text_lines (ls : list string) : str := join [10%N] (map lit ls).

Definition processing_report (e : processing_error) : report :=
  match e with
  | NoNativeValue x =>
      about x (text_lines
        ["silverfox couldn't infer a value for an entry's blank posting amount. there are";
         "multiple currencies in this entry, but one posting does not provide its";
         "currency's worth in your native currency."]%string)
  | ForeignEnvelope n a x =>
      about x (lit "the envelope " ++ quoted n ++ lit " in " ++ quoted a ++ text_lines
        [" was set up with a currency that isn't your native";
         "currency. furthermore, this entry contains postings with accounts that relate to";
         "the envelope, but silverfox could not move money automatically because the";
         "postings use currencies that cannot be converted to the currency of the";
         "envelope. hopefully that all makes sense!"]%string)
  | NoEnvelopeValue x =>
      about x (text_lines
        ["silverfox wants to infer how much money to move to or from an envelope, but";
         "                can't; you'll need to specify a manual envelope posting here with the correct";
         "                amount"]%string)
  end.

Definition basic_text (e : basic_error) : str :=
  match e with
  | UnknownFlag a => lit "silverfox doesn't recognize this flag: " ++ quoted a
  | NoJournal => text_lines
      ["silverfox wasn't given a file to work with. there are a couple of ways you can do this:";
       "    - use the `-f` flag from the command line (example: `silverfox -f ./path/to/file.sfox`)";
       "    - set the environment variable $SILVERFOX_FILE or $LEDGER_FILE to a path to a file"]%string
  | NoCsvFile =>
      lit "if you're importing a csv file, you need to specify the csv file with the --csv flag"
  | NotSupported c =>
      lit "the " ++ quoted c
      ++ lit " subcommand is recognized by silverfox, but not supported yet. sorry :("
  | UnknownCommand s =>
      quoted s
      ++ lit " is not a recognized subcommand. subcommands need to be the first argument made to silverfox. did you misplace your subcommand?"
  | NoValue n => lit "no value was supplied for the argument " ++ quoted n
  | NoTerminal => lit "couldn't figure out the width of your terminal. are you in a terminal?"
  (* followed by the text of another error; never shown, src/ledger/mod.rs 340 *)
  | NoRegister => lit "couldn't display a register"
  end.

(** src/errors.rs 79-102, 140-163, 199-225: the fields between the texts of the
    four cases. *)
Definition display_report (both only : str) (without before after : str) (r : report) : str :=
  match context r, message r with
  | Some c, Some m => both ++ [10%N; 10%N] ++ c ++ [10%N; 10%N] ++ m
  | None, Some m => only ++ lit ": " ++ m
  | Some c, None => before ++ lit ":" ++ [10%N; 10%N] ++ c ++ [10%N; 10%N] ++ after
  | None, None => without
  end.
Definition display_parse : report -> str :=
  display_report (lit "silverfox couldn't understand the following:")
    (lit "silverfox ran across an issue in your journal")
    (lit "silverfox couldn't parse something, but no information was provided")
    (lit "silverfox couldn't understand this") (lit "but no explanation was provided").
Definition display_validation : report -> str :=
  display_report (lit "the following is invalid to silverfox:")
    (lit "silverfox flagged your journal file as invalid")
    (lit "silverfox found something invalid, but no information was provided")
    (lit "the following is invalid to silverfox") (lit "but no further information was provided").
Definition display_processing : report -> str :=
  display_report (lit "looks like your journal is all valid, but this couldn't be processed:")
    (lit "your journal is valid, but silverfox couldn't process this")
    (lit "your journal is valid, but silverfox couldn't process something. no information was provided. file an issue?")
    (lit "your journal is valid, but silverfox couldn't process this")
    (lit "no further information was provided").

(** src/errors.rs 45-61 *)
Definition display (why : cause -> str) (e : err) : str :=
  match e with
  | EBasic b => basic_text b
  | EValidation v => display_validation (validation_report v)
  | EParse p => display_parse (parse_report why p)
  | EProcessing p => display_processing (processing_report p)
  | EFile p =>
      lit "silverfox encountered an i/o error: " ++ why (CauseFile p) ++ [10%N] ++ lit "(file: "
      ++ p ++ lit ")"
  end.
