(** src/flags.rs and src/main.rs *)
From Coq Require Import ZArith NArith List Bool String.
From Verif Require Import Base Str F64 Date World Amount Posting Entry Envelope Account
  Register Ledger Importer.
From Verif Require Errors.
Import ListNotations.

(** src/flags.rs 118-125 *)
Inductive subcommand : Set := Summary | Balance | Envelopes | CmdRegister | Import | New.

(** src/flags.rs 127-144 *)
Definition command_name (c : subcommand) : str :=
  match c with
  | Summary => lit "summary"
  | Balance => lit "balance"
  | Envelopes => lit "envelopes"
  | CmdRegister => lit "register"
  | Import => lit "import"
  | New => lit "new"
  end.

(** src/flags.rs 7-18.  [begin_date] and [end_date] are never set by the code;
    they are kept because [execute] passes them on. *)
Record flags : Set := mkFlags {
  f_file : option str;
  f_cmd : subcommand;
  f_no_move : bool;
  f_csv : option str;
  f_rules : option str;
  f_begin : option date;
  f_end : option date }.

(** src/flags.rs 146-168 *)
Definition parse_subcommand (s : str) : res subcommand :=
  match s with
  | c :: _ =>
      if N.eqb c (chr "s") then Ok Summary
      else if N.eqb c (chr "b") then Ok Balance
      else if N.eqb c (chr "e") then Ok Envelopes
      else if N.eqb c (chr "r") then Ok CmdRegister
      else if N.eqb c (chr "i") then Ok Import
      else if N.eqb c (chr "n") then Ok New
      else Err (EBasic (UnknownCommand s))
  | [] => Err (EBasic (UnknownCommand s))
  end.

(** src/flags.rs 43-70 *)
Fixpoint parse_flags (args : list str) (f : flags) : res flags :=
  match args with
  | [] => Ok f
  | a :: rest =>
      if is_name a ["--no-move"; "-n"]%string then
        parse_flags rest (mkFlags (f_file f) (f_cmd f) true (f_csv f) (f_rules f) (f_begin f) (f_end f))
      else
        match rest with
        | [] => Err (EBasic (NoValue a))
        | v :: rest' =>
            if is_name a ["-f"; "--file"]%string then
              parse_flags rest'
                (mkFlags (Some v) (f_cmd f) (f_no_move f) (f_csv f) (f_rules f) (f_begin f) (f_end f))
            else if is_name a ["--csv-file"; "--csv"]%string then
              parse_flags rest'
                (mkFlags (f_file f) (f_cmd f) (f_no_move f) (Some v) (f_rules f) (f_begin f) (f_end f))
            else if is_name a ["--rules-file"; "--rules"]%string then
              parse_flags rest'
                (mkFlags (f_file f) (f_cmd f) (f_no_move f) (f_csv f) (Some v) (f_begin f) (f_end f))
            else Err (EBasic (UnknownFlag a))
        end
  end.

(** src/flags.rs 21-73.  [args] are the arguments after the program name;
    [None] means that the help text is shown and the program exits. *)
Definition parse_args (args : list str) : option (res flags) :=
  match args with
  | [] => None
  | a :: rest =>
      Some (let! c := parse_subcommand a in
            parse_flags rest (mkFlags None c false None None None None))
  end.

(** Everything the program reads from its environment besides files. *)
Record context : Type := mkContext {
  x_today : date;
  x_tty : bool;
  x_env : string -> option str;
  x_lower : str -> str;
  x_ord : list (str * str) -> list (str * str);
  x_csv : str -> list (option record);
  x_fuel : nat }.

(** src/flags.rs 76-84, 193-201 *)
Definition journal_path (x : context) (f : flags) : option str :=
  match f_file f with
  | Some p => Some p
  | None => match x_env x "SILVERFOX_FILE" with
            | Some p => Some p
            | None => x_env x "LEDGER_FILE"
            end
  end.

(** What a run leaves behind: files, printed text, outcome. *)
Record outcome : Type := mkOutcome { o_world : world; o_out : str; o_res : res unit }.

Definition printed (w : world) (r : res str) : outcome :=
  match r with
  | Ok s => mkOutcome w s (Ok tt)
  | Err e => mkOutcome w [] (Err e)
  | Panic => mkOutcome w [] Panic
  | Loop => mkOutcome w [] Loop
  end.
Definition done {A} (p : world * res A) : outcome :=
  mkOutcome (fst p) [] (let! _ := snd p in Ok tt).

(** src/flags.rs 92-114 *)
Definition run_command (x : context) (f : flags) (l : ledger) (w : world) : outcome :=
  match f_cmd f with
  | Balance => printed w (show_balance l)
  | Envelopes => printed w (show_envelopes (x_today x) l)
  | CmdRegister => printed w (show_register (x_tty x) l (f_begin f) (f_end f) None)
  | Import =>
      match f_csv f with
      | Some c => done (import_csv (x_fuel x) (x_today x) (x_lower x) (x_ord x) (x_csv x)
                          l w c (f_rules f))
      | None => mkOutcome w [] (Err (EBasic NoCsvFile))
      end
  | _ => mkOutcome w [] (Err (EBasic (NotSupported (command_name (f_cmd f)))))
  end.

(** src/flags.rs 75-115 *)
Definition execute (x : context) (f : flags) (w : world) : outcome :=
  match journal_path x f with
  | None => mkOutcome w [] (Err (EBasic NoJournal))
  | Some p =>
      match from_file (x_fuel x) (x_today x) p w with
      | Ok (l, w1) =>
          if f_no_move f then run_command x f l w1
          else match fill_envelopes (x_today x) l w1 with
               | (w2, Ok l2) => run_command x f l2 w2
               | (w2, r) => done (w2, r)
               end
      | r => done (w, r)
      end
  end.

(** src/flags.rs 170-181 *)
Definition help_text : str :=
  List.concat (map (fun s => lit s ++ [10%N])
    ["hello! i'm silverfox!";
     "you can use one of the subcommands to get information about your journal:";
     "    (b)alance      display all accounts and their respective values";
     "    (e)nvelopes    view your envelopes and how much is saved up in each";
     "    (r)egister     list all transactions";
     "    (n)ew          add a new transaction to your journal";
     "    (i)mport       parse entries from a csv file and add them to your journal"]%string).

(** src/main.rs 12-21.  An error is only printed (to stderr). *)
Definition main (x : context) (args : list str) (w : world) : outcome :=
  match parse_args args with
  | None => mkOutcome w help_text (Ok tt)
  | Some (Ok f) => execute x f w
  | Some (Err e) => mkOutcome w [] (Err e)
  | Some Panic => mkOutcome w [] Panic
  | Some Loop => mkOutcome w [] Loop
  end.

(** The exit status of the process: [main] returns normally after an error
    (src/main.rs 12-21), and Rust ends a panicking process with 101.  [None] is
    a process that does not end. *)
Definition exit_status (o : outcome) : option Z :=
  match o_res o with
  | Ok _ | Err _ => Some 0%Z
  | Panic => Some 101%Z
  | Loop => None
  end.

(** What the program writes to the standard error (src/main.rs 12-21); the
    message of a panic comes from the runtime.  [why] gives the texts of the
    errors of libraries. *)
Definition complaint (why : cause -> str) (o : outcome) : str :=
  match o_res o with Err e => Errors.display why e ++ [10%N] | _ => [] end.
