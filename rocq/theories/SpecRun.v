(** Specifications for whole runs. *)
From Coq Require Import ZArith NArith List Bool String.
From Verif Require Import Base Str F64 Date World Amount Posting Entry Register Ledger Importer Cli SpecLedger SpecImport SpecCli.
Import ListNotations.

(** The journal and the files when the subcommand starts: the envelopes have
    been filled, unless this was forbidden. *)
Inductive ready (x : context) (f : flags) (w : world) : ledger -> world -> Prop :=
  | ready_still p l w1 : chosen x f p -> from_file (x_fuel x) (x_today x) p w = Ok (l, w1) ->
      f_no_move f = true -> ready x f w l w1
  | ready_filled p l0 w1 l w2 : chosen x f p -> from_file (x_fuel x) (x_today x) p w = Ok (l0, w1) ->
      f_no_move f = false -> fill_envelopes (x_today x) l0 w1 = (w2, Ok l) -> ready x f w l w2.
(** The text of a report. *)
Definition report (x : context) (c : subcommand) (l : ledger) (t : str) : Prop :=
  match c with
  | Balance => show_balance l = Ok t
  | Envelopes => show_envelopes (x_today x) l = Ok t
  | CmdRegister => x_tty x = true /\ register_display true (l_entries l) (l_format l) None None None = Ok t
  | Summary | Import | New => False
  end.

(** ** Runs that end *)

(** The directory in which a file lies, for a path taken from [dir]. *)
Definition folder (dir : path) (p : str) : path :=
  resolve_aux (if is_absolute p then [] else dir) (removelast (components p)).
(** Includes lead downwards: there is a height for files such that every
    included file is lower than the file that includes it, from wherever the
    included path is taken. *)
Definition descending (w : world) (reached : path -> Prop) (height : path -> nat) : Prop :=
  forall q t f d, files w q = Some t -> includes t f -> reached d ->
    reached (folder d f) /\ height (located d f) < height q.
Definition descending_rules (w : world) (height : path -> nat) : Prop :=
  forall q t l f, files w q = Some t -> In l (rule_lines t) -> includes_file l f ->
    height (resolve w f) < height q.
