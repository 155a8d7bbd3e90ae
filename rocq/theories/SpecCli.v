(** Specifications for the command line. *)
From Coq Require Import ZArith NArith List Bool String.
From Verif Require Import Base Str F64 Date World Amount Posting Entry Ledger Importer Cli
  SpecAmount SpecDate SpecEntry SpecEnvelope SpecLedger.
Import ListNotations.

(** ** Arguments *)
Definition commands : list (string * subcommand) :=
  [("s", Summary); ("b", Balance); ("e", Envelopes); ("r", CmdRegister); ("i", Import); ("n", New)]%string.
Definition named_command (a : str) (c : subcommand) : Prop :=
  exists k rest, In (k, c) commands /\ a = lit k ++ rest.

Inductive flag : Set := NoMove | JournalIs (v : str) | CsvIs (v : str) | RulesIs (v : str).
(** How flags are written. *)
Inductive written_flag : flag -> list str -> Prop :=
  | w_no_move n : In n ["--no-move"; "-n"]%string -> written_flag NoMove [lit n]
  | w_journal n v : In n ["-f"; "--file"]%string -> written_flag (JournalIs v) [lit n; v]
  | w_csv n v : In n ["--csv-file"; "--csv"]%string -> written_flag (CsvIs v) [lit n; v]
  | w_rules n v : In n ["--rules-file"; "--rules"]%string -> written_flag (RulesIs v) [lit n; v].
Inductive written_flags : list flag -> list str -> Prop :=
  | wf_nil : written_flags [] []
  | wf_cons g gs a args : written_flag g a -> written_flags gs args -> written_flags (g :: gs) (a ++ args).

(** The last value given by a list of flags. *)
Definition last_value (f : flag -> option str) (gs : list flag) : option str :=
  fold_left (fun acc g => match f g with Some v => Some v | None => acc end) gs None.
Definition journal_value (g : flag) : option str := match g with JournalIs v => Some v | _ => None end.
Definition csv_value (g : flag) : option str := match g with CsvIs v => Some v | _ => None end.
Definition rules_value (g : flag) : option str := match g with RulesIs v => Some v | _ => None end.

(** ** The journal *)
Inductive chosen (x : context) (f : flags) : str -> Prop :=
  | by_flag p : f_file f = Some p -> chosen x f p
  | by_silverfox p : f_file f = None -> x_env x "SILVERFOX_FILE" = Some p -> chosen x f p
  | by_ledger p : f_file f = None -> x_env x "SILVERFOX_FILE" = None -> x_env x "LEDGER_FILE" = Some p -> chosen x f p.
Definition with_file (f : flags) (p : str) : flags :=
  mkFlags (Some p) (f_cmd f) (f_no_move f) (f_csv f) (f_rules f) (f_begin f) (f_end f).

(** ** Files *)
(** At most one file differs, and it is only longer. *)
Definition only_longer (w w' : world) (q : path) : Prop :=
  (forall p, p <> q -> files w' p = files w p) /\ (forall p, dirs w' p = dirs w p)
  /\ (files w' q = files w q \/ exists old t, files w q = Some old /\ files w' q = Some (old ++ t)).
