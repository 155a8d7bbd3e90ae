(** Specification: importing a csv file in parts (C124). *)
From Coq Require Import ZArith List Bool String.
From Verif Require Import Base Str World Importer Cli SpecLedger SpecCli SpecCsv SpecCrash.
Import ListNotations.
Local Open Scope list_scope.

(** The run [f] imports the file [c] with the rules in [r]. *)
Definition imports (f : flags) (c r : str) : Prop :=
  f_cmd f = Import /\ f_no_move f = true /\ f_csv f = Some c /\ f_rules f = Some r.
(** The journal [j] is neither the csv file nor one of the files of rules, for
    paths taken from the directory of [w]. *)
Definition apart (w : world) (j : path) (c r : str) : Prop :=
  located (cwd w) c <> j /\ forall q, rules_file w (cwd w) r q -> q <> j.
(** A csv file with titles and records, all of one length. *)
Definition table (t : str) (titles recs : list (list str)) : Prop :=
  csv_text t (titles ++ recs) /\ (forall t', t <> 65279%N :: t') /\ exists n, Forall (fun x => List.length x = n) (titles ++ recs).
