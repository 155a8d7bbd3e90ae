(** Specification: csv files with other columns (C125). *)
From Coq Require Import ZArith NArith List Bool String.
From Verif Require Import Base Str Importer Cli SpecImport SpecRules.
Import ListNotations.
Local Open Scope list_scope.

(** The same rules for other names of the columns. *)
Inductive relabelled (fs fs' : list str) : rules -> rules -> Prop :=
  relabel r r' : r_accounts r = r_accounts r' -> r_amounts r = r_amounts r' -> r_comment r = r_comment r' -> r_desc r = r_desc r' ->
    r_format r = r_format r' -> r_date r = r_date r' -> r_decimal r = r_decimal r' -> r_payee r = r_payee r' ->
    r_skip r = r_skip r' -> r_status r = r_status r' -> r_fields r = fs -> r_fields r' = fs' ->
    Forall2 (fun b b' => fst b = fst b' /\ relabelled fs fs' (snd b) (snd b')) (r_subrules r) (r_subrules r') -> relabelled fs fs' r r'.
(** The rules and those of the blocks. *)
Inductive within : rules -> rules -> Prop :=
  | within_self r : within r r
  | within_block r ps b x : In (ps, b) (r_subrules r) -> within b x -> within r x.
(** A text of the rules that refers only to the columns in [few], and in which
    nothing is taken for a reference by chance, also not to one of [all]. *)
Definition text_for (few all : list (str * str)) (s : str) : Prop :=
  exists ps, s = template ps /\ Forall (plain_piece few) ps /\ well_separated all ps.
(** The record [rec'], with columns called [fs'], has only columns of [rec], but
    all that the rules use, and the same blocks are for it. *)
Definition narrowed (lower : str -> str) (r : rules) (fs fs' : list str) (rec rec' : record) : Prop :=
  incl (combine fs' rec') (combine fs rec) /\ good_vars (combine fs rec) /\ NoDup (map fst (combine fs' rec'))
  /\ forall x, within r x ->
       Forall (text_for (combine fs' rec') (combine fs rec)) (rule_texts x)
       /\ forall ps b, In (ps, b) (r_subrules x) -> (matches lower rec ps <-> matches lower rec' ps).
(** A line that gives the columns their names. *)
Definition names_columns (line : str) (fs : list str) : Prop :=
  exists v v' ps, line = written_rule (lit "fields", v) /\ past_blanks v v' /\ ~ stripped v (lit "-")
  /\ between_commas v' ps /\ Forall2 stripped ps fs.
(** Rules that begin with such a line, the only one, and include no file. *)
Definition headed (t : str) (fs : list str) (ls : list str) : Prop :=
  exists line, rule_lines t = line :: ls /\ names_columns line fs
  /\ Forall (fun l => ~ includes_rules l /\ hd_error (split_ws l) <> Some (lit "fields")) ls.
(** The same arguments but for the files of the import. *)
Definition with_files (f : flags) (c r : str) : flags :=
  mkFlags (f_file f) (f_cmd f) (f_no_move f) (Some c) (Some r) (f_begin f) (f_end f).
