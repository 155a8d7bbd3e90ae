(** Specification: journals that differ in their layout only. *)
From Coq Require Import NArith List Bool String.
From Verif Require Import Base Str World SpecLedger SpecCrash.
Import ListNotations.

(** The words of the lines, without blank lines. *)
Definition sentences (chunk : str) : list (list str) :=
  filter (fun ws => match ws with [] => false | _ => true end) (map split_ws (lines chunk)).

(** Lines of the definition of an account: only white space before the line
    differs, or also the space between [for], [amount] or [funding] and what
    follows.  (A tab directly after these words is something else.) *)
Definition same_setting (a b : str) : Prop :=
  trim_start a = trim_start b
  \/ exists key v w, In key [lit "for"; lit "amount"; lit "funding"]
       /\ trim a = key ++ lit " " ++ v /\ trim b = key ++ lit " " ++ w /\ trim v = trim w.

(** Two chunks of a journal: the same words in the same lines of an entry; the
    same keyword and value; the same words in the first line of a definition and
    the same settings below. *)
Inductive relaid : str -> str -> Prop :=
  | relaid_same c : relaid c c
  | relaid_entry c d : sentences c = sentences d ->
      (forall k, hd_error (split_ws c) = Some k -> ~ In k [lit "account"; lit "currency"; lit "date_format"; lit "include"]) ->
      relaid c d
  | relaid_value c d k : In k [lit "currency"; lit "date_format"; lit "include"] ->
      hd_error (split_ws c) = Some k -> firstn 2 (split_ws c) = firstn 2 (split_ws d) -> relaid c d
  | relaid_account c d h k ls ms : lines c = h :: ls -> lines d = k :: ms ->
      hd_error (split_ws h) = Some (lit "account") -> split_ws h = split_ws k -> Forall2 same_setting ls ms -> relaid c d.
Definition relaid_text (t u : str) : Prop :=
  exists cs ds, cut_up t cs /\ cut_up u ds /\ Forall2 relaid cs ds.
(** The same directories and the same names of files. *)
Definition relaid_world (w v : world) : Prop :=
  (forall p, dirs w p = dirs v p) /\ cwd w = cwd v
  /\ forall p, match files w p, files v p with
               | Some t, Some u => relaid_text t u
               | None, None => True
               | _, _ => False
               end.

(** The files that an import of [c] with the rules [r] reads, from whatever
    directory: they are the same, and none is the journal [j]. *)
Definition same_sources (w v : world) (j c r : str) : Prop :=
  forall d q, rules_file w d r q \/ q = located d c -> files w q = files v q /\ forall d', q <> located d' j.
