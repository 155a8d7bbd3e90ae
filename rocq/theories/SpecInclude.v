(** Specification: a journal with the text of a file in place of the line that
    includes it. *)
From Coq Require Import NArith List Bool String.
From Verif Require Import Base Str World Ledger SpecLedger.
Import ListNotations.
Local Open Scope list_scope.

(** The first line that counts is not indented. *)
Definition flush (t : str) : Prop :=
  match contents (lines t) with l :: _ => ~ indented l | [] => True end.
(** A line that includes the file [f]. *)
Definition include_line (line f : str) : Prop :=
  ~ In 10%N line /\ ~ indented (content line) /\ keyword (content line) "include" /\ value (content line) = Some f.
(** Two texts, joined by a line break. *)
Definition above (t1 t2 : str) : str := t1 ++ 10%N :: t2.
(** In [w], the file [p] includes [f]; in [w'], it has the text of [f] in the
    place of that line. *)
Definition inserted (p : path) (f : str) (w w' : world) : Prop :=
  exists t1 line T t2, include_line line f /\ flush T /\ flush t2
  /\ files w p = Some (above t1 (above line t2))
  /\ files w (located (removelast p) f) = Some T
  /\ files w' p = Some (above t1 (above T t2))
  /\ (forall q, q <> p -> files w' q = files w q) /\ (forall q, dirs w' q = dirs w q) /\ cwd w' = cwd w.
(** All included files are in the directory of the file that includes them. *)
Definition one_directory (w : world) : Prop := forall q t g, files w q = Some t -> includes t g ->
  file_path g /\ removelast (located (removelast q) g) = removelast q.
(** No file includes the file [p]. *)
Definition not_included (w : world) (p : path) : Prop := forall q t g, files w q = Some t -> includes t g ->
  located (removelast q) g <> p.
Definition ledger_of (r : res lw) : res ledger :=
  match r with Ok (l, _) => Ok l | Err e => Err e | Panic => Panic | Loop => Loop end.
