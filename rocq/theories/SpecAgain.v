(** Specification: the disk after a run, seen from where the run started. *)
From Verif Require Import World.
Definition later (w after : world) : world := mkWorld (files after) (dirs after) (cwd w).
