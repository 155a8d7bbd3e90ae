(** Specification of csv files. *)
From Coq Require Import NArith List.
From Verif Require Import Base Str.
Import ListNotations.

Definition line_end (c : char) : Prop := c = 13%N \/ c = 10%N.
(** A quoted text: every quote inside it is doubled. *)
Fixpoint doubled (v : str) : str :=
  match v with [] => [] | c :: v' => if N.eqb c 34 then 34%N :: 34%N :: doubled v' else c :: doubled v' end.
(** How a field may be written. *)
Inductive field_text : str -> str -> Prop :=
  | field_bare v : (forall c, In c v -> c <> 44%N /\ ~ line_end c) -> (forall t, v <> 34%N :: t) -> field_text v v
  | field_quoted v : field_text (34%N :: doubled v ++ [34%N]) v.
(** How a record may be written: its fields with commas in between. *)
Inductive record_text : str -> list str -> Prop :=
  | record_last t v : field_text t v -> record_text t [v]
  | record_more t v l r : field_text t v -> record_text l r -> record_text (t ++ 44%N :: l) (v :: r).
(** A file: lines with records and empty lines, each with its end, except
    that the last line may go without. *)
Inductive csv_text : str -> list (list str) -> Prop :=
  | csv_nil : csv_text [] []
  | csv_blank c t rs : line_end c -> csv_text t rs -> csv_text (c :: t) rs
  | csv_last l r : record_text l r -> l <> [] -> csv_text l [r]
  | csv_line l r c t rs : record_text l r -> l <> [] -> line_end c -> csv_text t rs -> csv_text (l ++ c :: t) (r :: rs).
