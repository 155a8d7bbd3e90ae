(** Specification for C135: the register of a typed journal. *)
From Coq Require Import ZArith NArith List Bool String Reals.
From Verif Require Import Base Str F64 Date SpecAmount SpecDate SpecEntry SpecEnvelope SpecLedger SpecReport SpecTotals SpecTyped.
Import ListNotations.
Local Open Scope Z_scope.

(** The accounts of the register: those whose names start with [asset]. *)
Definition asset (name : str) : bool := if str_dec (firstn 5 name) (lit "asset") then true else false.
(** What an entry moves on them in a currency, and the numbers behind it. *)
Definition on_assets (sym : option str) (ps : list typed) (p : typed) : bool :=
  if asset (t_account p) then if sym_dec (snd (moved ps p)) sym then true else false else false.
Definition of_assets {A} (f : list typed -> typed -> list A) (sym : option str) (e : typed_entry) : list A :=
  flat_map (f (snd e)) (filter (on_assets sym (snd e)) (snd e)).
Definition change (sym : option str) (e : typed_entry) : list Z := of_assets (fun ps p => [fst (moved ps p)]) sym e.
Definition modest_assets (es : list typed_entry) : Prop :=
  forall sym, let zs := flat_map (of_assets basis sym) es in
    Z.of_nat (List.length zs) * Z.max 1 (Zsum (map Z.abs zs)) <= 2 ^ 46.

(** A row: for every currency the change and the total after it, as texts. *)
Definition cell : Type := (option str * str * str)%type.
Definition true_cell (before : list typed_entry) (e : typed_entry) (c : cell) : Prop :=
  total_shown (snd (fst c)) (Zsum (change (fst (fst c)) e)) (fst (fst c))
  /\ total_shown (snd c) (Zsum (flat_map (change (fst (fst c))) (before ++ [e]))) (fst (fst c)).
(** The rows for entries in order.  Entries that change nothing can be left
    out, no others. *)
Inductive right_rows : list typed_entry -> list typed_entry -> list (date * list cell) -> Prop :=
  | rows_end before : right_rows before [] []
  | rows_without before e es rows : (forall sym, Zsum (change sym e) = 0) ->
      right_rows (before ++ [e]) es rows -> right_rows before (e :: es) rows
  | rows_with before e es cells rows : cells <> [] -> NoDup (map (fun c => fst (fst c)) cells) ->
      (forall sym, In sym (map (fun c => fst (fst c)) cells) <-> change sym e <> []) ->
      Forall (true_cell before e) cells ->
      right_rows (before ++ [e]) es rows -> right_rows before (e :: es) ((fst e, cells) :: rows).

(** The text of a row starts with the date and has a line for every currency,
    with change and total at its end. *)
Definition line_of (c : cell) (l : str) : Prop :=
  exists h n, l = h ++ snd (fst c) ++ lit "  " ++ repeat 32%N n ++ snd c ++ [10%N].
Definition row_of (r : date * list cell) (t : str) : Prop :=
  (exists rest, t = date_text usual_date (fst r) ++ lit " " ++ rest)
  /\ exists ls, t = List.concat ls /\ Forall2 line_of (snd r) ls.
