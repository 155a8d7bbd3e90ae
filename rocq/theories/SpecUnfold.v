(** Specification: the definitions and entries of a journal and of the files it
    includes, in the order in which they are read. *)
From Coq Require Import NArith List Bool String.
From Verif Require Import Base Str World SpecLedger.
Import ListNotations.
Local Open Scope list_scope.

(** The file [p], found from the directory [d], has the items [xs]. Each file is
    looked for in the directory of the file that was opened last; [d'] is the
    directory of the last one. *)
Inductive unfolds (w : world) : path -> str -> path -> list str -> Prop :=
  | unfolds_file d p text cs d' xs : file_path p -> files w (located d p) = Some text -> cut_up text cs ->
      follows w (removelast (located d p)) cs d' xs -> unfolds w d p d' xs
with follows (w : world) : path -> list str -> path -> list str -> Prop :=
  | follows_nil d : follows w d [] d []
  | follows_blank d c cs d' xs : split_ws c = [] -> follows w d cs d' xs -> follows w d (c :: cs) d' xs
  | follows_item d c cs d' xs : split_ws c <> [] -> ~ keyword c "include" -> follows w d cs d' xs ->
      follows w d (c :: cs) d' (c :: xs)
  | follows_include d c f cs d1 d' xs ys : keyword c "include" -> value c = Some f ->
      unfolds w d f d1 xs -> follows w d1 cs d' ys -> follows w d (c :: cs) d' (xs ++ ys).

(** The same, if each file is looked for in the directory of the file that
    includes it. *)
Inductive meant (w : world) : path -> str -> list str -> Prop :=
  | meant_file d p text cs xs : files w (located d p) = Some text -> cut_up text cs ->
      meant_items w (removelast (located d p)) cs xs -> meant w d p xs
with meant_items (w : world) : path -> list str -> list str -> Prop :=
  | meant_nil d : meant_items w d [] []
  | meant_blank d c cs xs : split_ws c = [] -> meant_items w d cs xs -> meant_items w d (c :: cs) xs
  | meant_item d c cs xs : split_ws c <> [] -> ~ keyword c "include" -> meant_items w d cs xs -> meant_items w d (c :: cs) (c :: xs)
  | meant_include d c f cs xs ys : keyword c "include" -> value c = Some f ->
      meant w d f xs -> meant_items w d cs ys -> meant_items w d (c :: cs) (xs ++ ys).

(** Files are opened one inside another, [n] deep, beginning with [p]; the items
    [xs] stand before the innermost include. *)
Inductive descends (w : world) : nat -> path -> str -> list str -> Prop :=
  | descends_end d p : descends w O d p []
  | descends_in n d p text cs1 c cs2 d1 g xs ys : files w (located d p) = Some text -> cut_up text (cs1 ++ c :: cs2) ->
      follows w (removelast (located d p)) cs1 d1 xs -> keyword c "include" -> value c = Some g ->
      descends w n d1 g ys -> descends w (S n) d p (xs ++ ys).
