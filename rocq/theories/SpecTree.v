(** Specification for C141: typed journals in several files. *)
From Coq Require Import ZArith NArith List Bool String.
From Verif Require Import Base Str Date World SpecAmount SpecDate SpecEntry SpecLedger SpecTyped.
Import ListNotations.

(** Lines as in C133, and lines that include files by their full path; the
    accounts before and after; files include files to a certain depth. *)
Inductive typed_tree (w : world) : nat -> list str -> list str -> list str -> list typed_entry -> Prop :=
  | tree_end depth accounts : typed_tree w depth accounts [] accounts []
  | tree_account depth accounts line name rest accounts' es : ~ indented line -> words line = [lit "account"; name] ->
      typed_tree w depth (name :: accounts) rest accounts' es -> typed_tree w depth accounts (line :: rest) accounts' es
  | tree_entry depth accounts line d lines ps rest accounts' es : typed_header line d ->
      Forall2 (typed_posting accounts) lines ps -> complete ps ->
      typed_tree w depth accounts rest accounts' es -> typed_tree w depth accounts (line :: lines ++ rest) accounts' ((d, ps) :: es)
  | tree_include depth accounts line f text between rest accounts' es es' : ~ indented line -> words line = [lit "include"; f] ->
      (exists r, f = 47%N :: r) -> components f <> [] -> files w (located [] f) = Some text ->
      typed_tree w depth accounts (contents (lines text)) between es ->
      typed_tree w (S depth) between rest accounts' es' -> typed_tree w (S depth) accounts (line :: rest) accounts' (es ++ es').
