(** Specification for C139: other names in a typed journal. *)
From Coq Require Import ZArith NArith List Bool String.
From Verif Require Import Base Str Date SpecAmount SpecTyped.
Import ListNotations.
Local Open Scope Z_scope.

(** Different names stay different. *)
Definition one_to_one {A} (f : A -> A) : Prop := forall a b, f a = f b -> a = b.
(** Accounts and currencies get other names. *)
Definition renamed_posting (f : str -> str) (g : option str -> option str) (p : typed) : typed :=
  mkTyped (f (t_account p)) (match t_amount p with Some (z, sym) => Some (z, g sym) | None => None end).
Definition renamed_entry (f : str -> str) (g : option str -> option str) (e : typed_entry) : typed_entry :=
  (fst e, map (renamed_posting f g) (snd e)).
