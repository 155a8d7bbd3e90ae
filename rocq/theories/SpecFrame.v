(** Specification: a journal with one entry more (C123). *)
From Coq Require Import List Bool String Permutation.
From Verif Require Import Base Str Date Posting Entry Account World Ledger SpecLedger SpecCrash SpecUnfold.
Import ListNotations.
Local Open Scope list_scope.

Definition concerns (e : entry) (name : str) : Prop :=
  exists p, In p (e_postings e) /\ get_account p = name.

(** The journal [p] of [w'] is that of [w] with one item [c] more, an entry. *)
Definition one_more (w w' : world) (p c : str) : Prop :=
  exists d d' xs ys, unfolds w (cwd w) p d (xs ++ ys) /\ unfolds w' (cwd w') p d' (xs ++ c :: ys) /\ split_ws c <> [] /\ ~ directive c.

(** The same ledger but for the entry [e] and the accounts it concerns. *)
Definition but_for (e : entry) (l l' : ledger) : Prop :=
  l_path l' = l_path l /\ l_format l' = l_format l /\ l_currency l' = l_currency l
  /\ Permutation (l_entries l') (e :: l_entries l)
  /\ (forall q, q e = false -> filter q (l_entries l') = filter q (l_entries l))
  /\ Forall2 (fun x y => fst x = fst y /\ (~ concerns e (fst x) -> snd x = snd y)) (l_accounts l) (l_accounts l').
