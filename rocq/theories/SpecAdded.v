(** Specification for C138: one more entry. *)
From Coq Require Import ZArith NArith List Bool String.
From Verif Require Import Base Str Date SpecAmount SpecLedger SpecEntry SpecEnvelope SpecReport SpecTotals SpecTyped SpecZero.
Import ListNotations.
Local Open Scope Z_scope.

(** What a report shows for an account in a currency; nothing is zero. *)
Definition amount_in (rows : list row) (name : str) (sym : option str) : Z :=
  Zsum (shown_in sym (filter (fun r => if str_dec (fst r) name then true else false) rows)).
(** [rows] is the report [t]: every text shows its amount, and each account has
    one row. *)
Definition report (t : str) (rows : list row) : Prop :=
  t = flat_map row_text (map texts rows) /\ in_order (map fst rows)
  /\ forall name ts sym u z, In (name, ts) rows -> In (sym, u, z) ts -> total_shown u z sym.
(** What the entry moves. *)
Definition effect (e : typed_entry) (name : str) (sym : option str) : Z :=
  Zsum (flat_map (fun p => [fst (moved (snd e) p)]) (filter (meant name sym (snd e)) (snd e))).

(** The same postings with the opposite amounts, on any day. *)
Definition opposite (p q : typed) : Prop :=
  t_account q = t_account p
  /\ match t_amount p, t_amount q with
     | Some (z, s), Some (z', s') => z' = - z /\ s' = s
     | None, None => True
     | _, _ => False
     end.
Definition reverses (e e' : typed_entry) : Prop := Forall2 opposite (snd e) (snd e').
(** The entry uses accounts and currencies that are in use. *)
Definition nothing_new (es : list typed_entry) (e : typed_entry) : Prop :=
  forall p, In p (snd e) -> moves es (t_account p) (snd (moved (snd e) p)) <> [].
