(** Specification: the same definitions in another order. *)
From Coq Require Import NArith List Bool String Permutation.
From Verif Require Import Base Str World Posting Entry Envelope Account Ledger SpecEnvelope SpecLedger.
Import ListNotations.

(** ** Texts *)
Definition first_word (line word : str) : Prop := hd_error (split_ws line) = Some word.
(** Two lines that may change places: neither starts an envelope, and they do not
    set the same thing. *)
Definition independent (x y : str) : Prop :=
  ~ starts_envelope x /\ ~ starts_envelope y
  /\ exists j k, first_word x j /\ first_word y k /\ (j <> k \/ j = lit "for").
(** The chunk defines the account [name]. *)
Definition defines (chunk name : str) : Prop :=
  exists h ls, lines chunk = h :: ls /\ split_ws h = [lit "account"; name].
(** The chunks of a journal: definitions of accounts change places, and lines in them. *)
Inductive rearranged : list str -> list str -> Prop :=
  | rearranged_refl cs : rearranged cs cs
  | rearranged_next c cs ds : rearranged cs ds -> rearranged (c :: cs) (c :: ds)
  | rearranged_accounts c d m n cs : defines c m -> defines d n -> m <> n -> rearranged (c :: d :: cs) (d :: c :: cs)
  | rearranged_settings c d h ls x y ms cs : first_word h (lit "account") -> independent x y ->
      lines c = h :: ls ++ x :: y :: ms -> lines d = h :: ls ++ y :: x :: ms -> rearranged (c :: cs) (d :: cs)
  | rearranged_trans cs ds es : rearranged cs ds -> rearranged ds es -> rearranged cs es.
Definition rearranged_text (t u : str) : Prop :=
  exists cs ds, cut_up t cs /\ cut_up u ds /\ rearranged cs ds.
Definition rearranged_world (w v : world) : Prop :=
  (forall p, dirs w p = dirs v p) /\ cwd w = cwd v
  /\ forall p, match files w p, files v p with
               | Some t, Some u => rearranged_text t u
               | None, None => True
               | _, _ => False
               end.

(** ** Accounts *)

(** Envelopes for the same accounts, in whatever order these were given. *)
Definition same_envelope (v u : envelope) : Prop :=
  v_name v = v_name u /\ v_amount v = v_amount u /\ v_type v = v_type u /\ v_freq v = v_freq u
  /\ v_funding v = v_funding u /\ v_starting v = v_starting u /\ v_next v = v_next u /\ v_now v = v_now u
  /\ v_account v = v_account u /\ v_last v = v_last u
  /\ forall a, In a (v_auto v) <-> In a (v_auto u).
Definition same_account (a b : account) : Prop :=
  a_name a = a_name b /\ a_real a = a_real b
  /\ Forall2 same_envelope (a_expenses a) (a_expenses b) /\ Forall2 same_envelope (a_goals a) (a_goals b).
Definition same_accounts (m n : list (str * account)) : Prop :=
  exists o, Forall2 (fun x y => fst x = fst y /\ same_account (snd x) (snd y)) m o /\ Permutation o n.
Definition same_ledger (l m : ledger) : Prop :=
  l_path l = l_path m /\ l_entries l = l_entries m /\ l_format l = l_format m /\ l_currency l = l_currency m
  /\ same_accounts (l_accounts l) (l_accounts m).

(** ** Runs *)

(** Every file got the same lines in both worlds, in whatever order, or none. *)
Definition same_lines (w w' v v' : world) : Prop :=
  forall p, exists x y, files w' p = option_map (fun t => t ++ x) (files w p)
                     /\ files v' p = option_map (fun t => t ++ y) (files v p)
                     /\ Permutation (lines x) (lines y).
