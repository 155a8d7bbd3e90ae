(** Specification: journals that differ in the words of their entries only. *)
From Coq Require Import ZArith NArith List Bool String.
From Verif Require Import Base Str F64 Date World Amount Posting Entry Envelope Ledger SpecText SpecEntry SpecLedger.
Import ListNotations.

(** A line that starts an entry: a date (as it is written), a status, a
    description and possibly a payee; a comment may follow. *)
Definition headline (line date : str) (st : status) (desc : str) (payee : option str) : Prop :=
  ~ indented (content line)
  /\ (exists sign words, split_ws (content line) = date :: sign :: words
        /\ sign_of st sign /\ payee_split (join (lit " ") words) desc payee)
  /\ ~ In date [lit "account"; lit "currency"; lit "date_format"; lit "include"].

(** The same line, or another status, description, payee or comment. *)
Definition reworded_line (a b : str) : Prop :=
  a = b \/ exists date st st' desc desc' p p', headline a date st desc p /\ headline b date st' desc' p'.
(** The same line, or another payee or comment. *)
Definition repaid_line (a b : str) : Prop :=
  a = b \/ exists date st desc p p', headline a date st desc p /\ headline b date st desc p'.

(** The same directories and the same names of files; the lines of the files are
    related by [L]. *)
Definition texts (L : str -> str -> Prop) (t u : str) : Prop := Forall2 L (lines t) (lines u).
Definition worlds (L : str -> str -> Prop) (w v : world) : Prop :=
  (forall p, dirs w p = dirs v p) /\ cwd w = cwd v
  /\ forall p, match files w p, files v p with
               | Some t, Some u => texts L t u
               | None, None => True
               | _, _ => False
               end.

(** Entries with the same date and postings; ledgers made of such entries. *)
Definition reworded_entry (e f : entry) : Prop := e_date e = e_date f /\ e_postings e = e_postings f.
Definition repaid_entry (e f : entry) : Prop :=
  reworded_entry e f /\ e_status e = e_status f /\ e_desc e = e_desc f.
Definition ledgers (E : entry -> entry -> Prop) (l m : ledger) : Prop :=
  l_path l = l_path m /\ l_format l = l_format m /\ l_accounts l = l_accounts m /\ l_currency l = l_currency m
  /\ Forall2 E (l_entries l) (l_entries m).

(** Two outcomes of the same kind. *)
Definition together {A B} (R : A -> B -> Prop) (r : res A) (s : res B) : Prop :=
  match r, s with
  | Ok a, Ok b => R a b
  | Err _, Err _ => True
  | Panic, Panic => True
  | Loop, Loop => True
  | _, _ => False
  end.

(** Every file got the same text appended in both worlds, or none. *)
Definition same_additions (w w' v v' : world) : Prop :=
  forall p, exists x, files w' p = option_map (fun t => t ++ x) (files w p)
                   /\ files v' p = option_map (fun t => t ++ x) (files v p).
