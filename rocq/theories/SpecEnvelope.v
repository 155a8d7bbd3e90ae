(** Specifications for envelopes and accounts. *)
From Coq Require Import ZArith NArith List Bool String.
From Verif Require Import Base Str F64 Date Amount Posting Entry Envelope Account
  SpecAmount SpecDate SpecEntry.
Import ListNotations.
Local Open Scope Z_scope.

(** ** Moving money *)

(** The fields given by the definition in the journal. *)
Definition same_definition (v w : envelope) : Prop :=
  v_name w = v_name v /\ v_amount w = v_amount v /\ v_type w = v_type v /\ v_auto w = v_auto v
  /\ v_freq w = v_freq v /\ v_funding w = v_funding v /\ v_starting w = v_starting v
  /\ v_account w = v_account v.

Definition negative (a : amount) : Prop := fltb (mag a) fzero = true.
Definition positive (a : amount) : Prop := fltb fzero (mag a) = true.

(** [y] is [x] after adding [a], in the same currency. *)
Definition added (x a y : amount) : Prop :=
  symbol a = symbol x /\ y = mkAmount (fadd (mag x) (mag a)) (symbol x).

(** [w] is [v] after moving [a] on day [d]. *)
Definition moved (today : date) (v : envelope) (a : amount) (d : date) (w : envelope) : Prop :=
  same_definition v w /\ v_last w = d
  /\ ((negative a /\ added (v_now v) a (v_now w) /\ v_next w = v_next v)
      \/ (positive a /\ (exists l, freq_last today (v_freq v) = Ok (Some l) /\ earlier d l)
          /\ added (v_now v) a (v_now w) /\ v_next w = v_next v)
      \/ (positive a
          /\ (freq_last today (v_freq v) = Ok None
              \/ exists l, freq_last today (v_freq v) = Ok (Some l) /\ not_later l d)
          /\ added (v_next v) a (v_next w) /\ v_now w = v_now v)
      \/ (~ negative a /\ ~ positive a /\ v_now w = v_now v /\ v_next w = v_next v)).

(** [w] is [v] after moving all of [l], in order. *)
Inductive moved_all (today : date) (d : date) : envelope -> list amount -> envelope -> Prop :=
  | moved_none v : moved_all today d v [] v
  | moved_more v a u l w : moved today v a d u -> moved_all today d u l w ->
      moved_all today d v (a :: l) w.

(** ** Manual postings *)
Definition manual (e : entry) : Prop := exists ep, In (EnvPosting ep) (e_postings e).
(** The amounts posted to the envelope by name. *)
Definition posted_to (v : envelope) (ps : list posting) : list amount :=
  flat_map (fun p => match p with
                     | EnvPosting ep =>
                         if str_dec (ep_account ep) (v_account v) then
                           if str_dec (ep_envelope ep) (v_name v) then [ep_amount ep] else []
                         else []
                     | Classic _ => []
                     end) ps.

(** ** Automatic movement *)
Definition own (v : envelope) (p : posting) : Prop := get_account p = v_account v.
Definition linked (v : envelope) (p : posting) : Prop :=
  get_account p <> v_account v /\ In (get_account p) (v_auto v).
(** The amount of a posting, inferred if it is blank. *)
Definition worth (e : entry) (p : posting) (a : amount) : Prop :=
  get_amount p = Some a \/ (get_amount p = None /\ get_blank_amount e = Ok (Some a)).

(** [x] is the in-order f64 sum of the worth of the postings in [ps] that
    satisfy [P], all of them of currency [sym]. *)
Inductive sums (e : entry) (sym : option str) (P : posting -> Prop) : list posting -> f64 -> f64 -> Prop :=
  | sums_nil x : sums e sym P [] x x
  | sums_in p ps a x y : P p -> worth e p a -> symbol a = sym ->
      sums e sym P ps (fadd x (mag a)) y -> sums e sym P (p :: ps) x y
  | sums_out p ps x y : ~ P p -> sums e sym P ps x y -> sums e sym P (p :: ps) x y.

(** ** Filling *)
(** No money is owed by the envelope. *)
Definition not_owing (v : envelope) : Prop := fltb (total_mag v) fzero = false.
(** [x] is not more than [y], or not more than zero. *)
Definition at_most (x y : f64) : Prop := fltb fzero x = true -> fltb y x = false.

(** ** Definitions in the journal *)
Definition starts_envelope (line : str) : Prop :=
  exists r, trim line = lit "expense" ++ r \/ trim line = lit "goal" ++ r.
(** The sections of the body of an account definition: a leading one, and one
    from each line that starts with [expense] or [goal]. *)
Inductive sections : str -> list str -> list str -> Prop :=
  | sections_nil cur : sections cur [] [cur]
  | sections_new cur l ls ss : starts_envelope l -> sections l ls ss ->
      sections cur (l :: ls) (cur :: ss)
  | sections_more cur l ls ss : ~ starts_envelope l -> sections (cur ++ 10%N :: l) ls ss ->
      sections cur (l :: ls) ss.
Definition is_expense (v : envelope) : bool := match v_type v with Expense => true | Goal => false end.
Definition is_goal (v : envelope) : bool := match v_type v with Expense => false | Goal => true end.

(** Accounts that come from a definition and a history of entries. *)
Inductive grown (today : date) : account -> Prop :=
  | grown_parsed chunk dsym fmt a : parse_account chunk dsym fmt = Ok a -> grown today a
  | grown_entry a e b : grown today a -> acc_process today a e = Ok b -> grown today b.

(** What is taken out of the real value for the envelopes. *)
Definition set_aside (vs : list envelope) : list pool_op :=
  flat_map (fun v => [PSub (v_next v); PSub (v_now v)]) vs.

(** The due date of an envelope, for ordering: no date is later than all. *)
Definition due_le (a b : option date) : Prop :=
  match a, b with
  | _, None => True
  | None, Some _ => False
  | Some x, Some y => not_later x y
  end.
