(** What the definition of an envelope says. *)
From Coq Require Import ZArith NArith List Bool String.
From Verif Require Import Base Str F64 Date Amount Envelope.
Import ListNotations.
Local Open Scope Z_scope.

(** ** Texts inside a text *)
Definition inside (p s : str) : Prop := exists a b, s = a ++ p ++ b.
(** The first [p] in [s] stands between [a] and [b]. *)
Definition first_inside (p s a b : str) : Prop :=
  s = a ++ p ++ b /\ forall a' b', s = a' ++ p ++ b' -> (List.length a <= List.length a')%nat.
(** [b] follows the last [p] in [s]. *)
Definition after_all (p s b : str) : Prop :=
  exists a, s = a ++ p ++ b
    /\ forall a' b', s = a' ++ p ++ b' -> (List.length a' <= List.length a)%nat.

(** ** How often *)

(** Capital letters count as small ones. *)
Definition same_letter (c d : char) : Prop := c = d \/ ((65 <= c <= 90)%N /\ d = (c + 32)%N).
Definition day_names (w : weekday) : list str :=
  match w with
  | Mon => [lit "mon"; lit "monday"]
  | Tue => [lit "tue"; lit "tuesday"]
  | Wed => [lit "wed"; lit "wednesday"]
  | Thu => [lit "thu"; lit "thursday"]
  | Fri => [lit "fri"; lit "friday"]
  | Sat => [lit "sat"; lit "saturday"]
  | Sun => [lit "sun"; lit "sunday"]
  end.
Definition names_day (s : str) (w : weekday) : Prop :=
  exists n, In n (day_names w) /\ Forall2 same_letter s n.
(** The digits of [s], whatever stands between them, write the number [n]. *)
Definition number (ds : str) : Z := fold_left (fun n c => 10 * n + (Z.of_N c - 48)) ds 0.
Definition names_number (s : str) (n : Z) : Prop :=
  filter is_digit s <> [] /\ number (filter is_digit s) = n /\ n < 2 ^ 32.

Inductive recurs (fmt : str) (starting : option date) : str -> frequency -> Prop :=
  | recurs_week s w : names_day s w -> recurs fmt starting (lit "every " ++ s) (Weekly w)
  | recurs_month s n : names_number s n -> (forall r, s <> lit "other " ++ r) ->
      recurs fmt starting (lit "every " ++ s) (Monthly n)
  | recurs_year d : starting = Some d -> recurs fmt starting (lit "every year") (Annually d)
  | recurs_other_week s w d : names_day s w -> starting = Some d ->
      recurs fmt starting (lit "every other " ++ s) (Biweekly d)
  | recurs_other_month s n d : names_number s n -> starting = Some d ->
      recurs fmt starting (lit "every other " ++ s) (Bimonthly d)
  | recurs_once s d : (forall r, s <> lit "every " ++ r) -> parse_date s fmt = Some d ->
      recurs fmt starting s (Once d).

(** When the envelope is due, from the text before [starting]. *)
Definition due_in (fmt : str) (starting : option date) (text : str) (f : frequency) : Prop :=
  (inside (lit "no date") text /\ f = Never)
  \/ (~ inside (lit "no date") text
      /\ exists r, (after_all (lit " by ") text r
                    \/ (~ inside (lit " by ") text /\ after_all (lit " due ") text r))
                   /\ recurs fmt starting r f).

(** ** The first line *)
Definition kind_word (k : envtype) : str :=
  match k with Expense => lit "expense" | Goal => lit "goal" end.
Definition header_says (fmt h : str) (kind : envtype) (name : str) (starting : option date)
  (f : frequency) : Prop :=
  exists more before,
    split_ws (remove_comments h) = kind_word kind :: name :: more
    /\ ((starting = None /\ ~ inside (lit " starting ") h /\ before = h)
        \/ exists d t, starting = Some d /\ first_inside (lit " starting ") h before t
                       /\ parse_date t fmt = Some d)
    /\ due_in fmt starting (remove_comments before) f.

(** The first line again, for lines that start with kind, name and one of the
    words for "due". *)
Definition front (k : envtype) (name : str) : str := kind_word k ++ 32%N :: name.
Definition due_words : list str := [lit " due"; lit " by"; lit " due by"].
(** What the words after [due] or [by] say. *)
Definition tail_says (fmt post : str) (starting : option date) (f : frequency) : Prop :=
  exists z, ((starting = None /\ ~ inside (lit " starting ") (32%N :: post) /\ z = 32%N :: post)
             \/ exists d t, starting = Some d /\ first_inside (lit " starting ") (32%N :: post) z t
                            /\ parse_date t fmt = Some d)
    /\ ((inside (lit "no date") (remove_comments z) /\ f = Never)
        \/ (~ inside (lit "no date") (remove_comments z)
            /\ exists r, remove_comments z = 32%N :: r /\ recurs fmt starting r f)).

(** ** The other lines *)
Inductive setting : Set := For (account : str) | Target (a : amount) | Funded (f : funding).
Definition setting_word (s : setting) : str :=
  match s with For _ => lit "for" | Target _ => lit "amount" | Funded _ => lit "funding" end.
Definition funding_word (f : funding) : str :=
  match f with
  | Manual => lit "manual" | Conservative => lit "conservative" | Aggressive => lit "aggressive"
  end.
Definition line_says (dsym : char) (line : str) (s : setting) : Prop :=
  exists key value,
    trim (remove_comments line) = key ++ 32%N :: value /\ ~ In 32%N key
    /\ hd_error (split_ws (remove_comments line)) = Some (setting_word s)
    /\ match s with
       | For a => split_ws value = [a]
       | Target a => parse_amount value dsym = Ok a
       | Funded f => split_ws value = [funding_word f]
       end.

(** Later lines win. *)
Definition target (l : list setting) : amount :=
  fold_left (fun a s => match s with Target b => b | _ => a end) l amount_zero.
Definition funded (l : list setting) : funding :=
  fold_left (fun f s => match s with Funded g => g | _ => f end) l Manual.

Definition described (account name : str) (kind : envtype) (starting : option date)
  (f : frequency) (l : list setting) (v : envelope) : Prop :=
  v_name v = name /\ v_type v = kind /\ v_account v = account
  /\ v_starting v = starting /\ v_freq v = f
  /\ v_amount v = target l /\ v_funding v = funded l
  /\ NoDup (v_auto v) /\ (forall a, In a (v_auto v) <-> In (For a) l)
  /\ v_next v = mkAmount fzero (symbol (target l))
  /\ v_now v = mkAmount fzero (symbol (target l))
  /\ year (v_last v) = 0 /\ month (v_last v) = 1 /\ day (v_last v) = 1.
