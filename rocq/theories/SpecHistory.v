(** Specification of the two compartments of an envelope after a history. *)
From Coq Require Import ZArith List Bool.
From Verif Require Import Base Str F64 Date Amount Posting Entry Envelope
  SpecAmount SpecDate SpecEntry SpecEnvelope.
Import ListNotations.
Local Open Scope Z_scope.

(** The amounts that an entry moves into (out of, if negative) an envelope. *)
Inductive moves_of (v : envelope) (e : entry) : list amount -> Prop :=
  | by_hand : manual e -> moves_of v e (posted_to v (e_postings e))
  | not_concerned : ~ manual e ->
      (forall p, In p (e_postings e) -> ~ own v p) \/ (forall p, In p (e_postings e) -> ~ linked v p) ->
      moves_of v e []
  | automatic f s l : ~ manual e ->
      (exists p, In p (e_postings e) /\ own v p) -> (exists p, In p (e_postings e) /\ linked v p) ->
      sums e (symbol (v_amount v)) (linked v) (e_postings e) fzero f ->
      sums e (symbol (v_amount v)) (own v) (e_postings e) fzero s ->
      l = (if feqb (fmin f (fabs s)) fzero then []
           else [mkAmount (if fltb s fzero then fneg (fmin f (fabs s)) else fmin f (fabs s)) (symbol (v_amount v))]) ->
      moves_of v e l.
(** All moves of a list of entries, with their dates. *)
Inductive moves_of_all (v : envelope) : list entry -> list (date * amount) -> Prop :=
  | no_entries : moves_of_all v [] []
  | one_more e es l h : moves_of v e l -> moves_of_all v es h ->
      moves_of_all v (e :: es) (map (pair (e_date e)) l ++ h).

(** [d] is before the last due date [o]; never if there is none. *)
Definition before (d : date) (o : option date) : Prop :=
  match o with Some l => earlier d l | None => False end.
(** The compartments (ready to be spent, saved for the next due date), from
    [(x, y)] on: money is spent from the first; money that was put in before
    the last due date is in the first, later money in the second. *)
Inductive tally (l : option date) : list (date * amount) -> f64 * f64 -> f64 * f64 -> Prop :=
  | tally_end r : tally l [] r r
  | tally_spent d a h x y r : negative a -> tally l h (fadd x (mag a), y) r -> tally l ((d, a) :: h) (x, y) r
  | tally_ready d a h x y r : positive a -> before d l -> tally l h (fadd x (mag a), y) r ->
      tally l ((d, a) :: h) (x, y) r
  | tally_next d a h x y r : positive a -> ~ before d l -> tally l h (x, fadd y (mag a)) r ->
      tally l ((d, a) :: h) (x, y) r
  | tally_nothing d a h x y r : ~ negative a -> ~ positive a -> tally l h (x, y) r ->
      tally l ((d, a) :: h) (x, y) r.

(** The days on which something is due. *)
Definition due_on (f : frequency) (x : date) : Prop :=
  match f with
  | Once d => x = d
  | Weekly w => weekday_of x = weekday_num w
  | Biweekly d => fortnight d x
  | Monthly n => day x = due_day n (year x) (month x)
  | Bimonthly d => every_other_month d x
  | Annually d => anniversary d x
  | Never => False
  end.
Definition last_due (today : date) (f : frequency) (o : option date) : Prop :=
  match o with
  | Some l => latest (fun x => not_later x today /\ due_on f x) l
  | None => forall x, due_on f x -> ~ not_later x today
  end.
(** The frequencies for which the program finds that day: none, one-time ones,
    weekly ones, monthly ones on a day that every
    month has, and those of every other week or month once they have started
    (the latter on a day that every month has, and not on the due day itself). *)
Definition regular (today : date) (f : frequency) : Prop :=
  match f with
  | Never => True
  | Once _ => True
  | Weekly _ => True
  | Biweekly d => not_later d today
  | Monthly n => 1 <= n <= 28
  | Bimonthly d => not_later d today /\ day d <= 28 /\ ~ every_other_month d today
  | Annually _ => False
  end.
