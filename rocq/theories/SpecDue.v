(** The due dates that the program finds, for every frequency. *)
From Coq Require Import ZArith List Bool.
From Verif Require Import Base Date Envelope SpecDate SpecHistory.
Import ListNotations.
Local Open Scope Z_scope.

(** [x] is a whole number of fortnights before or after [s]. *)
Definition fortnights_apart (s x : date) : Prop := fortnight s x \/ fortnight x s.
(** [y] is between [a] and [b] days after [x]. *)
Definition days_ahead (a b : nat) (x y : date) : Prop := exists j, (a <= j <= b)%nat /\ days_later j x y.

(** The next due date. *)
Inductive next_is (today : date) : frequency -> option date -> Prop :=
  | next_never : next_is today Never None
  | next_once d : earlier today d -> next_is today (Once d) (Some d)
  | next_over d : not_later d today -> next_is today (Once d) None
  | next_weekly w d : earliest (fun x => earlier today x /\ weekday_of x = weekday_num w) d ->
      next_is today (Weekly w) (Some d)
  | next_biweekly s d : not_later s today -> earliest (fun x => earlier today x /\ fortnight s x) d ->
      next_is today (Biweekly s) (Some d)
  | next_biweekly_early s d : earlier today s -> fortnights_apart s d -> days_ahead 14 27 today d ->
      next_is today (Biweekly s) (Some d)
  | next_monthly n d : earliest (fun x => earlier today x /\ day x = due_day n (year x) (month x)) d ->
      next_is today (Monthly n) (Some d)
  | next_bimonthly s d : earliest (fun x => not_later today x /\ every_other_month s x) d ->
      next_is today (Bimonthly s) (Some d)
  | next_yearly_early s : earlier today s -> next_is today (Annually s) (Some s)
  | next_yearly s d : not_later s today -> months_later 12 s d -> next_is today (Annually s) (Some d)
  | next_yearly_none s : not_later s today -> (forall d, ~ months_later 12 s d) -> next_is today (Annually s) None.

Definition periodic (f : frequency) : Prop :=
  match f with Weekly _ | Biweekly _ | Monthly _ | Bimonthly _ => True | _ => False end.
(** The last due date: one period before the next one, if that day exists. *)
Inductive last_is (today : date) : frequency -> res (option date) -> Prop :=
  | last_never : last_is today Never (Ok None)
  | last_once d : not_later d today -> last_is today (Once d) (Ok (Some d))
  | last_ahead d : earlier today d -> last_is today (Once d) (Ok None)
  | last_period f n l : periodic f -> next_is today f (Some n) -> one_period f l n -> last_is today f (Ok (Some l))
  | last_crash f n : periodic f -> next_is today f (Some n) -> (forall l, ~ one_period f l n) -> last_is today f Panic
  | last_yearly s l : months_later 12 l s -> last_is today (Annually s) (Ok (Some l))
  | last_yearly_crash s : (forall l, ~ months_later 12 l s) -> last_is today (Annually s) Panic.

(** When that is the last day on which something was due. *)
Definition last_right (today : date) (f : frequency) (l : option date) : Prop :=
  match f with
  | Never | Once _ | Weekly _ => True
  | Biweekly s => not_later s today
  | Monthly n => exists d, l = Some d /\ day d = due_day n (year d) (month d)
  | Bimonthly s => not_later s today /\ ~ every_other_month s today
                   /\ exists d, l = Some d /\ every_other_month s d
  | Annually _ => False
  end.
