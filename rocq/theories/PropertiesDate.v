(** Calendar and due dates: C44-C49, C64. *)
From Coq Require Import ZArith NArith List Bool String Lia.
From Verif Require Import Base Str Date Envelope SpecDate DateFormat DateFacts FreqFacts.
Import ListNotations.
Local Open Scope Z_scope.

Local Notation "'D' y m d" := (mkDate y m d eq_refl) (at level 10, y, m, d at level 9).

(** ** C64 *)
Theorem C64_calendar :
  (forall x y, date_compare x y = Lt <-> earlier x y)
  /\ (forall x y, date_compare x y = Eq <-> x = y)
  /\ (forall x n y, add_days x (Z.of_nat n) = Some y <-> days_later n x y)
  /\ (forall x n y, add_days x (- Z.of_nat n) = Some y <-> days_later n y x)
  /\ (forall x n y, days_later n x y -> days_since y x = Z.of_nat n)
  /\ (forall x y, tomorrow x y -> weekday_of y = (weekday_of x + 1) mod 7)
  /\ (forall y, month_len y 2 = 29 <-> leap_year y)
  /\ weekday_of (D 2000 1 1) = weekday_num Sat.
Proof.
  split; [intros; rewrite date_compare_spec, earlier_dayn; apply Z.compare_lt_iff|].
  split.
  { intros x y. rewrite date_compare_spec, Z.compare_eq_iff. split; [apply dayn_inj|intros ->; reflexivity]. }
  split; [exact add_days_later|]. split; [exact add_days_before|].
  split; [intros x n y H; apply days_later_dayn in H; unfold days_since; lia|].
  split; [exact weekday_tomorrow|].
  split; [|reflexivity].
  intro y. rewrite <- leap_iff. cbn. destruct (leap y); split; intro H; try reflexivity; discriminate.
Qed.
Print Assumptions C64_calendar.

Example C64_case :
  add_days (D 1900 2 28) 1 = Some (D 1900 3 1) /\ add_days (D 2000 2 28) 1 = Some (D 2000 2 29)
  /\ add_days (D 2021 3 1) (-1) = Some (D 2021 2 28) /\ add_days (D 2019 12 25) 366 = Some (D 2020 12 25)
  /\ days_since (D 2026 11 16) (D 1970 1 1) = 20773 /\ weekday_of (D 2026 11 16) = weekday_num Mon.
Proof. vm_compute. repeat split. Qed.

(** ** C44 *)
Theorem C44_monthly : forall today n, year today < max_year ->
  exists d, freq_next today (Monthly n) = Ok (Some d)
    /\ earliest (fun x => earlier today x /\ day x = due_day n (year x) (month x)) d.
Proof.
  intros today n H. destruct (monthly_next today n H) as (d & E & P & _). exists d.
  cbn [freq_next]. rewrite E. split; [reflexivity|exact P].
Qed.
Print Assumptions C44_monthly.

Example C44_case :
  freq_next (D 2023 1 31) (Monthly 31) = Ok (Some (D 2023 2 28))
  /\ freq_next (D 2023 12 15) (Monthly 15) = Ok (Some (D 2024 1 15))
  /\ freq_next (D 2024 2 10) (Monthly 30) = Ok (Some (D 2024 2 29))
  /\ freq_next (D 2024 11 30) (Monthly 30) = Ok (Some (D 2024 12 30)).
Proof. vm_compute. repeat split. Qed.

(** ** C45 *)
Theorem C45_weekly : forall today w, year today < max_year -> min_year < year today ->
  (exists d, freq_next today (Weekly w) = Ok (Some d)
    /\ earliest (fun x => earlier today x /\ weekday_of x = weekday_num w) d)
  /\ (exists d, freq_last today (Weekly w) = Ok (Some d)
    /\ latest (fun x => not_later x today /\ weekday_of x = weekday_num w) d).
Proof.
  intros today w H H'. destruct (weekly_next today w H) as (d & E & W & R & M). split.
  - exists d. split; [exact E|]. split; [split; [apply earlier_dayn; lia|exact W]|].
    intros x [A B]. apply earlier_dayn in A. apply not_later_dayn.
    destruct (Z_le_gt_dec (dayn d) (dayn x)) as [L|L]; [exact L|]. exfalso. apply (M (dayn x)); [lia|exact B].
  - destruct (weekly_last_Ok today w H H') as (n & l & En & El & P & L).
    exists l. split; [exact El|]. assert (n = d) by congruence. subst n. cbn [one_period] in P.
    apply days_later_dayn in P. change (Z.of_nat 7) with 7 in P. split.
    + split; [exact L|]. unfold weekday_of in *. rewrite <- W.
      replace (dayn d - 1) with (dayn l - 1 + 1 * 7) by lia. rewrite Z.mod_add by lia. reflexivity.
    + intros x [A B]. apply not_later_dayn in A. apply not_later_dayn.
      destruct (Z_le_gt_dec (dayn x) (dayn l)) as [K|K]; [exact K|]. exfalso.
      unfold weekday_of in *. assert (Q1 := Z.div_mod (dayn x - 1) 7). assert (Q2 := Z.div_mod (dayn d - 1) 7). lia.
Qed.
Print Assumptions C45_weekly.

Example C45_case :
  freq_next (D 2026 11 16) (Weekly Mon) = Ok (Some (D 2026 11 23))
  /\ freq_last (D 2026 11 16) (Weekly Mon) = Ok (Some (D 2026 11 16))
  /\ freq_next (D 2026 12 31) (Weekly Fri) = Ok (Some (D 2027 1 1))
  /\ freq_last (D 2026 12 31) (Weekly Fri) = Ok (Some (D 2026 12 25)).
Proof. vm_compute. repeat split. Qed.

(** ** C46 *)
(** A start within the next two weeks is skipped. *)
Theorem C46_refuted : exists today start d,
  freq_next today (Biweekly start) = Ok (Some d)
  /\ ~ earliest (fun x => earlier today x /\ fortnight start x) d.
Proof.
  exists (D 2024 1 1), (D 2024 1 5), (D 2024 1 19). split; [reflexivity|].
  intros [_ H]. specialize (H (D 2024 1 5)).
  assert (not_later (D 2024 1 19) (D 2024 1 5)) as K.
  { apply H. split; [apply earlier_dayn; reflexivity|]. exists O. reflexivity. }
  apply not_later_dayn in K. revert K. vm_compute. congruence.
Qed.
Print Assumptions C46_refuted.

(** Missing: starting dates after today. *)
Theorem C46_partial : forall today start, year today < max_year -> not_later start today ->
  exists d, freq_next today (Biweekly start) = Ok (Some d)
    /\ earliest (fun x => earlier today x /\ fortnight start x) d.
Proof.
  intros today start H St. destruct (biweekly_next today start H St) as (d & E & P & _). exists d. auto.
Qed.
Print Assumptions C46_partial.

Example C46_case :
  freq_next (D 2024 1 19) (Biweekly (D 2024 1 5)) = Ok (Some (D 2024 2 2))
  /\ freq_next (D 2024 1 18) (Biweekly (D 2024 1 5)) = Ok (Some (D 2024 1 19)).
Proof. vm_compute. repeat split. Qed.

(** ** C47 *)
Theorem C47_bimonthly : forall today start, year today < max_year ->
  exists d, freq_next today (Bimonthly start) = Ok (Some d)
    /\ earliest (fun x => not_later today x /\ every_other_month start x) d.
Proof.
  intros today start H. destruct (bimonthly_next today start H) as (k & d & E & K & N & T & P).
  exists d. split; [exact E|]. exact (bimonthly_earliest today start k d K N T P).
Qed.
Print Assumptions C47_bimonthly.

Example C47_case :
  freq_next (D 2023 1 10) (Bimonthly (D 2022 12 31)) = Ok (Some (D 2023 2 28))
  /\ freq_next (D 2023 3 1) (Bimonthly (D 2022 12 31)) = Ok (Some (D 2023 4 30))
  /\ freq_next (D 2023 8 31) (Bimonthly (D 2022 12 31)) = Ok (Some (D 2023 8 31))
  /\ freq_next (D 2020 1 1) (Bimonthly (D 2022 12 31)) = Ok (Some (D 2022 12 31)).
Proof. vm_compute. repeat split. Qed.

(** ** C48 *)
(** From the second anniversary on, the due date reported is in the past; for
    29 February there is none at all. *)
Theorem C48_refuted :
  (exists today start d, freq_next today (Annually start) = Ok (Some d) /\ earlier d today)
  /\ (exists today start, freq_next today (Annually start) = Ok None).
Proof.
  split.
  - exists (D 2024 1 1), (D 2020 5 5), (D 2021 5 5). split; [reflexivity|]. apply earlier_dayn. reflexivity.
  - exists (D 2024 3 1), (D 2024 2 29). reflexivity.
Qed.
Print Assumptions C48_refuted.

(** The due date is right exactly until the first anniversary. *)
Theorem C48_partial : forall today start, year start < max_year ->
  ~ (month start = 2 /\ day start = 29) ->
  exists d, freq_next today (Annually start) = Ok (Some d)
    /\ ((year d = year start \/ year d = year start + 1) /\ month d = month start /\ day d = day start)
    /\ (earlier today d <-> earliest (fun x => earlier today x /\ anniversary start x) d).
Proof.
  intros today start Y N. destruct (earlier_or today start) as [H|H].
  - destruct (annual_next_future today start H) as [E P]. exists start. split; [exact E|]. split; [lia|]. tauto.
  - destruct (annual_next_past today start H Y N) as (d & E & DY & DM & DD). exists d.
    split; [exact E|]. split; [lia|]. split; [|intros [[A _] _]; exact A].
    intro T. split; [split; [exact T|unfold anniversary; lia]|].
    intros x (A & B & C & D0). destruct (Z.eq_dec (year x) (year d)) as [Q|Q].
    + left. apply date_eq; congruence.
    + destruct (Z.eq_dec (year x) (year start)) as [Q'|Q'].
      * assert (x = start) as -> by (apply date_eq; congruence). destruct (earlier_irrefl _ _ A H).
      * right. unfold earlier. lia.
Qed.
Print Assumptions C48_partial.

Example C48_case :
  freq_next (D 2021 1 1) (Annually (D 2020 5 5)) = Ok (Some (D 2021 5 5))
  /\ freq_next (D 2020 5 4) (Annually (D 2020 5 5)) = Ok (Some (D 2020 5 5)).
Proof. vm_compute. repeat split. Qed.

(** ** C49 *)
Theorem C49_refuted :
  (exists today, freq_last today (Monthly 31) = Panic)
  /\ (exists today start, freq_last today (Annually start) = Panic)
  /\ (exists today start l, freq_last today (Bimonthly start) = Ok (Some l) /\ earlier today l)
  /\ (exists today start n l, started today (Annually start)
        /\ freq_next today (Annually start) = Ok (Some n)
        /\ freq_last today (Annually start) = Ok (Some l)
        /\ ~ one_period (Annually start) l n).
Proof.
  split; [exists (D 2024 5 1); reflexivity|].
  split; [exists (D 2024 3 1), (D 2024 2 29); reflexivity|].
  split.
  - exists (D 2024 1 1), (D 2024 6 6), (D 2024 4 6). split; [reflexivity|]. apply earlier_dayn. reflexivity.
  - exists (D 2021 1 1), (D 2020 5 5), (D 2021 5 5), (D 2019 5 5). split; [apply not_later_dayn; vm_compute; congruence|].
    split; [reflexivity|]. split; [reflexivity|]. intros [A _]. revert A. vm_compute. congruence.
Qed.
Print Assumptions C49_refuted.

(** For a frequency that has started: one period before the next due date and
    not after today, or a panic exactly when there is no such date.  Missing:
    frequencies that start in the future, and annual ones. *)
Theorem C49_partial : forall today f, year today < max_year -> min_year + 3 < year today ->
  started today f ->
  match f with Weekly _ | Biweekly _ | Monthly _ | Bimonthly _ => True | _ => False end ->
  (exists n l, freq_next today f = Ok (Some n) /\ freq_last today f = Ok (Some l)
     /\ one_period f l n /\ not_later l today)
  \/ (exists n, freq_next today f = Ok (Some n) /\ freq_last today f = Panic
     /\ forall l, ~ one_period f l n).
Proof.
  intros today f H H' St R. destruct f; cbn [started] in St; destruct R.
  - apply weekly_last; lia.
  - apply biweekly_last; [lia..|exact St].
  - apply monthly_last; lia.
  - apply bimonthly_last; [lia..|exact St].
Qed.
Print Assumptions C49_partial.

Theorem C49_early_days_partial : forall today n, year today < max_year -> min_year + 3 < year today ->
  1 <= n <= 28 ->
  exists d l, freq_next today (Monthly n) = Ok (Some d) /\ freq_last today (Monthly n) = Ok (Some l)
    /\ day l = n /\ months_later 1 l d /\ not_later l today.
Proof.
  intros today n H H' N.
  destruct (C44_monthly today n H) as (d & E & [[_ Dd] _]).
  assert (day d = n) as Dn.
  { rewrite Dd. unfold due_day. destruct (date_bounds d) as (_ & M & _). apply month_len_bounds with (y := year d) in M.
    destruct (Z.leb_spec 1 n), (Z.leb_spec n (month_len (year d) (month d))); cbn; lia. }
  destruct (C49_partial today (Monthly n) H H' I I) as [(n' & l & En & El & P & L)|(n' & En & El & P)].
  - assert (n' = d) as -> by congruence. exists d, l. repeat split; [assumption..| |exact (proj1 P)|exact (proj2 P)|exact L].
    destruct P as [_ P]. congruence.
  - exfalso. assert (n' = d) as -> by congruence.
    destruct (date_bounds d) as (DY & DM & _).
    assert (year today <= year d) as YY.
    { destruct (monthly_next today n H) as (d' & E' & [[T _] _] & _). cbn [freq_next] in E. rewrite E' in E.
      cbn [bind] in E. injection E as <-. unfold earlier in T. lia. }
    destruct (Z.eq_dec (month d) 1) as [Q|Q].
    + destruct (make_date (year d - 1) 12 n) as (l & _ & A & B & C); [lia..|cbn; lia|].
      apply (P l). split; [lia|congruence].
    + destruct (make_date (year d) (month d - 1) n) as (l & _ & A & B & C); [lia..| |].
      { assert (K := month_len_bounds (year d) (month d - 1)). lia. }
      apply (P l). split; [lia|congruence].
Qed.
Print Assumptions C49_early_days_partial.

Theorem C49_annual_partial : forall today start,
  not_later start today -> year start < max_year -> min_year < year start ->
  ~ (month start = 2 /\ day start = 29) ->
  exists l, freq_last today (Annually start) = Ok (Some l) /\ year l = year start - 1
    /\ month l = month start /\ day l = day start /\ earlier l today.
Proof. exact annual_last. Qed.
Print Assumptions C49_annual_partial.

Example C49_case :
  freq_last (D 2024 3 30) (Monthly 30) = Ok (Some (D 2024 3 30))
  /\ freq_last (D 2024 3 31) (Bimonthly (D 2024 1 15)) = Ok (Some (D 2024 3 15))
  /\ freq_last (D 2024 3 1) (Monthly 30) = Panic.
Proof. vm_compute. repeat split. Qed.
