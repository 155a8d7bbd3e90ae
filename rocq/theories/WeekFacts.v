(** Weeks of the year (C63). *)
From Coq Require Import ZArith NArith List Bool String Lia.
From Verif Require Import Base Str Date SpecDate DateBasics DateFacts.
Import ListNotations.
Local Open Scope Z_scope.

Lemma ordinal_dayn x : dayn x = days_before_year (year x) + ordinal x.
Proof. unfold dayn, dayn_ymd, ordinal. lia. Qed.
Lemma new_year y : dayn_ymd y 1 1 = days_before_year y + 1.
Proof. unfold dayn_ymd. change (days_before_month y 1) with 0. lia. Qed.
Lemma ordinal_len x : 1 <= ordinal x <= year_len (year x).
Proof. assert (K := dayn_in_year x). rewrite ordinal_dayn in K. lia. Qed.
Lemma from_yo_dayn y o x : from_yo y o = Some x <-> year x = y /\ ordinal x = o.
Proof.
  assert (M := month_of_spec y o). unfold from_yo, year_days. fold (year_len y). cbv zeta in *.
  set (m := month_of y o [2; 3; 4; 5; 6; 7; 8; 9; 10; 11; 12] 1) in *. split.
  - destruct (Z.leb_spec 1 o), (Z.leb_spec o (year_len y)); cbn [andb]; try discriminate.
    intro E. apply from_ymd_Some in E. destruct E as (<- & E1 & E2). split; [reflexivity|]. unfold ordinal. rewrite E1, E2. lia.
  - intros (<- & <-). assert (L := ordinal_len x). rewrite (proj2 (Z.leb_le _ _)), (proj2 (Z.leb_le _ _)) by lia. cbn [andb].
    destruct (M L) as (M1 & M2). destruct (date_bounds x) as (_ & MB & DB).
    assert (m = month x) as EM.
    { unfold ordinal in M2.
      destruct (Z.lt_trichotomy m (month x)) as [K|[K|K]]; [|exact K|].
      - assert (G := days_before_month_mono (year x) m (month x)). lia.
      - assert (G := days_before_month_mono (year x) (month x) m). lia. }
    apply from_ymd_Some. rewrite EM. unfold ordinal. repeat split. lia.
Qed.


Lemma len_leap y : leap y = (year_len y =? 366). Proof. unfold year_len. destruct (leap y); reflexivity. Qed.
Lemma year_before y : days_before_year (y - 1) = days_before_year y - year_len (y - 1).
Proof. assert (K := days_before_year_succ (y - 1)). replace (y - 1 + 1) with y in K by lia. lia. Qed.

(** The weekday of the day before the year, the day of the year. *)
Ltac weeks x :=
  unfold iso_year, iso_week, iso_raw, iso_weeks, iso_delta, first_weekday, weeks_from, weekday_of, week_year, thursday;
  cbv zeta; rewrite ?new_year, ?ordinal_dayn, ?len_leap, ?(days_before_year_succ (year x)), ?(year_before (year x));
  let L1 := fresh "L" in assert (L1 := year_len_bounds (year x));
  let L2 := fresh "L" in assert (L2 := year_len_bounds (year x - 1));
  let O := fresh "O" in assert (O := ordinal_len x);
  let b := fresh "b" in let o := fresh "o" in let l := fresh "l" in let k := fresh "k" in
  set (b := days_before_year (year x)) in *; set (o := ordinal x) in *; set (l := year_len (year x)) in *; set (k := year_len (year x - 1)) in *;
  clearbody b o l k;
  let R := fresh "R" in assert (R := Z.mod_pos_bound b 7 eq_refl);
  let q := fresh "q" in let r := fresh "r" in let Eb := fresh "E" in
  assert (Eb : b = b mod 7 + b / 7 * 7) by (assert (K := Z.div_mod b 7 ltac:(lia)); lia);
  set (r := b mod 7) in *; set (q := b / 7) in *; clearbody r q; subst b.
Ltac bools :=
  repeat match goal with |- context [if ?c then _ else _] =>
    lazymatch c with context [if _ then _ else _] => fail | _ => destruct c eqn:? end end;
  rewrite ?orb_true_iff, ?orb_false_iff, ?andb_true_iff, ?andb_false_iff, ?Z.eqb_eq, ?Z.eqb_neq, ?Z.leb_le, ?Z.leb_gt, ?Z.ltb_lt, ?Z.ltb_ge in *.


Lemma week_year_iso x : iso_year x = week_year x.
Proof.
  weeks x. replace (r + q * 7 + o - 1) with (r + o - 1 + q * 7) by lia. rewrite Z.mod_add by lia.
  bools; Z.div_mod_to_equations; lia.
Qed.
Lemma week_iso x : iso_week x = (thursday x - dayn_ymd (week_year x) 1 1) / 7 + 1.
Proof.
  rewrite new_year. unfold week_year.
  assert (E : forall (c d : bool) a1 a2 a3, days_before_year (if c then a1 else if d then a2 else a3)
    = if c then days_before_year a1 else if d then days_before_year a2 else days_before_year a3) by (intros [] [] a1 a2 a3; reflexivity).
  rewrite E. weeks x. replace (r + q * 7 + o - 1) with (r + o - 1 + q * 7) by lia. rewrite Z.mod_add by lia.
  bools; Z.div_mod_to_equations; lia.
Qed.
Lemma weeks_sunday x : weeks_from 6 x = dayn x / 7 - (dayn_ymd (year x) 1 1 - 1) / 7.
Proof. weeks x. Z.div_mod_to_equations. lia. Qed.
Lemma weeks_monday x : weeks_from 0 x = (dayn x - 1) / 7 - (dayn_ymd (year x) 1 1 - 2) / 7.
Proof. weeks x. Z.div_mod_to_equations. lia. Qed.
Lemma weeks_bounds w x : 0 <= weeks_from w x <= 53.
Proof. weeks x. Z.div_mod_to_equations. lia. Qed.
Lemma iso_week_bounds x : 1 <= iso_week x <= 53.
Proof. weeks x. bools; Z.div_mod_to_equations; lia. Qed.
Lemma week_year_bounds x : 0 <= year x < 10000 -> -1 <= week_year x < 10000.
Proof.
  intro Y. assert (year x < 9999 \/ year x = 9999) as [K|K] by lia.
  - unfold week_year. bools; lia.
  - unfold week_year, thursday. rewrite !new_year, ordinal_dayn. assert (O := ordinal_len x). rewrite K in *.
    change (days_before_year 9999) with 3651694 in *. change (days_before_year (9999 + 1)) with 3652059.
    change (year_len 9999) with 365 in O. bools; try lia. exfalso. Z.div_mod_to_equations. lia.
Qed.
Lemma from_week_date w x : from_week w (year x) (weeks_from w x) (weekday_of x) = Some x.
Proof.
  unfold from_week. apply from_yo_dayn. split; [reflexivity|]. weeks x.
  Z.div_mod_to_equations; lia.
Qed.
Lemma from_iso_date x : from_iso (iso_year x) (iso_week x) (weekday_of x) = Some x.
Proof.
  unfold from_iso, year_days. assert (N := iso_week_bounds x).
  change (if leap (iso_year x - 1) then 366 else 365) with (year_len (iso_year x - 1)).
  change (if leap (iso_year x) then 366 else 365) with (year_len (iso_year x)).
  assert (W : iso_week x <= iso_weeks (iso_year x)).
  { unfold iso_year, iso_week. destruct (Z.ltb_spec (iso_raw x) 1); [lia|].
    destruct (Z.ltb_spec (iso_weeks (year x)) (iso_raw x)); [|lia]. unfold iso_weeks. destruct (_ || _); lia. }
  rewrite (proj2 (Z.leb_le _ _)), (proj2 (Z.leb_le _ _)) by lia. cbn [andb]. clear N W.
  set (n := iso_week x * 7 + weekday_of x - iso_delta (iso_year x)).
  assert ((iso_year x = year x /\ n = ordinal x)
    \/ (iso_year x = year x - 1 /\ n = ordinal x + year_len (year x - 1))
    \/ (iso_year x = year x + 1 /\ n = ordinal x - year_len (year x))) as [[Y E]|[[Y E]|[Y E]]].
  { unfold n. unfold iso_year, iso_week. destruct (Z.ltb_spec (iso_raw x) 1) as [A|A].
    - right. left. split; [reflexivity|]. revert A. weeks x. bools; Z.div_mod_to_equations; lia.
    - destruct (Z.ltb_spec (iso_weeks (year x)) (iso_raw x)) as [B|B].
      + right. right. split; [reflexivity|]. revert A B. weeks x. bools; Z.div_mod_to_equations; lia.
      + left. split; [reflexivity|]. revert A B. weeks x. bools; Z.div_mod_to_equations; lia. }
  all: rewrite E, Y; assert (O := ordinal_len x); assert (L := year_len_bounds (year x - 1)).
  - rewrite (proj2 (Z.leb_gt _ _)), (proj2 (Z.leb_le _ _)) by lia. apply from_yo_dayn. auto.
  - rewrite (proj2 (Z.leb_gt _ _)), (proj2 (Z.leb_gt _ _)) by lia. apply from_yo_dayn. lia.
  - rewrite (proj2 (Z.leb_le _ _)) by lia. replace (year x + 1 - 1) with (year x) by lia. apply from_yo_dayn. lia.
Qed.
