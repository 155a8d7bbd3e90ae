(** The calendar arithmetic of Date.v. *)
From Coq Require Import ZArith NArith List Bool String Lia.
From Verif Require Import Base Str F64 Date SpecDate DateBasics.
Import ListNotations.
Local Open Scope Z_scope.

(** ** Years *)
Lemma leap_iff y : leap y = true <-> leap_year y.
Proof.
  unfold leap, leap_year. rewrite andb_true_iff, orb_true_iff, negb_true_iff, !Z.eqb_eq, Z.eqb_neq.
  rewrite <- !Z.mod_divide by lia. split.
  - intros (A & [B|B]); auto.
  - intros [(A & B)|A]; split; auto.
    rewrite Z.mod_divide in A |- * by lia. destruct A as (k & ->). exists (k * 100). ring.
Qed.
Definition year_len (y : Z) : Z := if leap y then 366 else 365.
Lemma div_succ p k : 0 < k -> (p + 1) / k = p / k + (if (p + 1) mod k =? 0 then 1 else 0).
Proof.
  intro K. assert (A := Z.div_mod p k). assert (B := Z.mod_pos_bound p k K).
  assert (C := Z.div_mod (p + 1) k). assert (D := Z.mod_pos_bound (p + 1) k K).
  destruct (Z.eqb_spec ((p + 1) mod k) 0) as [E|E]; nia.
Qed.
Lemma days_before_year_succ y : days_before_year (y + 1) = days_before_year y + year_len y.
Proof.
  unfold days_before_year, year_len, leap. cbv zeta. set (p := y - 1).
  replace (y + 1 - 1) with (p + 1) by (unfold p; ring). replace y with (p + 1) by (unfold p; ring).
  rewrite !(div_succ p) by lia.
  destruct (Z.eqb_spec ((p + 1) mod 4) 0) as [A|A]; destruct (Z.eqb_spec ((p + 1) mod 100) 0) as [B|B];
    destruct (Z.eqb_spec ((p + 1) mod 400) 0) as [C|C]; cbn [andb orb negb]; try lia; exfalso.
  - apply B. rewrite Z.mod_divide in C |- * by lia. destruct C as (k & ->). exists (4 * k). ring.
  - apply A. rewrite Z.mod_divide in B |- * by lia. destruct B as (k & ->). exists (25 * k). ring.
  - apply A. rewrite Z.mod_divide in C |- * by lia. destruct C as (k & ->). exists (100 * k). ring.
Qed.
Lemma year_len_bounds y : 365 <= year_len y <= 366.
Proof. unfold year_len. destruct (leap y); lia. Qed.
Lemma days_before_year_le y n : 0 <= n -> days_before_year y + 365 * n <= days_before_year (y + n).
Proof.
  intro N. pattern n. apply natlike_ind; [|intros k K IH|exact N].
  - replace (y + 0) with y by ring. lia.
  - replace (y + Z.succ k) with (y + k + 1) by ring. rewrite days_before_year_succ.
    assert (L := year_len_bounds (y + k)). lia.
Qed.
Lemma days_before_year_mono y z : y < z -> days_before_year y + year_len y <= days_before_year z.
Proof.
  intro L. rewrite <- days_before_year_succ. assert (H := days_before_year_le (y + 1) (z - (y + 1))).
  replace (y + 1 + (z - (y + 1))) with z in H by ring. lia.
Qed.

(** ** Months *)
Lemma days_before_month_succ y m : 1 <= m < 12 -> days_before_month y (m + 1) = days_before_month y m + month_len y m.
Proof.
  intro H. assert (m = 1 \/ m = 2 \/ m = 3 \/ m = 4 \/ m = 5 \/ m = 6 \/ m = 7 \/ m = 8 \/ m = 9 \/ m = 10 \/ m = 11) as C by lia.
  destruct C as [->|[->|[->|[->|[->|[->|[->|[->|[->|[->| ->]]]]]]]]]];
    unfold days_before_month; cbn; destruct (leap y); reflexivity.
Qed.
Lemma days_before_month_1 y : days_before_month y 1 = 0.
Proof. reflexivity. Qed.
Lemma days_before_month_12 y : days_before_month y 12 + 31 = year_len y.
Proof. unfold days_before_month, year_len. cbn. destruct (leap y); reflexivity. Qed.
Lemma days_before_month_mono y m k : 1 <= m -> m < k -> k <= 12 ->
  days_before_month y m + month_len y m <= days_before_month y k.
Proof.
  intros A B C. assert (K : forall j, 0 <= j -> m + 1 + j <= 12 ->
    days_before_month y m + month_len y m <= days_before_month y (m + 1 + j)).
  { intros j J. pattern j. apply natlike_ind; [|intros i I IH|exact J].
    - intros _. rewrite Z.add_0_r, days_before_month_succ by lia. lia.
    - intro L. replace (m + 1 + Z.succ i) with (m + 1 + i + 1) by ring.
      rewrite days_before_month_succ by lia.
      assert (M := month_len_bounds y (m + 1 + i)). lia. }
  replace k with (m + 1 + (k - (m + 1))) by ring. apply K; lia.
Qed.
Lemma days_before_month_bound y m : 1 <= m <= 12 ->
  0 <= days_before_month y m /\ days_before_month y m + month_len y m <= year_len y.
Proof.
  intro H. split.
  - destruct (Z.eq_dec m 1) as [->|N]; [rewrite days_before_month_1; lia|].
    assert (K := days_before_month_mono y 1 m). assert (M := month_len_bounds y 1). rewrite days_before_month_1 in K. lia.
  - destruct (Z.eq_dec m 12) as [->|N]; [rewrite <- (days_before_month_12 y); cbn; lia|].
    assert (K := days_before_month_mono y m 12). assert (E := days_before_month_12 y). lia.
Qed.

(** ** Day numbers *)
Lemma dayn_in_year x : days_before_year (year x) < dayn x <= days_before_year (year x) + year_len (year x).
Proof.
  unfold dayn, dayn_ymd. destruct (date_bounds x) as (_ & M & D).
  destruct (days_before_month_bound (year x) _ M). lia.
Qed.
Lemma dayn_earlier x y : earlier x y -> dayn x < dayn y.
Proof.
  intros [A|(A & [B|(B & C)])].
  - assert (K := days_before_year_mono _ _ A). assert (P := dayn_in_year x). assert (Q := dayn_in_year y). lia.
  - unfold dayn, dayn_ymd. rewrite A in *. destruct (date_bounds x) as (_ & M & D), (date_bounds y) as (_ & M' & D').
    assert (K := days_before_month_mono (year y) (month x) (month y)). rewrite A in D. lia.
  - unfold dayn, dayn_ymd. rewrite A, B. lia.
Qed.
Lemma earlier_total x y : earlier x y \/ x = y \/ earlier y x.
Proof.
  destruct (Z.lt_trichotomy (year x) (year y)) as [A|[A|A]];
    [left; unfold earlier; lia| |right; right; unfold earlier; lia].
  destruct (Z.lt_trichotomy (month x) (month y)) as [B|[B|B]];
    [left; unfold earlier; lia| |right; right; unfold earlier; lia].
  destruct (Z.lt_trichotomy (day x) (day y)) as [C|[C|C]];
    [left; unfold earlier; lia| |right; right; unfold earlier; lia].
  right. left. apply date_eq; assumption.
Qed.
Lemma earlier_dayn x y : earlier x y <-> dayn x < dayn y.
Proof.
  split; [apply dayn_earlier|]. intro H. destruct (earlier_total x y) as [E|[->|E]]; [exact E|lia|].
  apply dayn_earlier in E. lia.
Qed.
Lemma dayn_inj x y : dayn x = dayn y -> x = y.
Proof.
  intro H. destruct (earlier_total x y) as [E|[E|E]]; [|exact E|]; apply dayn_earlier in E; lia.
Qed.
Lemma not_later_dayn x y : not_later x y <-> dayn x <= dayn y.
Proof.
  unfold not_later. rewrite earlier_dayn. split.
  - intros [->|H]; lia.
  - intro H. destruct (Z.eq_dec (dayn x) (dayn y)) as [E|E]; [left; apply dayn_inj, E|right; lia].
Qed.
Lemma date_compare_spec x y : date_compare x y = Z.compare (dayn x) (dayn y).
Proof.
  assert (forall a b, earlier a b -> date_compare a b = Lt) as L.
  { intros a b [A|(A & [B|(B & C)])]; unfold date_compare.
    - rewrite (proj2 (Z.compare_lt_iff _ _) A). reflexivity.
    - rewrite A, Z.compare_refl, (proj2 (Z.compare_lt_iff _ _) B). reflexivity.
    - rewrite A, B, !Z.compare_refl. apply Z.compare_lt_iff, C. }
  assert (forall a b, earlier a b -> date_compare b a = Gt) as G.
  { intros a b [A|(A & [B|(B & C)])]; unfold date_compare.
    - rewrite (proj2 (Z.compare_gt_iff _ _) A). reflexivity.
    - rewrite A, Z.compare_refl, (proj2 (Z.compare_gt_iff _ _) B). reflexivity.
    - rewrite A, B, !Z.compare_refl. apply Z.compare_gt_iff, C. }
  destruct (earlier_total x y) as [E|[->|E]].
  - rewrite (L _ _ E). apply dayn_earlier in E. symmetry. apply Z.compare_lt_iff, E.
  - unfold date_compare. rewrite !Z.compare_refl. reflexivity.
  - rewrite (G _ _ E). apply dayn_earlier in E. symmetry. apply Z.compare_gt_iff, E.
Qed.
Lemma date_eqb_iff x y : date_eqb x y = true <-> x = y.
Proof.
  unfold date_eqb. rewrite date_compare_spec. destruct (Z.compare_spec (dayn x) (dayn y)) as [E|E|E]; split; try easy.
  - intros _. apply dayn_inj, E.
  - intros ->. lia.
  - intros ->. lia.
Qed.
Lemma date_ltb_iff x y : date_ltb x y = true <-> earlier x y.
Proof.
  unfold date_ltb. rewrite date_compare_spec, earlier_dayn. destruct (Z.compare_spec (dayn x) (dayn y)) as [E|E|E]; split; try easy; lia.
Qed.
Lemma date_ltb_dayn x y : date_ltb x y = (dayn x <? dayn y).
Proof.
  apply eq_true_iff_eq. rewrite date_ltb_iff, earlier_dayn, Z.ltb_lt. tauto.
Qed.
Lemma date_leb_dayn x y : date_leb x y = (dayn x <=? dayn y).
Proof.
  unfold date_leb. rewrite date_compare_spec. destruct (Z.compare_spec (dayn x) (dayn y)) as [E|E|E];
    destruct (Z.leb_spec (dayn x) (dayn y)); try reflexivity; lia.
Qed.
Lemma date_max_dayn x y : dayn (date_max x y) = Z.max (dayn x) (dayn y).
Proof. unfold date_max. rewrite date_ltb_dayn. destruct (Z.ltb_spec (dayn y) (dayn x)); lia. Qed.

(** ** From day numbers to dates *)
Lemma days_before_year_cycles a b c d :
  0 <= b <= 3 -> 0 <= c <= 24 -> 0 <= d <= 3 ->
  days_before_year (400 * a + 100 * b + 4 * c + d + 1) = 146097 * a + 36524 * b + 1461 * c + 365 * d.
Proof.
  intros B C D. unfold days_before_year. cbv zeta.
  replace (400 * a + 100 * b + 4 * c + d + 1 - 1) with (400 * a + 100 * b + 4 * c + d) by ring.
  rewrite <- (Z.div_unique (400 * a + 100 * b + 4 * c + d) 4 (100 * a + 25 * b + c) d) by lia.
  rewrite <- (Z.div_unique (400 * a + 100 * b + 4 * c + d) 100 (4 * a + b) (4 * c + d)) by lia.
  rewrite <- (Z.div_unique (400 * a + 100 * b + 4 * c + d) 400 a (100 * b + 4 * c + d)) by lia. ring.
Qed.
Lemma year_of_dayn_spec n : let y := year_of_dayn n in
  days_before_year y < n <= days_before_year (y + 1).
Proof.
  cbv zeta. unfold year_of_dayn. cbv zeta. set (n0 := n - 1).
  assert (Hn := Z.div_mod n0 146097). assert (Hr := Z.mod_pos_bound n0 146097).
  set (a := n0 / 146097) in *. set (r := n0 mod 146097) in *.
  assert (Hb := Z.div_mod r 36524). assert (Hb' := Z.mod_pos_bound r 36524).
  set (q := r / 36524) in *. set (b := Z.min 3 q).
  assert (0 <= b <= 3) as B by (unfold b; lia).
  set (r2 := r - b * 36524).
  assert (0 <= r2 <= 36524 /\ (r2 = 36524 -> b = 3)) as [R2 R2'] by (unfold r2, b; lia).
  assert (Hc := Z.div_mod r2 1461). assert (Hc' := Z.mod_pos_bound r2 1461).
  set (c := r2 / 1461) in *. set (r3 := r2 mod 1461) in *.
  assert (0 <= c <= 24) as C by lia.
  assert (Hd := Z.div_mod r3 365). assert (Hd' := Z.mod_pos_bound r3 365).
  set (q3 := r3 / 365) in *. set (d := Z.min 3 q3).
  assert (0 <= d <= 3) as D by (unfold d; lia).
  set (r4 := r3 - 365 * d).
  assert (0 <= r4 <= 365 /\ (r4 = 365 -> d = 3)) as [R4 R4'] by (unfold r4, d; lia).
  rewrite (days_before_year_succ (400 * a + 100 * b + 4 * c + d + 1)), days_before_year_cycles by assumption.
  assert (n = 146097 * a + 36524 * b + 1461 * c + 365 * d + r4 + 1) as E by (unfold r4, r2, n0 in *; lia).
  assert (Y := year_len_bounds (400 * a + 100 * b + 4 * c + d + 1)).
  split; [lia|]. destruct (Z.eq_dec r4 365) as [E4|E4]; [|lia].
  (* the last day of a leap year *)
  assert (d = 3) by auto.
  assert (leap (400 * a + 100 * b + 4 * c + d + 1) = true) as L.
  { apply leap_iff. assert (r3 = 1460) by (unfold r4 in E4; lia).
    destruct (Z.eq_dec c 24) as [Ec|Ec].
    - right. assert (r2 = 36524) by lia. assert (b = 3) by auto. exists (a + 1). lia.
    - left. split; [exists (100 * a + 25 * b + c + 1); lia|]. intros (k & K). lia. }
  unfold year_len. rewrite L. lia.
Qed.
Lemma month_of_spec y r : 1 <= r <= year_len y ->
  let m := month_of y r [2; 3; 4; 5; 6; 7; 8; 9; 10; 11; 12] 1 in
  1 <= m <= 12 /\ days_before_month y m < r <= days_before_month y m + month_len y m.
Proof.
  intros R. cbv zeta. unfold year_len in R.
  repeat (cbn [month_of]; match goal with
  | |- context [if days_before_month y ?k <? r then _ else _] =>
      destruct (Z.ltb_spec (days_before_month y k) r)
  end);
  match goal with |- context [month_of] => cbn [month_of] | _ => idtac end;
  split; try lia; unfold days_before_month, month_len in *; cbn in *; destruct (leap y); lia.
Qed.
Lemma of_dayn_Some n x : of_dayn n = Some x <-> dayn x = n.
Proof.
  assert (forall y, of_dayn n = Some y -> dayn y = n) as A.
  { intros y H. unfold of_dayn in H. cbv zeta in H. apply from_ymd_Some in H. destruct H as (Ey & Em & Ed).
    unfold dayn, dayn_ymd. rewrite Ey, Em, Ed. ring. }
  split; [apply A|]. intro E. subst n.
  assert (Y := year_of_dayn_spec (dayn x)). cbv zeta in Y.
  assert (P := dayn_in_year x).
  assert (year_of_dayn (dayn x) = year x) as EY.
  { destruct (Z.lt_trichotomy (year_of_dayn (dayn x)) (year x)) as [L|[L|L]]; [|exact L|].
    - assert (K := days_before_year_mono _ _ L). rewrite days_before_year_succ in Y. lia.
    - assert (K := days_before_year_mono _ _ L). lia. }
  unfold of_dayn. cbv zeta. rewrite EY. set (r := dayn x - days_before_year (year x)).
  assert (1 <= r <= year_len (year x)) as R by (unfold r; lia).
  assert (M := month_of_spec (year x) r R). cbv zeta in M.
  set (m := month_of (year x) r [2; 3; 4; 5; 6; 7; 8; 9; 10; 11; 12] 1) in *.
  destruct M as [M1 M2]. destruct (date_bounds x) as (YB & MB & DB).
  assert (r = days_before_month (year x) (month x) + day x) as ER by (unfold r, dayn, dayn_ymd; ring).
  assert (m = month x) as EM.
  { destruct (Z.lt_trichotomy m (month x)) as [L|[L|L]]; [|exact L|].
    - assert (K := days_before_month_mono (year x) m (month x)). lia.
    - assert (K := days_before_month_mono (year x) (month x) m). lia. }
  rewrite EM. apply from_ymd_Some. repeat split. lia.
Qed.
Definition first_dayn : Z := dayn_ymd min_year 1 1.
Definition last_dayn : Z := dayn_ymd max_year 12 31.
Lemma of_dayn_range n : (exists x, of_dayn n = Some x) <-> first_dayn <= n <= last_dayn.
Proof.
  split.
  - intros (x & H). apply of_dayn_Some in H. subst n. assert (P := dayn_in_year x).
    destruct (date_bounds x) as (YB & MB & DB).
    assert (first_dayn = days_before_year min_year + 1) as F by reflexivity.
    assert (last_dayn = days_before_year max_year + 365) as L by reflexivity.
    assert (year_len max_year = 365) as YL by reflexivity. split.
    + destruct (Z.eq_dec (year x) min_year) as [E|E]; [rewrite E in P; lia|].
      assert (K := days_before_year_mono min_year (year x)). assert (B := year_len_bounds min_year). lia.
    + destruct (Z.eq_dec (year x) max_year) as [E|E]; [rewrite E in P; lia|].
      assert (K := days_before_year_mono (year x) max_year). assert (B := year_len_bounds (year x)). lia.
  - intro H. assert (Y := year_of_dayn_spec n). cbv zeta in Y. unfold of_dayn. cbv zeta.
    set (y := year_of_dayn n) in *. set (r := n - days_before_year y).
    rewrite days_before_year_succ in Y.
    assert (1 <= r <= year_len y) as R by (unfold r; lia).
    assert (M := month_of_spec y r R). cbv zeta in M.
    set (m := month_of y r [2; 3; 4; 5; 6; 7; 8; 9; 10; 11; 12] 1) in *. destruct M as [M1 M2].
    assert (first_dayn = days_before_year min_year + 1) as F by reflexivity.
    assert (last_dayn = days_before_year max_year + 365) as L by reflexivity.
    assert (year_len max_year = 365) as YL by reflexivity.
    assert (min_year <= y <= max_year) as YB.
    { split.
      - destruct (Z_lt_le_dec y min_year) as [K|K]; [|exact K]. apply days_before_year_mono in K. lia.
      - destruct (Z_lt_le_dec max_year y) as [K|K]; [|exact K]. apply days_before_year_mono in K. lia. }
    unfold from_ymd. destruct (bool_dec (valid_ymd y m (r - days_before_month y m)) true) as [V|V]; [eexists; reflexivity|].
    destruct V. apply valid_iff. split; [exact YB|]. split; [exact M1|]. lia.
Qed.
Lemma add_days_Some x n y : add_days x n = Some y <-> dayn y = dayn x + n.
Proof. apply of_dayn_Some. Qed.
Lemma add_days_total x n : first_dayn <= dayn x + n <= last_dayn -> exists y, add_days x n = Some y.
Proof. apply of_dayn_range. Qed.
Lemma dayn_bounds x : first_dayn <= dayn x <= last_dayn.
Proof. apply of_dayn_range. exists x. apply of_dayn_Some. reflexivity. Qed.

(** ** Tomorrow *)
Lemma tomorrow_dayn x y : tomorrow x y <-> dayn y = dayn x + 1.
Proof.
  assert (forall a b, tomorrow a b -> dayn b = dayn a + 1) as T.
  { intros a b H. destruct (date_bounds a) as (_ & MA & DA). destruct (date_bounds b) as (_ & MB & DB).
    unfold dayn, dayn_ymd. destruct H as [(Y & M & D)|[(Y & M & D & E)|(Y & M & D & E & F)]]; rewrite Y, M, D.
    - lia.
    - rewrite days_before_month_succ by lia. lia.
    - rewrite days_before_year_succ, days_before_month_1. rewrite E, F. assert (K := days_before_month_12 (year a)). lia. }
  split; [apply T|]. intro E.
  destruct (date_bounds x) as (YB & MB & DB).
  assert (forall z, tomorrow x z -> tomorrow x y) as U.
  { intros z Hz. replace y with z; [exact Hz|]. apply dayn_inj. rewrite (T _ _ Hz). lia. }
  destruct (Z_lt_le_dec (day x) (month_len (year x) (month x))) as [L|L].
  - assert (valid_ymd (year x) (month x) (day x + 1) = true) as V by (apply valid_iff; lia).
    apply (U (mkDate _ _ _ V)). left. cbn. auto.
  - destruct (Z.eq_dec (month x) 12) as [E12|N12].
    + assert (day x = 31) as D31 by (rewrite E12 in *; cbn in *; lia).
      destruct (Z.eq_dec (year x) max_year) as [EM|NM].
      * exfalso. assert (B := dayn_bounds y). assert (dayn x = last_dayn) as K; [|lia].
        unfold dayn, last_dayn. rewrite EM, E12, D31. reflexivity.
      * assert (valid_ymd (year x + 1) 1 1 = true) as V by (apply valid_iff; cbn; lia).
        apply (U (mkDate _ _ _ V)). right. right. cbn. auto.
    + assert (valid_ymd (year x) (month x + 1) 1 = true) as V.
      { apply valid_iff. assert (K := month_len_bounds (year x) (month x + 1)). lia. }
      apply (U (mkDate _ _ _ V)). right. left. cbn. repeat split; lia.
Qed.
Lemma days_later_dayn n : forall x y, days_later n x y <-> dayn y = dayn x + Z.of_nat n.
Proof.
  induction n as [|n IH]; intros x y; cbn [days_later].
  - rewrite Z.add_0_r. split; [intros ->; reflexivity|]. intro H. symmetry. apply dayn_inj, H.
  - split.
    + intros (z & H & T). apply IH in H. apply tomorrow_dayn in T. lia.
    + intro H. assert (B := dayn_bounds x). assert (B' := dayn_bounds y).
      destruct (proj2 (of_dayn_range (dayn y - 1))) as (z & Hz); [lia|]. apply of_dayn_Some in Hz.
      exists z. split; [apply IH; lia|apply tomorrow_dayn; lia].
Qed.
Lemma add_days_later x n y : add_days x (Z.of_nat n) = Some y <-> days_later n x y.
Proof. rewrite add_days_Some, days_later_dayn. tauto. Qed.
Lemma add_days_before x n y : add_days x (- Z.of_nat n) = Some y <-> days_later n y x.
Proof. rewrite add_days_Some, days_later_dayn. lia. Qed.
Lemma weekday_tomorrow x y : tomorrow x y -> weekday_of y = (weekday_of x + 1) mod 7.
Proof.
  intro T. apply tomorrow_dayn in T. unfold weekday_of. rewrite T.
  rewrite Zplus_mod_idemp_l. f_equal. ring.
Qed.
