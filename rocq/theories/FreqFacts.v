(** Due dates. *)
From Coq Require Import ZArith NArith List Bool String Lia.
From Verif Require Import Base Str F64 Date Envelope SpecDate DateFormat DateFacts EntryFacts.
Import ListNotations.
Local Open Scope Z_scope.

Opaque dayn of_dayn first_dayn last_dayn.

(** ** Helpers *)
Definition midx (x : date) : Z := 12 * year x + month x.
Lemma midx_eq x y : midx x = midx y -> year x = year y /\ month x = month y.
Proof. unfold midx. destruct (date_bounds x) as (_ & A & _), (date_bounds y) as (_ & B & _). lia. Qed.
Lemma midx_lt x y : midx x < midx y -> earlier x y.
Proof. unfold midx, earlier. destruct (date_bounds x) as (_ & A & _), (date_bounds y) as (_ & B & _). lia. Qed.
Lemma midx_day_le x y : midx x = midx y -> day x <= day y -> not_later x y.
Proof.
  intros M D. destruct (midx_eq _ _ M) as [A B]. destruct (Z.eq_dec (day x) (day y)) as [E|E].
  - left. apply date_eq; assumption.
  - right. unfold earlier. lia.
Qed.
Lemma earlier_midx x y : earlier x y -> midx x < midx y \/ (midx x = midx y /\ day x < day y).
Proof. unfold midx, earlier. destruct (date_bounds x) as (_ & A & _), (date_bounds y) as (_ & B & _). lia. Qed.
Lemma earlier_irrefl x y : earlier x y -> not_later y x -> False.
Proof. rewrite earlier_dayn, not_later_dayn. lia. Qed.
Lemma earlier_or x y : earlier x y \/ not_later y x.
Proof. rewrite earlier_dayn, not_later_dayn. lia. Qed.
Lemma not_later_refl x : not_later x x.
Proof. left. reflexivity. Qed.
Lemma not_later_trans x y z : not_later x y -> not_later y z -> not_later x z.
Proof. rewrite !not_later_dayn. lia. Qed.
Lemma make_date y m d : min_year <= y <= max_year -> 1 <= m <= 12 -> 1 <= d <= month_len y m ->
  exists x, from_ymd y m d = Some x /\ year x = y /\ month x = m /\ day x = d.
Proof.
  intros A B C. assert (valid_ymd y m d = true) as V by (apply valid_iff; auto).
  exists (mkDate y m d V). split; [|auto]. apply from_ymd_Some. auto.
Qed.
Lemma pred_of_first x l : day x = 1 -> midx x = midx l + 1 -> day l = month_len (year l) (month l) ->
  pred_date x = Some l.
Proof.
  intros D M L. unfold pred_date. apply add_days_Some. assert (tomorrow l x) as T; [|apply tomorrow_dayn in T; lia].
  unfold midx in M. destruct (date_bounds x) as (_ & A & _), (date_bounds l) as (_ & B & _).
  destruct (Z.eq_dec (month l) 12) as [E|E].
  - right. right. repeat split; try lia. rewrite L, E. reflexivity.
  - right. left. repeat split; lia.
Qed.
Lemma month_end y m : min_year <= y <= max_year -> 1 <= m <= 12 ->
  exists x, year x = y /\ month x = m /\ day x = month_len y m.
Proof.
  intros A B. assert (K := month_len_bounds y m B).
  destruct (make_date y m (month_len y m)) as (x & _ & H); [lia..|]. exists x. exact H.
Qed.
Lemma far_from_end x : year x < max_year -> dayn x + 365 <= last_dayn.
Proof.
  intro H. apply days_before_year_mono in H. assert (K := dayn_in_year x).
  assert (last_dayn = days_before_year max_year + 365) as L by reflexivity. lia.
Qed.

(** ** The last date of a month *)
Lemma last_date_Ok d : year d < max_year \/ month d < 12 ->
  exists x, last_date_of_month d = Ok x /\ year x = year d /\ month x = month d
    /\ day x = month_len (year d) (month d).
Proof.
  intro H. destruct (date_bounds d) as (A & B & _). destruct (month_end _ _ A B) as (l & Y & M & D).
  exists l. split; [|auto]. unfold last_date_of_month.
  destruct (Z.eq_dec (month d) 12) as [E|E].
  - assert (from_ymd (year d) (month d + 1) 1 = None) as ->.
    { apply from_ymd_None. destruct (valid_ymd (year d) (month d + 1) 1) eqn:V; [|reflexivity].
      apply valid_iff in V. lia. }
    destruct (make_date (year d + 1) 1 1) as (x & -> & X1 & X2 & X3); [lia..|cbn; lia|].
    cbn. rewrite (pred_of_first x l); [reflexivity|assumption| |congruence].
    unfold midx. lia.
  - destruct (make_date (year d) (month d + 1) 1) as (x & -> & X1 & X2 & X3); [lia..| |].
    { assert (K := month_len_bounds (year d) (month d + 1)). lia. }
    cbn. rewrite (pred_of_first x l); [reflexivity|assumption| |congruence].
    unfold midx. lia.
Qed.

(** ** Monthly *)
Lemma with_day_due x l n : year l = year x -> month l = month x -> day l = month_len (year x) (month x) ->
  let d := match with_day x n with Some d => d | None => l end in
  year d = year x /\ month d = month x /\ day d = due_day n (year x) (month x).
Proof.
  intros A B C. cbv zeta. destruct (date_bounds x) as (Y & M & _). unfold with_day, due_day.
  destruct (Z.leb_spec 1 n); [destruct (Z.leb_spec n (month_len (year x) (month x)))|]; cbn [andb].
  - destruct (make_date (year x) (month x) n) as (d & -> & E); [lia..|exact E].
  - assert (from_ymd (year x) (month x) n = None) as ->; [|auto].
    apply from_ymd_None. destruct (valid_ymd (year x) (month x) n) eqn:V; [|reflexivity].
    apply valid_iff in V. lia.
  - assert (from_ymd (year x) (month x) n = None) as ->; [|auto].
    apply from_ymd_None. destruct (valid_ymd (year x) (month x) n) eqn:V; [|reflexivity].
    apply valid_iff in V. lia.
Qed.
Definition monthly_due (n : Z) (x : date) : Prop := day x = due_day n (year x) (month x).
Lemma next_month_end today : year today < max_year ->
  let next_month := ((month today - 1 + 2) mod 12) + 1 in
  exists l, midx l = midx today + 1 /\ day l = month_len (year l) (month l)
    /\ (let! x := match from_ymd (year today) (month today + 2) 1 with
                  | Some x => Ok x
                  | None => unwrap (from_ymd (year today + 1) next_month 1)
                  end in unwrap (pred_date x)) = Ok l.
Proof.
  intro H. destruct (date_bounds today) as (A & B & _). cbv zeta.
  assert (exists l, midx l = midx today + 1 /\ day l = month_len (year l) (month l)) as (l & L1 & L2).
  { destruct (Z.eq_dec (month today) 12) as [E|E].
    - destruct (month_end (year today + 1) 1) as (l & Y & M & D); [lia..|]. exists l. unfold midx. split; [lia|congruence].
    - destruct (month_end (year today) (month today + 1)) as (l & Y & M & D); [lia..|]. exists l. unfold midx. split; [lia|congruence]. }
  exists l. repeat split; [assumption..|].
  destruct (Z_le_gt_dec (month today) 10) as [C|C].
  - destruct (make_date (year today) (month today + 2) 1) as (x & -> & X1 & X2 & X3); [lia..| |].
    { assert (K := month_len_bounds (year today) (month today + 2)). lia. }
    cbn. rewrite (pred_of_first x l); [reflexivity|assumption| |assumption]. unfold midx in *. lia.
  - assert (from_ymd (year today) (month today + 2) 1 = None) as ->.
    { apply from_ymd_None. destruct (valid_ymd (year today) (month today + 2) 1) eqn:V; [|reflexivity].
      apply valid_iff in V. lia. }
    assert ((month today - 1 + 2) mod 12 = month today - 11) as ->.
    { symmetry. apply (Z.mod_unique _ 12 1); lia. }
    destruct (make_date (year today + 1) (month today - 11 + 1) 1) as (x & -> & X1 & X2 & X3); [lia..| |].
    { assert (K := month_len_bounds (year today + 1) (month today - 11 + 1)). lia. }
    cbn. rewrite (pred_of_first x l); [reflexivity|assumption| |assumption]. unfold midx in *. lia.
Qed.
Lemma monthly_next today n : year today < max_year ->
  exists d, next_by_day_of_month today n = Ok d
    /\ earliest (fun x => earlier today x /\ monthly_due n x) d
    /\ (midx d = midx today \/ (midx d = midx today + 1 /\ due_day n (year today) (month today) <= day today)).
Proof.
  intro H. destruct (last_date_Ok today) as (l & E & LY & LM & LD); [lia|].
  unfold next_by_day_of_month. rewrite E. cbn [bind].
  assert (W := with_day_due today l n LY LM LD). cbv zeta in W |- *.
  set (due := match with_day today n with Some d => d | None => l end) in *.
  destruct W as (WY & WM & WD). destruct (date_ltb today due) eqn:T.
  - apply date_ltb_iff in T. exists due. split; [reflexivity|]. split; [split|].
    + split; [exact T|]. unfold monthly_due. rewrite WD, WY, WM. reflexivity.
    + intros d' [D1 D2]. destruct (earlier_midx _ _ D1) as [M|(M & _)].
      * right. apply midx_lt. unfold midx in *. lia.
      * destruct (midx_eq _ _ M) as [MY MM]. apply midx_day_le; [unfold midx; lia|].
        unfold monthly_due in D2. rewrite D2, WD, MY, MM. lia.
    + left. unfold midx. lia.
  - assert (day due <= day today) as Dt.
    { destruct (Z_le_gt_dec (day due) (day today)); [assumption|].
      assert (earlier today due) as X by (unfold earlier; lia). apply date_ltb_iff in X. congruence. }
    destruct (next_month_end today H) as (ln & L1 & L2 & L3). cbv zeta in L3.
    assert (forall (K : date -> res date), (let! x := match from_ymd (year today) (month today + 2) 1 with
                  | Some x => Ok x
                  | None => unwrap (from_ymd (year today + 1) ((month today - 1 + 2) mod 12 + 1) 1)
                  end in let! y := unwrap (pred_date x) in K y) = K ln) as R.
    { intro K. destruct (match from_ymd (year today) (month today + 2) 1 with
                  | Some x => Ok x
                  | None => unwrap (from_ymd (year today + 1) ((month today - 1 + 2) mod 12 + 1) 1)
                  end); cbn [bind] in *; try discriminate. rewrite L3. reflexivity. }
    rewrite R.
    assert (W' := with_day_due ln ln n eq_refl eq_refl L2). cbv zeta in W'.
    set (d := match with_day ln n with Some d => d | None => ln end) in *. destruct W' as (DY & DM & DD).
    assert (midx d = midx today + 1) as Md by (unfold midx in *; lia).
    exists d. split; [reflexivity|]. split; [split|].
    + split; [apply midx_lt; lia|]. unfold monthly_due. rewrite DD, DY, DM. reflexivity.
    + intros d' [D1 D2]. unfold monthly_due in D2. destruct (earlier_midx _ _ D1) as [M|(M & M')].
      * destruct (Z.eq_dec (midx d') (midx d)) as [Q|Q]; [|right; apply midx_lt; lia].
        destruct (midx_eq _ _ Q) as [QY QM]. apply midx_day_le; [auto|].
        rewrite D2, DD, QY, QM, DY, DM. lia.
      * destruct (midx_eq _ _ M) as [MY MM]. rewrite <- MY, <- MM in D2. lia.
    + right. split; [exact Md|]. lia.
Qed.

(** ** Weekly *)
Lemma weekly_loop_Ok w fuel : forall d j, 0 <= j <= Z.of_nat fuel ->
  dayn d + j <= last_dayn -> (dayn d + j - 1) mod 7 = weekday_num w ->
  exists d', weekly_loop fuel w d = Ok d' /\ weekday_of d' = weekday_num w
    /\ dayn d <= dayn d' <= dayn d + j
    /\ (forall i, dayn d <= i < dayn d' -> (i - 1) mod 7 <> weekday_num w).
Proof.
  induction fuel as [|fuel IH]; intros d j J L W; cbn [weekly_loop]; destruct (Z.eqb_spec (weekday_of d) (weekday_num w)) as [E|E].
  - exists d. repeat split; [exact E|lia|lia|]. intros i I. lia.
  - replace j with 0 in W by lia. rewrite Z.add_0_r in W. contradiction.
  - exists d. repeat split; [exact E|lia|lia|]. intros i I. lia.
  - assert (j <> 0) as J0. { intros ->. rewrite Z.add_0_r in W. contradiction. }
    assert (B := dayn_bounds d). destruct (add_days_total d 1) as (d1 & D1); [lia|].
    rewrite D1. cbn [unwrap bind]. apply add_days_Some in D1.
    destruct (IH d1 (j - 1)) as (d' & -> & A & R & M); [lia|lia| |].
    { rewrite <- W. f_equal. lia. }
    exists d'. repeat split; [exact A|lia|lia|]. intros i I.
    destruct (Z.eq_dec i (dayn d)) as [->|N]; [exact E|]. apply M. lia.
Qed.
Lemma weekday_num_bounds w : 0 <= weekday_num w < 7.
Proof. destruct w; cbn; lia. Qed.
Lemma weekly_next today w : year today < max_year ->
  exists d, freq_next today (Weekly w) = Ok (Some d) /\ weekday_of d = weekday_num w
    /\ dayn today + 1 <= dayn d <= dayn today + 7
    /\ (forall i, dayn today < i < dayn d -> (i - 1) mod 7 <> weekday_num w).
Proof.
  intro H. apply far_from_end in H. cbn [freq_next].
  assert (B := dayn_bounds today). destruct (add_days_total today 1) as (t & T); [lia|].
  rewrite T. cbn [unwrap bind]. apply add_days_Some in T.
  assert (V := weekday_num_bounds w).
  assert (Q := Z.mod_pos_bound (weekday_num w - dayn today) 7 ltac:(lia)).
  assert (Q' := Z.div_mod (weekday_num w - dayn today) 7 ltac:(lia)).
  set (j := (weekday_num w - dayn today) mod 7) in *.
  destruct (weekly_loop_Ok w 6 t j) as (d & E & W & R & M); [cbn; lia|lia| |].
  { symmetry. apply (Z.mod_unique _ 7 (- ((weekday_num w - dayn today) / 7))); lia. }
  rewrite E. cbn [bind]. exists d. repeat split; [exact W|lia|lia|].
  intros i I. apply M. lia.
Qed.

(** ** Biweekly *)
Lemma fortnight_dayn start x : fortnight start x <-> exists k, 0 <= k /\ dayn x = dayn start + 14 * k.
Proof.
  unfold fortnight. split.
  - intros (k & H). apply days_later_dayn in H. exists (Z.of_nat k). lia.
  - intros (k & K & H). exists (Z.to_nat k). apply days_later_dayn. lia.
Qed.
Lemma biweekly_next today start : year today < max_year -> not_later start today ->
  exists d, freq_next today (Biweekly start) = Ok (Some d)
    /\ earliest (fun x => earlier today x /\ fortnight start x) d
    /\ dayn today < dayn d <= dayn today + 14.
Proof.
  intros H S. apply far_from_end in H. apply not_later_dayn in S. cbn [freq_next].
  unfold days_since. rewrite (Z.quot_div_nonneg (dayn today - dayn start) 7) by lia.
  rewrite Z.quot_div_nonneg by (try apply Z.div_pos; lia).
  rewrite Z.div_div by lia. change (7 * 2) with 14.
  assert (P := Z.mod_pos_bound (dayn today - dayn start) 14 ltac:(lia)).
  assert (Q := Z.div_mod (dayn today - dayn start) 14 ltac:(lia)).
  set (q := (dayn today - dayn start) / 14) in *. set (r := (dayn today - dayn start) mod 14) in *.
  assert (B := dayn_bounds start).
  destruct (add_days_total start (7 * ((q + 1) * 2))) as (d & D); [lia|]. rewrite D. cbn [unwrap bind].
  apply add_days_Some in D. exists d. split; [reflexivity|]. split; [split|lia].
  - split; [apply earlier_dayn; lia|]. apply fortnight_dayn. exists (q + 1). lia.
  - intros d' [A F]. apply earlier_dayn in A. apply fortnight_dayn in F. destruct F as (k & K & F).
    apply not_later_dayn. assert (q + 1 <= k); [|lia]. lia.
Qed.

(** ** Bimonthly *)
Definition nth_other (start : date) (k : Z) (x : date) : Prop :=
  midx x = midx start + 2 * k /\ day x = Z.min (day start) (month_len (year x) (month x)).
Lemma nth_other_start start : nth_other start 0 start.
Proof. split; [lia|]. destruct (date_bounds start) as (_ & _ & D). lia. Qed.
Lemma every_other_month_nth start x : every_other_month start x <-> exists k, 0 <= k /\ nth_other start k x.
Proof.
  unfold every_other_month, nth_other, midx. split.
  - intros (k & A & B). exists (Z.of_nat k). split; [lia|]. split; [lia|exact B].
  - intros (k & K & A & B). exists (Z.to_nat k). split; [lia|exact B].
Qed.
Lemma nth_other_unique start k x y : nth_other start k x -> nth_other start k y -> x = y.
Proof.
  intros [A B] [C D]. destruct (midx_eq x y) as [E F]; [lia|]. apply date_eq; [exact E|exact F|].
  rewrite B, D, E, F. reflexivity.
Qed.
Lemma nth_other_lt start j k x y : nth_other start j x -> nth_other start k y -> j < k -> earlier x y.
Proof. intros [A _] [B _] L. apply midx_lt. lia. Qed.
Lemma nth_other_step start k x : year x < max_year -> nth_other start k x ->
  exists y, bimonthly_step (day start) x = Ok y /\ nth_other start (k + 1) y.
Proof.
  intros H [A B]. destruct (date_bounds x) as (XY & XM & _). destruct (date_bounds start) as (_ & SM & SD).
  unfold bimonthly_step. cbv zeta.
  assert (C := Z.mod_pos_bound (month x - 1 + 2) 12 ltac:(lia)).
  assert (D := Z.div_mod (month x - 1 + 2) 12 ltac:(lia)).
  set (ny := year x + (month x - 1 + 2) / 12) in *. set (nm := (month x - 1 + 2) mod 12 + 1) in *.
  assert (12 * ny + nm = midx start + 2 * (k + 1)) as E by (unfold ny, nm, midx in *; lia).
  assert (min_year <= ny <= max_year) as NY by (unfold ny; lia).
  assert (1 <= nm <= 12) as NM by (unfold nm; lia).
  assert (ML := month_len_bounds ny nm NM).
  destruct (Z_le_gt_dec (day start) (month_len ny nm)) as [L|L].
  - destruct (make_date ny nm (day start)) as (y & -> & Y & M & Dy); [lia..|].
    exists y. split; [reflexivity|]. split; [unfold midx in *; lia|]. rewrite Y, M, Dy. lia.
  - assert (from_ymd ny nm (day start) = None) as ->.
    { apply from_ymd_None. destruct (valid_ymd ny nm (day start)) eqn:V; [|reflexivity]. apply valid_iff in V. lia. }
    destruct (make_date ny nm 1) as (y & -> & Y & M & Dy); [lia..|]. cbn [unwrap bind].
    assert (nm <> 12) as N12.
    { intro Q. rewrite Q in L. change (month_len ny 12) with 31 in L.
      assert (Z31 := month_len_bounds (year start) (month start) SM). lia. }
    destruct (last_date_Ok y) as (z & -> & ZY & ZM & ZD); [lia|].
    exists z. split; [reflexivity|]. split; [unfold midx in *; lia|]. rewrite ZD, ZY, ZM, Y, M. lia.
Qed.
Lemma bimonthly_loop_Ok today start : year today < max_year -> forall fuel k x,
  0 <= k -> nth_other start k x -> (forall j y, 0 <= j < k -> nth_other start j y -> earlier y today) ->
  midx today < midx x + 2 * Z.of_nat fuel ->
  exists j d, bimonthly_loop fuel today (day start) x = Ok d /\ k <= j /\ nth_other start j d
    /\ not_later today d /\ (forall i y, 0 <= i < j -> nth_other start i y -> earlier y today).
Proof.
  intro H. induction fuel as [|fuel IH]; intros k x K X P F; cbn [bimonthly_loop]; destruct (date_ltb x today) eqn:T.
  - apply date_ltb_iff in T. apply earlier_midx in T. lia.
  - exists k, x. split; [reflexivity|]. split; [lia|]. split; [exact X|]. split; [|exact P]. destruct (earlier_or x today) as [L|L]; [|exact L].
    apply date_ltb_iff in L. congruence.
  - apply date_ltb_iff in T. assert (year x < max_year) as Hx by (unfold earlier in T; lia).
    destruct (nth_other_step _ _ _ Hx X) as (y & -> & Y). cbn [bind].
    destruct (IH (k + 1) y) as (j & d & E & J & R); [lia|exact Y| | |].
    + intros i z I Z. destruct (Z.eq_dec i k) as [->|N]; [|apply (P i z); [lia|exact Z]].
      rewrite (nth_other_unique _ _ _ _ Z X). exact T.
    + destruct X as [X _], Y as [Y _]. lia.
    + exists j, d. split; [exact E|]. split; [lia|exact R].
  - exists k, x. split; [reflexivity|]. split; [lia|]. split; [exact X|]. split; [|exact P]. destruct (earlier_or x today) as [L|L]; [|exact L].
    apply date_ltb_iff in L. congruence.
Qed.
Lemma bimonthly_next today start : year today < max_year ->
  exists k d, freq_next today (Bimonthly start) = Ok (Some d) /\ 0 <= k /\ nth_other start k d
    /\ not_later today d /\ (forall j y, 0 <= j < k -> nth_other start j y -> earlier y today).
Proof.
  intro H. cbn [freq_next]. destruct (date_ltb today start) eqn:T.
  - apply date_ltb_iff in T. exists 0, start. split; [reflexivity|]. split; [lia|]. split; [apply nth_other_start|].
    split; [right; exact T|]. intros; lia.
  - assert (not_later start today) as L.
    { destruct (earlier_or today start) as [L|L]; [|exact L]. apply date_ltb_iff in L. congruence. }
    assert (year start <= year today) as Y by (destruct L as [->|L]; [lia|unfold earlier in L; lia]).
    destruct (bimonthly_loop_Ok today start H (Z.to_nat (6 * (year today - year start) + 7)) 0 start) as (k & d & E & R).
    + lia.
    + apply nth_other_start.
    + intros; lia.
    + unfold midx. destruct (date_bounds today) as (_ & A & _), (date_bounds start) as (_ & B & _). lia.
    + rewrite E. cbn [bind]. exists k, d. split; [reflexivity|exact R].
Qed.
Lemma bimonthly_earliest today start k d : 0 <= k -> nth_other start k d -> not_later today d ->
  (forall j y, 0 <= j < k -> nth_other start j y -> earlier y today) ->
  earliest (fun x => not_later today x /\ every_other_month start x) d.
Proof.
  intros K N L P. split.
  - split; [exact L|]. apply every_other_month_nth. exists k. auto.
  - intros d' [A B]. apply every_other_month_nth in B. destruct B as (j & J & B).
    destruct (Z.lt_trichotomy j k) as [C|[->|C]].
    + exfalso. apply (earlier_irrefl d' today); [apply (P j); [lia|exact B]|exact A].
    + rewrite (nth_other_unique _ _ _ _ B N). left. reflexivity.
    + right. apply (nth_other_lt start k j); assumption.
Qed.

(** ** Annual *)
Lemma annual_next_future today start : earlier today start ->
  freq_next today (Annually start) = Ok (Some start)
  /\ earliest (fun x => earlier today x /\ anniversary start x) start.
Proof.
  intro H. cbn [freq_next]. rewrite (proj2 (date_ltb_iff _ _) H). split; [reflexivity|]. split.
  - split; [exact H|]. unfold anniversary. lia.
  - intros d' (A & B & C & D). destruct (Z.eq_dec (year start) (year d')) as [E|E].
    + left. apply date_eq; congruence.
    + right. unfold earlier. lia.
Qed.
Lemma annual_next_past today start : not_later start today -> year start < max_year ->
  ~ (month start = 2 /\ day start = 29) ->
  exists d, freq_next today (Annually start) = Ok (Some d) /\ year d = year start + 1
    /\ month d = month start /\ day d = day start.
Proof.
  intros H Y N. cbn [freq_next].
  destruct (date_ltb today start) eqn:T.
  { apply date_ltb_iff in T. destruct (earlier_irrefl _ _ T H). }
  unfold with_year. destruct (date_bounds start) as (SY & SM & SD).
  destruct (make_date (year start + 1) (month start) (day start)) as (d & -> & R); [lia..| |exists d; auto].
  destruct (Z.eq_dec (month start) 2) as [E|E].
  - rewrite E in *. assert (28 <= month_len (year start + 1) 2) by (cbn; destruct (leap (year start + 1)); lia).
    assert (month_len (year start) 2 <= 29) by (cbn; destruct (leap (year start)); lia). lia.
  - replace (month_len (year start + 1) (month start)) with (month_len (year start) (month start)); [lia|].
    clear - E. unfold month_len. destruct (month start) as [|[[[]|[]|]|[[]|[]|]|]|]; try reflexivity; congruence.
Qed.

(** ** Last due dates *)
Lemma subtract_months_Ok d n : year d - n > min_year -> 0 <= n -> 
  (exists l, subtract_months d n = Ok l /\ midx l = midx d - n /\ day l = day d)
  \/ (subtract_months d n = Panic
      /\ forall l, midx l = midx d - n -> month_len (year l) (month l) < day d).
Proof.
  intros H N0. unfold subtract_months. cbv zeta. destruct (date_bounds d) as (DY & DM & DD).
  assert (C := Z.mod_pos_bound (month d - 1 - n) 12 ltac:(lia)).
  assert (D := Z.div_mod (month d - 1 - n) 12 ltac:(lia)).
  set (ny := year d + (month d - 1 - n) / 12) in *. set (nm := (month d - 1 - n) mod 12 + 1) in *.
  assert (12 * ny + nm = midx d - n) as E by (unfold ny, nm, midx in *; lia).
  assert (min_year <= ny <= max_year) as NY by (unfold ny; lia).
  assert (1 <= nm <= 12) as NM by (unfold nm; lia).
  destruct (Z_le_gt_dec (day d) (month_len ny nm)) as [L|L].
  - left. destruct (make_date ny nm (day d)) as (l & -> & Y & M & Dl); [lia..|]. exists l.
    split; [reflexivity|]. split; [unfold midx in *; lia|exact Dl].
  - right. assert (from_ymd ny nm (day d) = None) as ->.
    { apply from_ymd_None. destruct (valid_ymd ny nm (day d)) eqn:V; [|reflexivity]. apply valid_iff in V. lia. }
    split; [reflexivity|]. intros l Ml. destruct (date_bounds l) as (_ & LM & _).
    assert (year l = ny /\ month l = nm) as [-> ->] by (unfold midx in *; lia). lia.
Qed.
Definition last_ok (today : date) (f : frequency) : Prop :=
  (exists n l, freq_next today f = Ok (Some n) /\ freq_last today f = Ok (Some l)
     /\ one_period f l n /\ not_later l today)
  \/ (exists n, freq_next today f = Ok (Some n) /\ freq_last today f = Panic
     /\ forall l, ~ one_period f l n).
Lemma weekly_last_Ok today w : year today < max_year -> min_year < year today ->
  exists n l, freq_next today (Weekly w) = Ok (Some n) /\ freq_last today (Weekly w) = Ok (Some l)
     /\ one_period (Weekly w) l n /\ not_later l today.
Proof.
  intros H H'. destruct (weekly_next today w H) as (d & E & W & R & M).
  assert (B := dayn_bounds d). assert (first_dayn + 365 <= dayn today) as Q.
  { apply days_before_year_mono in H'. assert (K := dayn_in_year today). assert (Y := year_len_bounds min_year).
    assert (first_dayn = days_before_year min_year + 1) as L by reflexivity. lia. }
  destruct (add_days_total d (-7)) as (l & L); [lia|].
  exists d, l. unfold freq_last. rewrite E. cbn [bind]. rewrite L. cbn [unwrap bind].
  apply add_days_Some in L. repeat split.
  - cbn [one_period]. apply days_later_dayn. lia.
  - apply not_later_dayn. lia.
Qed.
Lemma weekly_last today w : year today < max_year -> min_year < year today -> last_ok today (Weekly w).
Proof. intros H H'. left. apply weekly_last_Ok; assumption. Qed.
Lemma biweekly_last today start : year today < max_year -> min_year < year today ->
  not_later start today -> last_ok today (Biweekly start).
Proof.
  intros H H' St. destruct (biweekly_next today start H St) as (d & E & _ & R). left.
  assert (B := dayn_bounds d). assert (first_dayn + 365 <= dayn today) as Q.
  { apply days_before_year_mono in H'. assert (K := dayn_in_year today). assert (Y := year_len_bounds min_year).
    assert (first_dayn = days_before_year min_year + 1) as L by reflexivity. lia. }
  destruct (add_days_total d (-14)) as (l & L); [lia|].
  exists d, l. unfold freq_last. rewrite E. cbn [bind]. rewrite L. cbn [unwrap bind].
  apply add_days_Some in L. repeat split.
  - cbn [one_period]. apply days_later_dayn. lia.
  - apply not_later_dayn. lia.
Qed.
Lemma due_day_le n y m y' m' k : 1 <= m' <= 12 -> k = due_day n y m -> k <= month_len y' m' -> k <= due_day n y' m'.
Proof.
  intros M -> L. unfold due_day in *.
  destruct (Z.leb_spec 1 n), (Z.leb_spec n (month_len y m)), (Z.leb_spec n (month_len y' m')); cbn in *; lia.
Qed.
Lemma monthly_last today n : year today < max_year -> min_year + 2 < year today -> last_ok today (Monthly n).
Proof.
  intros H H'. destruct (monthly_next today n H) as (d & E & [[ET ED] _] & R).
  assert (freq_next today (Monthly n) = Ok (Some d)) as F by (cbn [freq_next]; rewrite E; reflexivity).
  assert (year today <= year d) as Y by (unfold earlier in ET; lia).
  destruct (subtract_months_Ok d 1) as [(l & L & M & D)|(L & M)]; [lia..| |].
  - left. exists d, l. unfold freq_last. rewrite F. cbn [bind]. rewrite L. cbn [bind].
    repeat split; [unfold midx in M; lia|auto|].
    destruct R as [R|(R & R')].
    + right. apply midx_lt. lia.
    + destruct (midx_eq l today) as [A B]; [lia|]. apply midx_day_le; [lia|].
      destruct (date_bounds l) as (_ & LM & LD). rewrite <- A, <- B in R'.
      assert (K := due_day_le n (year d) (month d) (year l) (month l) (day d) LM ED). lia.
  - right. exists d. unfold freq_last. rewrite F. cbn [bind]. rewrite L. repeat split.
    intros l (A & B). assert (C := M l). unfold midx in C. destruct (date_bounds l) as (_ & _ & LD). lia.
Qed.
Lemma bimonthly_last today start : year today < max_year -> min_year + 3 < year today ->
  not_later start today -> last_ok today (Bimonthly start).
Proof.
  intros H H' St. destruct (bimonthly_next today start H) as (k & d & F & K & N & T & P).
  assert (year today <= year d) as Y by (destruct T as [->|T]; [lia|unfold earlier in T; lia]).
  destruct (subtract_months_Ok d 2) as [(l & L & M & D)|(L & M)]; [lia..| |].
  - left. exists d, l. unfold freq_last. rewrite F. cbn [bind]. rewrite L. cbn [bind].
    repeat split; [unfold midx in M; lia|auto|].
    destruct (Z.eq_dec k 0) as [->|K0].
    + assert (d = start) as -> by apply (nth_other_unique start 0 d start N), nth_other_start.
      apply (not_later_trans _ start); [|exact St]. right. apply midx_lt. lia.
    + destruct (date_bounds l) as (LY & LM & LD). destruct (date_bounds start) as (_ & _ & SD).
      destruct (make_date (year l) (month l) (Z.min (day start) (month_len (year l) (month l)))) as (p & _ & PY & PM & PD); [lia..|].
      assert (nth_other start (k - 1) p) as Np.
      { destruct N as [N _]. split; [unfold midx in *; lia|]. rewrite PD, PY, PM. reflexivity. }
      apply (not_later_trans _ p).
      * destruct N as [_ N]. apply midx_day_le; [unfold midx in *; lia|]. lia.
      * right. apply (P (k - 1)); [lia|exact Np].
  - right. exists d. unfold freq_last. rewrite F. cbn [bind]. rewrite L. repeat split.
    intros l (A & B). assert (C := M l). unfold midx in C. destruct (date_bounds l) as (_ & _ & LD). lia.
Qed.
Lemma annual_last today start : not_later start today -> year start < max_year -> min_year < year start ->
  ~ (month start = 2 /\ day start = 29) ->
  exists l, freq_last today (Annually start) = Ok (Some l) /\ year l = year start - 1
    /\ month l = month start /\ day l = day start /\ earlier l today.
Proof.
  intros H Y Y' N. destruct (annual_next_past today start H Y N) as (d & E & _).
  unfold freq_last. rewrite E. cbn [bind]. unfold with_year. destruct (date_bounds start) as (SY & SM & SD).
  destruct (make_date (year start - 1) (month start) (day start)) as (l & -> & LY & LM & LD); [lia..| |].
  - destruct (Z.eq_dec (month start) 2) as [Q|Q].
    + rewrite Q in *. assert (28 <= month_len (year start - 1) 2) by (cbn; destruct (leap (year start - 1)); lia).
      assert (month_len (year start) 2 <= 29) by (cbn; destruct (leap (year start)); lia). lia.
    + replace (month_len (year start - 1) (month start)) with (month_len (year start) (month start)); [lia|].
      clear - Q. unfold month_len. destruct (month start) as [|[[[]|[]|]|[[]|[]|]|]|]; try reflexivity; congruence.
  - exists l. cbn [unwrap bind]. repeat split; [assumption..|]. destruct H as [<-|H]; unfold earlier in *; lia.
Qed.
