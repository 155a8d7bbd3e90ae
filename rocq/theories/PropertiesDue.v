(** Property C108: the due dates that the program finds; and the exact
    conditions for C46, C48, C81 and C93. *)
From Coq Require Import ZArith NArith List Bool String Lia.
From Verif Require Import Base Str F64 Date Amount Posting Entry Envelope Account
  SpecDate SpecEnvelope SpecHistory SpecDue EntryFacts DateFormat DateFacts FreqFacts PropertiesDate PropertiesDefinition PropertiesHistory.
Import ListNotations.
Local Open Scope Z_scope.

Lemma apart_dayn s x : fortnights_apart s x <-> exists k, dayn x = dayn s + 14 * k.
Proof.
  unfold fortnights_apart. rewrite !fortnight_dayn. split.
  - intros [(k & _ & E)|(k & _ & E)]; [exists k; exact E|exists (- k); lia].
  - intros (k & E). destruct (Z_le_gt_dec 0 k); [left; exists k|right; exists (- k)]; lia.
Qed.
Lemma ahead_dayn a b x y : days_ahead a b x y <-> dayn x + Z.of_nat a <= dayn y <= dayn x + Z.of_nat b.
Proof.
  split.
  - intros (j & J & D). apply days_later_dayn in D. lia.
  - intro H. exists (Z.to_nat (dayn y - dayn x)). rewrite days_later_dayn. lia.
Qed.
Lemma earliest_unique P x y : earliest P x -> earliest P y -> x = y.
Proof.
  intros [A B] [C D]. apply dayn_inj. apply Z.le_antisymm; apply not_later_dayn; auto.
Qed.
Lemma not_both x y : earlier x y -> not_later y x -> False.
Proof. exact (earlier_irrefl x y). Qed.
Lemma biweekly_early today s : year today < max_year -> earlier today s ->
  exists d, freq_next today (Biweekly s) = Ok (Some d) /\ fortnights_apart s d /\ days_ahead 14 27 today d.
Proof.
  intros H S. apply far_from_end in H. apply earlier_dayn in S. cbn [freq_next]. unfold days_since.
  replace (dayn today - dayn s) with (- (dayn s - dayn today)) by lia. rewrite !Z.quot_opp_l by lia.
  rewrite (Z.quot_div_nonneg (dayn s - dayn today) 7) by lia.
  rewrite Z.quot_div_nonneg by (try apply Z.div_pos; lia). rewrite Z.div_div by lia. change (7 * 2) with 14.
  assert (P := Z.mod_pos_bound (dayn s - dayn today) 14 ltac:(lia)).
  assert (Q := Z.div_mod (dayn s - dayn today) 14 ltac:(lia)).
  set (q := (dayn s - dayn today) / 14) in *. set (r := (dayn s - dayn today) mod 14) in *. assert (B := dayn_bounds today).
  destruct (add_days_total s (7 * ((- q + 1) * 2))) as (d & D); [lia|]. rewrite D. cbn [unwrap bind].
  apply add_days_Some in D. exists d. split; [reflexivity|]. split; [apply apart_dayn; exists (1 - q); lia|].
  apply ahead_dayn. lia.
Qed.
Lemma next_year today s : not_later s today -> year today < max_year ->
  exists o, freq_next today (Annually s) = Ok o /\ next_is today (Annually s) o.
Proof.
  intros H Y. cbn [freq_next]. destruct (date_ltb today s) eqn:E; [apply date_ltb_iff in E; destruct (not_both _ _ E H)|].
  unfold with_year. assert (year s < max_year) as Ys by (destruct H as [->|H]; [lia|unfold earlier in H; lia]).
  destruct (date_bounds s) as (SY & SM & SD).
  destruct (from_ymd (year s + 1) (month s) (day s)) as [d|] eqn:F.
  - exists (Some d). split; [reflexivity|]. apply next_yearly; [exact H|]. apply from_ymd_Some in F as (A & B & C). unfold months_later. rewrite A, B, C. lia.
  - exists None. split; [reflexivity|]. apply next_yearly_none; [exact H|]. intros d (A & B).
    destruct (date_bounds d) as (DY & DM & DD). assert (year d = year s + 1 /\ month d = month s) as [C D] by lia.
    assert (from_ymd (year s + 1) (month s) (day s) = Some d) as K by (apply from_ymd_Some; auto). congruence.
Qed.
Lemma next_total today f : year today < max_year -> exists o, freq_next today f = Ok o /\ next_is today f o.
Proof.
  intro Y. destruct f as [|d|w|s|n|s|s].
  - exists None. split; [reflexivity|constructor].
  - cbn [freq_next]. destruct (date_leb d today) eqn:E; rewrite date_leb_dayn in E.
    + exists None. split; [reflexivity|]. constructor. apply not_later_dayn, Z.leb_le, E.
    + exists (Some d). split; [reflexivity|]. constructor. apply earlier_dayn. apply Z.leb_gt in E. exact E.
  - destruct (weekly_next today w Y) as (d & E & W & R & M). exists (Some d). split; [exact E|]. constructor.
    split; [split; [apply earlier_dayn; lia|exact W]|]. intros x [A B]. apply earlier_dayn in A. apply not_later_dayn.
    destruct (Z_le_gt_dec (dayn d) (dayn x)) as [L|L]; [exact L|]. exfalso. apply (M (dayn x)); [lia|exact B].
  - destruct (earlier_or today s) as [H|H].
    + destruct (biweekly_early today s Y H) as (d & E & A & B). exists (Some d). split; [exact E|]. apply next_biweekly_early; assumption.
    + destruct (biweekly_next today s Y H) as (d & E & A & _). exists (Some d). split; [exact E|]. apply next_biweekly; assumption.
  - destruct (C44_monthly today n Y) as (d & E & A). exists (Some d). split; [exact E|]. constructor. exact A.
  - destruct (C47_bimonthly today s Y) as (d & E & A). exists (Some d). split; [exact E|]. constructor. exact A.
  - destruct (earlier_or today s) as [H|H]; [|exact (next_year today s H Y)].
    destruct (annual_next_future today s H) as [E _]. exists (Some s). split; [exact E|]. apply next_yearly_early, H.
Qed.
Lemma months_unique k s x y : months_later k s x -> months_later k s y -> x = y.
Proof.
  intros (A & B) (C & D). destruct (date_bounds x) as (_ & X & _). destruct (date_bounds y) as (_ & Y & _).
  apply date_eq; lia.
Qed.
Lemma months_before_unique k s x y : months_later k x s -> months_later k y s -> x = y.
Proof.
  intros (A & B) (C & D). destruct (date_bounds x) as (_ & X & _). destruct (date_bounds y) as (_ & Y & _).
  apply date_eq; lia.
Qed.
Lemma next_unique today f o o' : next_is today f o -> next_is today f o' -> o = o'.
Proof.
  intros H K. inversion H; subst; inversion K; subst; try reflexivity;
    try (exfalso; eapply not_both; eassumption); try (exfalso; eapply not_both; [|eassumption]; assumption);
    try (f_equal; eapply earliest_unique; eassumption);
    try (f_equal; eapply months_unique; eassumption);
    try (match goal with N : forall d, ~ _ |- _ => destruct (N _ ltac:(eassumption)) end).
  match goal with A : fortnights_apart _ ?x, B : fortnights_apart _ ?y |- Some ?x = Some ?y =>
    apply apart_dayn in A as (k & A); apply apart_dayn in B as (k' & B) end.
  repeat match goal with A : days_ahead _ _ _ _ |- _ => apply ahead_dayn in A end. f_equal. apply dayn_inj. lia.
Qed.

(** ** C108 *)
Theorem C108_next : forall today f o, year today < max_year ->
  (freq_next today f = Ok o <-> next_is today f o).
Proof.
  intros today f o Y. destruct (next_total today f Y) as (o' & E & H). split; intro K.
  - assert (o' = o) as <- by congruence. exact H.
  - rewrite E. f_equal. exact (next_unique _ _ _ _ H K).
Qed.
Print Assumptions C108_next.

Lemma ahead_year today n : not_later today n -> year today <= year n.
Proof. intros [->|H]; [lia|]. unfold earlier in H. lia. Qed.
Lemma month_period f k today n : year today <= year n -> min_year + 3 < year today -> 0 <= k <= 3 -> periodic f ->
  next_is today f (Some n) -> (forall l, one_period f l n <-> months_later k l n) ->
  last_is today f (let! d := subtract_months n k in Ok (Some d)).
Proof.
  intros Y Y' K P N O. destruct (subtract_months_Ok n k) as [(l & L & M & D)|(L & M)]; [lia..| |].
  - rewrite L. cbn [bind]. eapply last_period; [exact P|exact N|]. apply O. split; [unfold midx in M; lia|congruence].
  - rewrite L. cbn [bind]. eapply last_crash; [exact P|exact N|]. intros l H. apply O in H as (A & B).
    assert (C := M l). unfold midx in C. destruct (date_bounds l) as (_ & _ & LD). lia.
Qed.
Lemma day_period f k today n : dayn today <= dayn n -> min_year < year today -> 0 <= k <= 365 -> periodic f ->
  next_is today f (Some n) -> (forall l, one_period f l n <-> dayn n = dayn l + k) ->
  last_is today f (let! d := unwrap (add_days n (- k)) in Ok (Some d)).
Proof.
  intros Y Y' K P N O. assert (B := dayn_bounds n). assert (first_dayn + 365 <= dayn today) as Q.
  { apply days_before_year_mono in Y'. assert (D := dayn_in_year today). assert (Z := year_len_bounds min_year).
    assert (first_dayn = days_before_year min_year + 1) as L by reflexivity. lia. }
  destruct (add_days_total n (- k)) as (l & L); [lia|]. rewrite L. cbn [unwrap bind]. apply add_days_Some in L.
  eapply last_period; [exact P|exact N|]. apply O. lia.
Qed.
Lemma last_total today f : year today < max_year -> min_year + 3 < year today -> (forall s, f = Annually s -> min_year < year s) ->
  last_is today f (freq_last today f).
Proof.
  intros Y Y' Ys. destruct (next_total today f Y) as (o & E & H). unfold freq_last. rewrite E. cbn [bind].
  destruct f as [|d|w|s|n|s|s].
  - inversion H; subst. constructor.
  - inversion H; subst; constructor; assumption.
  - inversion H as [| | |? d Ed| | | | | | |]; subst. destruct Ed as [[A _] _]. apply earlier_dayn in A.
    apply (day_period (Weekly w) 7 today d); [lia..|exact I|exact H|]. intro l. cbn [one_period]. apply days_later_dayn.
  - assert (exists d, o = Some d /\ dayn today <= dayn d) as (d & -> & A).
    { inversion H as [| | | |? d S Ed|? d S Fo Ah| | | | |]; subst; exists d; (split; [reflexivity|]).
      - destruct Ed as [[A _] _]. apply earlier_dayn in A. lia.
      - apply ahead_dayn in Ah. lia. }
    apply (day_period (Biweekly s) 14 today d); [lia..|exact I|exact H|]. intro l. cbn [one_period]. apply days_later_dayn.
  - inversion H as [| | | | | |? d Ed| | | |]; subst. destruct Ed as [[A _] _].
    apply (month_period (Monthly n) 1 today d); [apply ahead_year; right; exact A|lia..|exact I|exact H|]. intro l. reflexivity.
  - inversion H as [| | | | | | |? d Ed| | |]; subst. destruct Ed as [[A _] _].
    apply (month_period (Bimonthly s) 2 today d); [apply ahead_year; exact A|lia..|exact I|exact H|]. intro l. reflexivity.
  - specialize (Ys s eq_refl). destruct (date_bounds s) as (SY & SM & SD).
    destruct (with_year s (year s - 1)) as [l|] eqn:W; unfold with_year in W.
    + apply from_ymd_Some in W as (A & B & C). assert (months_later 12 l s) as L by (unfold months_later; rewrite A, B, C; lia).
      inversion H as [| | | | | | | |? T|? d T M|? T N]; subst; cbn [bind unwrap]; try (apply last_yearly; exact L).
      exfalso. assert (year s < max_year) as Sy by (destruct T as [->|T]; [lia|unfold earlier in T; lia]).
      assert (exists d, months_later 12 s d) as (d & D); [|exact (N d D)].
      destruct (make_date (year s + 1) (month s) (day s)) as (d & _ & DY & DM & DD); [lia..| |exists d; unfold months_later; lia].
      destruct (date_bounds l) as (_ & _ & LD). rewrite A, B, C in LD. split; [lia|].
      destruct (Z.eq_dec (month s) 2) as [Q|Q].
      * rewrite Q in *. cbn in SD, LD |- *. destruct (leap (year s - 1)) eqn:L1, (leap (year s)) eqn:L2, (leap (year s + 1)); try lia.
        exfalso. clear - L1 L2. unfold leap in *. destruct (Z.eqb_spec (year s mod 4) 0), (Z.eqb_spec ((year s - 1) mod 4) 0); cbn in *; try discriminate; Z.div_mod_to_equations; lia.
      * replace (month_len (year s + 1) (month s)) with (month_len (year s) (month s)); [lia|].
        clear - Q. unfold month_len. destruct (month s) as [|[[[]|[]|]|[[]|[]|]|]|]; try reflexivity; congruence.
    + assert (forall l, ~ months_later 12 l s) as N.
      { intros l (A & B). destruct (date_bounds l) as (_ & LM & _). assert (year l = year s - 1 /\ month l = month s) as [C D] by lia.
        assert (from_ymd (year s - 1) (month s) (day s) = Some l) as K by (apply from_ymd_Some; auto). congruence. }
      destruct o; cbn [bind unwrap]; apply last_yearly_crash; exact N.
Qed.
Lemma last_unique today f r r' : last_is today f r -> last_is today f r' -> r = r'.
Proof.
  assert (forall f l l' n, periodic f -> one_period f l n -> one_period f l' n -> l = l') as O.
  { intros g l l' n P A B. destruct g; cbn [one_period periodic] in *; try contradiction;
      try (apply days_later_dayn in A; apply days_later_dayn in B; apply dayn_inj; lia); eapply months_before_unique; eassumption. }
  intros H K. inversion H; subst; inversion K; subst; try reflexivity; try contradiction;
    try (exfalso; eapply not_both; eassumption);
    repeat match goal with A : next_is today ?f (Some ?x), B : next_is today ?f (Some ?y) |- _ =>
      assert (Some x = Some y) as J by (exact (next_unique _ _ _ _ A B)); injection J as <-; clear B end;
    try (do 2 f_equal; eapply O; eassumption);
    try (do 2 f_equal; eapply months_before_unique; eassumption);
    try (match goal with N : forall d, ~ _ |- _ => destruct (N _ ltac:(eassumption)) end).
Qed.
Theorem C108_last : forall today f r, year today < max_year -> min_year + 3 < year today ->
  (forall s, f = Annually s -> min_year < year s) ->
  (freq_last today f = r <-> last_is today f r).
Proof.
  intros today f r Y Y' Ys. assert (H := last_total today f Y Y' Ys). split; [intros <-; exact H|].
  intro K. exact (last_unique _ _ _ _ H K).
Qed.
Print Assumptions C108_last.

(** Starts in the future: fortnights that are counted from before the start; a
    date two months before the start; a year before it. *)
Example C108_case :
  let D y m d := match from_ymd y m d with Some x => x | None => epoch end in
  next_is (D 2024 1 1) (Biweekly (D 2024 3 5)) (Some (D 2024 1 23))
  /\ next_is (D 2024 1 1) (Biweekly (D 2024 1 9)) (Some (D 2024 1 23))
  /\ last_is (D 2024 1 1) (Biweekly (D 2024 1 9)) (Ok (Some (D 2024 1 9)))
  /\ last_is (D 2024 1 1) (Bimonthly (D 2024 5 31)) (Ok (Some (D 2024 3 31)))
  /\ last_is (D 2024 1 1) (Bimonthly (D 2024 4 30)) Panic
  /\ last_is (D 2024 6 30) (Monthly 31) Panic
  /\ last_is (D 2024 3 1) (Annually (D 2024 2 29)) Panic
  /\ last_is (D 2024 3 1) (Annually (D 2020 2 28)) (Ok (Some (D 2019 2 28))).
Proof.
  cbv zeta. repeat split; try (apply C108_next; [reflexivity|reflexivity]);
    (apply C108_last; [reflexivity|reflexivity|intros s K; try discriminate; injection K as <-; reflexivity|reflexivity]).
Qed.

(** ** C46: right once started, or from 27 to 14 days before the start *)
Theorem C46_exact : forall today s d, year today < max_year -> freq_next today (Biweekly s) = Ok (Some d) ->
  (earliest (fun x => earlier today x /\ fortnight s x) d <-> not_later s today \/ days_ahead 14 27 today s).
Proof.
  intros today s d Y H. apply C108_next in H; [|exact Y]. inversion H as [| | | |? ? S Ed|? ? S Fo Ah| | | | |]; subst; [tauto|].
  apply apart_dayn in Fo as (k & Fo). apply ahead_dayn in Ah. assert (S' := S). apply earlier_dayn in S'. split.
  - intros [[_ F] M]. right. apply ahead_dayn. apply fortnight_dayn in F as (j & J & F). assert (not_later d s) as K.
    { apply M. split; [exact S|]. apply fortnight_dayn. exists 0. lia. }
    apply not_later_dayn in K. lia.
  - intros [K|K]; [destruct (not_both _ _ S K)|]. apply ahead_dayn in K. assert (d = s) as -> by (apply dayn_inj; lia).
    split; [split; [exact S|apply fortnight_dayn; exists 0; lia]|]. intros x [_ F]. apply fortnight_dayn in F as (j & J & F).
    apply not_later_dayn. lia.
Qed.
Print Assumptions C46_exact.

(** ** C48: right exactly if it is in the future *)
Theorem C48_exact : forall today s o, year today < max_year -> freq_next today (Annually s) = Ok o ->
  ((exists d, o = Some d /\ earliest (fun x => earlier today x /\ anniversary s x) d) <-> exists d, o = Some d /\ earlier today d).
Proof.
  intros today s o Y H. apply C108_next in H; [|exact Y]. split; [intros (d & E & (A & _) & _); exists d; auto|].
  intros (d & -> & T). exists d. split; [reflexivity|]. inversion H as [| | | | | | | |? A|? ? A M|]; subst.
  - apply annual_next_future, A.
  - destruct M as (M & Dd). destruct (date_bounds s) as (SY & SM & SD). destruct (date_bounds d) as (DY & DM & DD).
    assert (year d = year s + 1 /\ month d = month s) as [Q R] by lia.
    split; [split; [exact T|unfold anniversary; lia]|]. intros x (X & B & C & F).
    destruct (Z.eq_dec (year x) (year s)) as [Q'|Q'].
    + assert (x = s) as -> by (apply date_eq; congruence). destruct (not_both _ _ X A).
    + destruct (Z.eq_dec (year x) (year d)) as [Q2|Q2]; [left; apply date_eq; congruence|]. right. unfold earlier. lia.
Qed.
Print Assumptions C48_exact.

(** ** C81: right exactly if the start is not after the next regular due date,
    or on a due day *)
Theorem C81_exact : forall today v start d d' (P : date -> Prop), year today < max_year -> v_starting v = Some start ->
  (exists n, v_freq v = Monthly n /\ P = (fun x => day x = due_day n (year x) (month x)))
  \/ (exists w, v_freq v = Weekly w /\ P = (fun x => weekday_of x = weekday_num w)) ->
  freq_next today (v_freq v) = Ok (Some d) -> env_next_due today v = Ok (Some d') ->
  (earliest (fun x => earlier today x /\ not_later start x /\ P x) d' <-> not_later start d \/ P start).
Proof.
  intros today v start d d' P Y S F H K. assert (earliest (fun x => earlier today x /\ P x) d) as Ed.
  { apply C108_next in H; [|exact Y]. destruct F as [(n & Fr & ->)|(w & Fr & ->)]; rewrite Fr in H; inversion H; subst; assumption. }
  unfold env_next_due in K. rewrite H, S in K. cbn [bind] in K. injection K as K. assert (Dm := date_max_dayn start d). rewrite K in Dm.
  destruct Ed as [[A B] M]. destruct (earlier_or d start) as [L|L].
  - assert (d' = start) as -> by (apply dayn_inj; apply earlier_dayn in L; lia). split.
    + intros [(_ & _ & X) _]. right. exact X.
    + intros [X|X]; [destruct (not_both _ _ L X)|]. split; [|intros x (_ & Q & _); exact Q].
      split; [apply earlier_dayn; apply earlier_dayn in L, A; lia|]. split; [apply not_later_refl|exact X].
  - assert (d' = d) as -> by (apply dayn_inj; apply not_later_dayn in L; lia). split; [left; exact L|]. intros _.
    split; [auto|]. intros x (X1 & _ & X2). apply M. auto.
Qed.
Print Assumptions C81_exact.

(** ** C93: when the date that divides the money is the last due date *)
Theorem C93_exact : forall today f l, year today < max_year -> min_year + 3 < year today ->
  (forall s, f = Annually s -> min_year < year s) -> freq_last today f = Ok l ->
  (last_due today f l <-> last_right today f l).
Proof.
  intros today f l Y Y' Ys H. assert (H' := H). apply C108_last in H; [|assumption..].
  destruct f as [|d|w|s|n|s|s]; cbn [last_right].
  - split; [auto|]. intros _. destruct (regular_last today Never Y Y' I) as (l' & El & L). congruence.
  - split; [auto|]. intros _. destruct (regular_last today (Once d) Y Y' I) as (l' & El & L). congruence.
  - split; [auto|]. intros _. destruct (regular_last today (Weekly w) Y Y' I) as (l' & El & L). congruence.
  - destruct (earlier_or today s) as [S|S].
    + split; [|intro K; destruct (not_both _ _ S K)]. intro L. exfalso. inversion H as [| | |? n x P N O| | |]; subst. destruct L as [(A & B) _].
      apply fortnight_dayn in B as (k & K & B). apply earlier_dayn in S. apply not_later_dayn in A. lia.
    + split; [auto|]. intros _. destruct (regular_last today (Biweekly s) Y Y' S) as (l' & El & L). congruence.
  - inversion H as [| | |? d x P N O| | |]; subst. split; [intros [(A & B) _]; exists x; auto|].
    intros (x' & Ex & Dx). injection Ex as <-. inversion N as [| | | | | |? ? Ed| | | |]; subst. destruct Ed as [[Td Dd] M].
    destruct O as (O & Od). destruct (date_bounds x) as (_ & MX & _). destruct (date_bounds d) as (_ & MD & _). split.
    + split; [|exact Dx]. destruct (earlier_or today x) as [T|T]; [|exact T]. exfalso. assert (not_later d x) as K by (apply M; auto).
      destruct K as [->|K]; [lia|]. unfold earlier in K. lia.
    + intros y (Ty & Dy). cbn [due_on] in Dy. destruct (date_bounds y) as (_ & MY & _).
      destruct (earlier_or x y) as [K|K]; [exfalso|exact K].
      assert (earlier y d) as Yd by (apply earlier_dayn; apply earlier_dayn in Td; apply not_later_dayn in Ty; lia).
      assert (midx y = midx x \/ midx y = midx d) as [Q|Q].
      { apply earlier_midx in K. apply earlier_midx in Yd. unfold midx in *. lia. }
      * apply midx_eq in Q as [Q1 Q2]. rewrite Q1, Q2 in Dy. apply earlier_midx in K. unfold midx in K. lia.
      * apply midx_eq in Q as [Q1 Q2]. rewrite Q1, Q2 in Dy. apply earlier_midx in Yd. unfold midx in Yd. lia.
  - inversion H as [| | |? d x P N O| | |]; subst. inversion N as [| | | | | | |? ? Ed| | |]; subst. destruct Ed as [[Td Dd] M].
    destruct O as (O & Od). destruct (date_bounds x) as (_ & MX & _). destruct (date_bounds d) as (_ & MD & _). split.
    + intros [(A & B) L]. split; [|split; [|exists x; auto]].
      * apply every_other_month_nth in B as (k & K & B). assert (not_later s x) as Sx.
        { destruct (Z.eq_dec k 0) as [->|K0]; [left; symmetry; apply (nth_other_unique s 0 x s B), nth_other_start|].
          right. apply (nth_other_lt s 0 k s x); [apply nth_other_start|exact B|lia]. }
        exact (not_later_trans _ _ _ Sx A).
      * intro T. assert (not_later today x) as K by (apply L; split; [apply not_later_refl|exact T]).
        assert (not_later d today) as K' by (apply M; split; [apply not_later_refl|exact T]).
        assert (not_later d x) as K2 by exact (not_later_trans _ _ _ K' K).
        destruct K2 as [->|K2]; [lia|]. unfold earlier in K2. lia.
    + intros (St & Nt & x' & Ex & Ox). injection Ex as <-. apply every_other_month_nth in Ox as (k & K & Ox).
      apply every_other_month_nth in Dd as (k' & K' & Dd). assert (k' = k + 1) as ->.
      { destruct Ox as [Ox _], Dd as [Dd _]. unfold midx in *. lia. }
      assert (earlier today d) as Td'.
      { destruct Td as [->|T]; [|exact T]. exfalso. apply Nt. apply every_other_month_nth. exists (k + 1). auto. }
      split.
      * split; [|apply every_other_month_nth; exists k; auto]. destruct (earlier_or today x) as [T|T]; [|exact T]. exfalso.
        assert (not_later d x) as Q by (apply M; split; [right; exact T|apply every_other_month_nth; exists k; auto]).
        assert (earlier x d) as Q' by (apply (nth_other_lt s k (k + 1)); [exact Ox|exact Dd|lia]). exact (not_both _ _ Q' Q).
      * intros y (Ty & Dy). cbn [due_on] in Dy. apply every_other_month_nth in Dy as (j & J & Dy).
        assert (earlier y d) as Yd by (apply earlier_dayn; apply earlier_dayn in Td'; apply not_later_dayn in Ty; lia).
        destruct (Z_le_gt_dec j k) as [L|L].
        -- destruct (Z.eq_dec j k) as [->|Q]; [left; exact (nth_other_unique s k y x Dy Ox)|]. right. apply (nth_other_lt s j k); [exact Dy|exact Ox|lia].
        -- exfalso. destruct (Z.eq_dec j (k + 1)) as [->|Q].
           ++ rewrite (nth_other_unique s (k + 1) y d Dy Dd) in Yd. apply (not_both _ _ Yd), not_later_refl.
           ++ assert (earlier d y) as Q' by (apply (nth_other_lt s (k + 1) j); [exact Dd|exact Dy|lia]). exact (not_both _ _ Q' (or_intror Yd)).
  - split; [|tauto]. intro L. inversion H as [| | |? ? ? P| | ? x M|]; subst; [contradiction|]. destruct L as [(A & B & C & D) _].
    destruct M as (M & _). destruct (date_bounds x) as (_ & MX & _). destruct (date_bounds s) as (_ & MS & _). lia.
Qed.
Print Assumptions C93_exact.
