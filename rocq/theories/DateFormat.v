(** Printing and reading dates (C63). *)
From Coq Require Import ZArith NArith List Bool String Lia Eqdep_dec.
From Verif Require Import Base Str StrFacts F64 F64Text Date SpecDate DateFacts WeekFacts.
From Verif Require Export DateBasics.
Import ListNotations.
Local Open Scope Z_scope.

(** ** Fixed-width fields *)
Lemma dig_digit n : is_digit (dig n) = true.
Proof.
  apply is_digit_range. unfold dig. assert (0 <= n mod 10 < 10) by (apply Z.mod_pos_bound; lia). lia.
Qed.
Lemma dig_val n : digit_val (dig n) = n mod 10.
Proof.
  unfold digit_val, dig. assert (0 <= n mod 10 < 10) by (apply Z.mod_pos_bound; lia).
  rewrite Z2N.id by lia. lia.
Qed.

Lemma fixed_length k n : List.length (fixed k n) = k.
Proof. revert n. induction k as [|k IH]; intro n; [reflexivity|]. cbn [fixed]. rewrite app_length, IH. cbn. lia. Qed.
Lemma fixed_digits k n : all_digits (fixed k n).
Proof.
  revert n. induction k as [|k IH]; intro n; [reflexivity|]. cbn [fixed]. apply all_digits_app.
  split; [apply IH|]. unfold all_digits. cbn [forallb]. rewrite dig_digit. reflexivity.
Qed.
Lemma fixed_val k n : 0 <= n < 10 ^ Z.of_nat k -> digits_val (fixed k n) = n.
Proof.
  revert n. induction k as [|k IH]; intros n H.
  - change (10 ^ Z.of_nat 0) with 1 in H. change (digits_val (fixed 0 n)) with 0. lia.
  - cbn [fixed]. rewrite digits_val_app, IH.
    + change (digits_val [dig n]) with (10 * 0 + digit_val (dig n)). rewrite dig_val.
      change (10 ^ Z.of_nat (List.length [dig n])) with 10. rewrite (Z.div_mod n 10) at 3 by lia. lia.
    + rewrite Nat2Z.inj_succ, Z.pow_succ_r in H by lia. split; [apply Z.div_pos; lia|].
      apply Z.div_lt_upper_bound; lia.
Qed.
Lemma fixed_zero k : fixed k 0 = repeat 48%N k.
Proof.
  induction k as [|k IH]; [reflexivity|]. cbn [fixed]. rewrite Z.div_0_l by lia. rewrite IH.
  change (dig 0) with 48%N. clear IH. induction k as [|k IH]; [reflexivity|]. cbn [repeat app]. rewrite IH. reflexivity.
Qed.
Lemma digits_aux_fixed k : forall f n acc,
  0 <= n < 10 ^ Z.of_nat (S k) -> 10 ^ Z.of_nat k <= n \/ k = 0%nat -> (k <= f)%nat ->
  digits_aux (S f) n acc = fixed (S k) n ++ acc.
Proof.
  induction k as [|k IH]; intros f n acc H L F; cbn [digits_aux].
  - change (10 ^ Z.of_nat 1) with 10 in H. rewrite (proj2 (Z.ltb_lt n 10)) by lia. reflexivity.
  - destruct L as [L|L]; [|discriminate].
    rewrite Nat2Z.inj_succ, Z.pow_succ_r in H, L by lia.
    assert (10 <= n).
    { assert (1 <= 10 ^ Z.of_nat k) by (apply (Z.pow_le_mono_r 10 0); lia). lia. }
    rewrite (proj2 (Z.ltb_ge n 10)) by lia. destruct f as [|f]; [lia|].
    rewrite (IH f (n / 10) _).
    + change (fixed (S (S k)) n) with (fixed (S k) (n / 10) ++ [dig n]). rewrite <- app_assoc. reflexivity.
    + split; [apply Z.div_pos; lia|apply Z.div_lt_upper_bound; lia].
    + left. apply Z.div_le_lower_bound; lia.
    + lia.
Qed.
Lemma log10_exists k n : 0 <= n < 10 ^ Z.of_nat (S k) ->
  exists j, (j <= k)%nat /\ n < 10 ^ Z.of_nat (S j) /\ (10 ^ Z.of_nat j <= n \/ j = 0%nat).
Proof.
  induction k as [|k IH]; intro H; [exists 0%nat; repeat split; [lia|apply H|auto]|].
  destruct (Z_lt_le_dec n (10 ^ Z.of_nat (S k))) as [L|L].
  - destruct IH as (j & J & K); [lia|]. exists j. split; [lia|exact K].
  - exists (S k). repeat split; [lia|apply H|auto].
Qed.
Lemma log2_ge j n : 10 ^ Z.of_nat j <= n -> (j <= Z.to_nat (Z.log2 n))%nat.
Proof.
  intro H. assert (Z.of_nat j <= Z.log2 n); [|lia].
  assert (2 ^ Z.of_nat j <= 10 ^ Z.of_nat j) by (apply Z.pow_le_mono_l; lia).
  apply Z.log2_le_pow2; [|lia]. assert (0 < 2 ^ Z.of_nat j) by (apply Z.pow_pos_nonneg; lia). lia.
Qed.
Lemma fixed_pad k j n : (j <= k)%nat -> 0 <= n < 10 ^ Z.of_nat j ->
  fixed k n = repeat 48%N (k - j) ++ fixed j n.
Proof.
  intros L. revert n. revert j L. induction k as [|k IH]; intros j L n H.
  - assert (j = 0)%nat as -> by lia. reflexivity.
  - destruct j as [|j].
    + change (10 ^ Z.of_nat 0) with 1 in H. assert (n = 0) as -> by lia.
      rewrite fixed_zero, app_nil_r, Nat.sub_0_r. reflexivity.
    + cbn [fixed]. rewrite (IH j); [rewrite <- app_assoc; reflexivity|lia|].
      rewrite Nat2Z.inj_succ, Z.pow_succ_r in H by lia.
      split; [apply Z.div_pos; lia|apply Z.div_lt_upper_bound; lia].
Qed.
Lemma zpad_fixed k n : 0 <= n < 10 ^ Z.of_nat (S k) -> zpad (S k) (digits n) = fixed (S k) n.
Proof.
  intro H. destruct (log10_exists k n H) as (j & J & L & R).
  assert (digits n = fixed (S j) n) as E.
  { unfold digits. rewrite (digits_aux_fixed j); [apply app_nil_r|lia|exact R|].
    destruct R as [R| ->]; [apply log2_ge, R|lia]. }
  unfold zpad, lpad. rewrite E, fixed_length. symmetry. apply fixed_pad; [lia|split; [apply H|exact L]].
Qed.

(** ** Numbers with padding *)
Lemma fixed_app k j n : fixed (k + j) n = fixed k (n / 10 ^ Z.of_nat j) ++ fixed j n.
Proof.
  revert k n. induction j as [|j IH]; intros k n.
  - rewrite Nat.add_0_r, app_nil_r. change (10 ^ Z.of_nat 0) with 1. rewrite Z.div_1_r. reflexivity.
  - rewrite Nat.add_succ_r. cbn [fixed]. rewrite IH, app_assoc. rewrite Z.div_div by lia.
    rewrite Nat2Z.inj_succ, Z.pow_succ_r by lia. reflexivity.
Qed.
Lemma dig_zero n : dig n = 48%N -> n mod 10 = 0.
Proof. intro H. pose proof (dig_val n) as V. rewrite H in V. change (digit_val 48) with 0 in V. lia. Qed.
Lemma dig_small n : 0 <= n < 10 -> dig n = 48%N -> n = 0.
Proof. intros H E. apply dig_zero in E. rewrite Z.mod_small in E by lia. exact E. Qed.

(** A padded number is blanks (or nothing) and digits with the same value. *)
Lemma unzero_spec b s : all_digits s -> s <> [] ->
  exists k ds, unzero b s = List.concat (repeat b k) ++ ds /\ all_digits ds /\ ds <> [] /\ s = repeat 48%N k ++ ds.
Proof.
  induction s as [|c [|d s] IH]; intros A N; [contradiction| |].
  - exists 0%nat, [c]. repeat split; [exact A|discriminate].
  - apply (all_digits_app [c] (d :: s)) in A. destruct A as [Ac A].
    cbn [unzero]. destruct (N.eqb_spec c 48) as [->|Nc].
    + destruct IH as (k & ds & E & D & Nd & Es); [exact A|discriminate|].
      exists (S k), ds. repeat split; [|exact D|exact Nd|].
      * cbn [repeat List.concat]. rewrite <- app_assoc, <- E. reflexivity.
      * cbn [repeat app]. rewrite <- Es. reflexivity.
    + exists 0%nat, (c :: d :: s). repeat split; [|discriminate]. change (all_digits ([c] ++ (d :: s))). apply all_digits_app. tauto.
Qed.
Lemma number_text_pos w p v : 0 <= v -> number_text w p v
  = match p with ZeroPad => fixed w v | SpacePad => unzero [32%N] (fixed w v) | NoPad => unzero [] (fixed w v) end.
Proof. intro H. unfold number_text. rewrite (proj2 (Z.ltb_ge _ _)) by lia. reflexivity. Qed.
Lemma number_shape w p v : (0 < w)%nat -> 0 <= v < 10 ^ Z.of_nat w ->
  exists k ds, number_text w p v = repeat 32%N k ++ ds /\ all_digits ds /\ ds <> [] /\ digits_val ds = v
    /\ (List.length ds <= w)%nat /\ (p = ZeroPad -> List.length ds = w) /\ (k = 0%nat \/ p = SpacePad).
Proof.
  intros W V. assert (A := fixed_digits w v). assert (L := fixed_length w v).
  assert (Nn : fixed w v <> []) by (intro E; rewrite E in L; cbn in L; lia).
  assert (Dv := fixed_val w v V).
  rewrite number_text_pos by lia. destruct p.
  - destruct (unzero_spec [] _ A Nn) as (k & ds & E & D & Nd & Es). exists 0%nat, ds. cbn [repeat app].
    rewrite Es in L, Dv. rewrite app_length, repeat_length in L. rewrite digits_val_app, digits_val_zeros in Dv.
    repeat split; try assumption; try lia; [|discriminate]. rewrite E. clear. induction k as [|k IH]; [reflexivity|exact IH].
  - exists 0%nat, (fixed w v). cbn [repeat app]. repeat split; auto; lia.
  - destruct (unzero_spec [32%N] _ A Nn) as (k & ds & E & D & Nd & Es). exists k, ds.
    rewrite Es in L, Dv. rewrite app_length, repeat_length in L. rewrite digits_val_app, digits_val_zeros in Dv.
    repeat split; try assumption; try lia; [|discriminate|auto]. rewrite E. f_equal.
    clear. induction k as [|k IH]; [reflexivity|]. cbn [repeat List.concat app]. rewrite IH. reflexivity.
Qed.

(** ** Printing *)
Lemma digits_fixed k n : 0 <= n < 10 ^ Z.of_nat (S k) -> exists j, (j <= k)%nat /\ digits n = fixed (S j) n
  /\ n < 10 ^ Z.of_nat (S j) /\ (10 ^ Z.of_nat j <= n \/ j = 0%nat).
Proof.
  intro H. destruct (log10_exists k n H) as (j & J & L & R). exists j. split; [exact J|]. split; [|auto].
  unfold digits. rewrite (digits_aux_fixed j); [apply app_nil_r|lia|exact R|].
  destruct R as [R| ->]; [apply log2_ge, R|lia].
Qed.
Lemma unzero_zeros b k s : s <> [] -> unzero b (repeat 48%N k ++ s) = List.concat (repeat b k) ++ unzero b s.
Proof.
  intro N. induction k as [|k IH]; [reflexivity|]. cbn [repeat app List.concat].
  destruct (repeat 48%N k ++ s) as [|d t] eqn:E.
  - destruct k; [cbn in E; subst; contradiction|discriminate].
  - cbn [unzero]. change (N.eqb 48 48) with true. cbn match. change (d :: t) with (d :: t) in IH. rewrite <- app_assoc, <- IH. reflexivity.
Qed.
Lemma unzero_head b c s : c <> 48%N -> unzero b (c :: s) = c :: s.
Proof. intro H. destruct s; [reflexivity|]. cbn [unzero]. rewrite (proj2 (N.eqb_neq c 48) H). reflexivity. Qed.
Lemma fixed_head k n : 10 ^ Z.of_nat k <= n < 10 ^ Z.of_nat (S k) -> exists c s, fixed (S k) n = c :: s /\ c <> 48%N.
Proof.
  intro H. change (S k) with (1 + k)%nat. rewrite fixed_app. cbn [fixed app].
  exists (dig (n / 10 ^ Z.of_nat k)), (fixed k n). split; [reflexivity|].
  rewrite Nat2Z.inj_succ, Z.pow_succ_r in H by lia.
  assert (0 < 10 ^ Z.of_nat k) by (apply Z.pow_pos_nonneg; lia).
  assert (1 <= n / 10 ^ Z.of_nat k) by (apply Z.div_le_lower_bound; lia).
  assert (n / 10 ^ Z.of_nat k < 10) by (apply Z.div_lt_upper_bound; lia).
  intro E. apply dig_small in E; lia.
Qed.
Lemma unzero_digits b k n : 0 <= n < 10 ^ Z.of_nat (S k) ->
  exists j, unzero b (fixed (S k) n) = List.concat (repeat b j) ++ digits n /\ (j + List.length (digits n) = S k)%nat.
Proof.
  intro H. destruct (digits_fixed k n H) as (j & J & E & L & R). exists (k - j)%nat. rewrite E, fixed_length. split; [|lia].
  rewrite (fixed_pad (S k) (S j)) by first [lia | split; [apply H|exact L]].
  replace (S k - S j)%nat with (k - j)%nat by lia.
  rewrite unzero_zeros by (intro K; apply (f_equal (@List.length N)) in K; rewrite fixed_length in K; discriminate).
  f_equal. destruct R as [R| ->].
  - destruct (fixed_head j n) as (c & s & Ef & Nc); [lia|]. rewrite Ef. apply unzero_head, Nc.
  - cbn [fixed app unzero]. reflexivity.
Qed.
Lemma concat_nil k : List.concat (repeat ([] : str) k) = [].
Proof. induction k as [|k IH]; [reflexivity|exact IH]. Qed.
Lemma concat_one (c : char) k : List.concat (repeat ([c] : str) k) = repeat c k.
Proof. induction k as [|k IH]; [reflexivity|]. cbn [repeat List.concat app]. rewrite IH. reflexivity. Qed.
Lemma write_n_text k v p : 0 <= v < 10 ^ Z.of_nat (S k) -> write_n (S k) v p false = number_text (S k) p v.
Proof.
  intro H. rewrite number_text_pos by lia. unfold write_n. destruct p.
  - destruct (unzero_digits [] k v H) as (j & E & _). rewrite E, concat_nil. reflexivity.
  - apply zpad_fixed, H.
  - destruct (unzero_digits [32%N] k v H) as (j & E & L). rewrite E, concat_one. unfold lpad. do 2 f_equal. lia.
Qed.
Lemma write_two_text v p : 0 <= v < 100 -> write_two v p = number_text 2 p v.
Proof.
  intro H. rewrite number_text_pos by lia. unfold write_two. cbn [fixed app].
  change (Z.to_N (48 + v mod 10)) with (dig v).
  assert (0 <= v / 10 < 10) by (split; [apply Z.div_pos; lia|apply Z.div_lt_upper_bound; lia]).
  assert (E : dig (v / 10) = Z.to_N (48 + v / 10)) by (unfold dig; rewrite (Z.mod_small (v / 10)) by lia; reflexivity).
  destruct (Z.eqb_spec (v / 10) 0) as [Z0|Z0].
  - rewrite Z0. destruct p; reflexivity.
  - rewrite <- E. assert (Nz : dig (v / 10) <> 48%N) by (intro K; apply dig_small in K; lia).
    destruct p; [rewrite unzero_head by exact Nz; reflexivity|reflexivity|rewrite unzero_head by exact Nz; reflexivity].
Qed.
Lemma one_digit v p : 0 <= v < 10 -> [Z.to_N (48 + v)] = number_text 1 p v.
Proof. intro H. rewrite number_text_pos by lia. cbn [fixed app]. unfold dig. rewrite Z.mod_small by lia. destruct p; reflexivity. Qed.
Lemma show_year_text y p : -1 <= y < 10000 -> show_year y p = number_text 4 p y.
Proof.
  intro H'. assert (y = -1 \/ 0 <= y < 10000) as [->|H] by lia; [destruct p; reflexivity|]. clear H'. unfold show_year.
  rewrite (proj2 (Z.leb_le 0 y)), (proj2 (Z.ltb_lt y 10000)) by lia. cbn [andb negb]. rewrite andb_true_r.
  destruct (Z.leb_spec 1000 y) as [L|L].
  - destruct (unzero_digits [] 3 y H) as (j & E & K). destruct (digits_fixed 3 y H) as (i & I & Ed & Li & R).
    assert (i = 3%nat) as ->.
    { destruct (Nat.eq_dec i 3); [assumption|]. assert (10 ^ Z.of_nat (S i) <= 10 ^ 3) by (apply Z.pow_le_mono_r; lia). lia. }
    rewrite Ed. destruct (fixed_head 3 y) as (c & s & Ef & Nc); [split; [exact L|apply H]|].
    rewrite number_text_pos by lia. rewrite Ef. destruct p; rewrite ?unzero_head by exact Nc; reflexivity.
  - apply (write_n_text 3), H.
Qed.
Lemma before_month_bounds y m : 1 <= m <= 12 -> 0 <= days_before_month y m <= 335.
Proof.
  intro M. destruct (month_cases m M) as [->|[->|[->|[->|[->|[->|[->|[->|[->|[->|[->| ->]]]]]]]]]]];
    unfold days_before_month; cbn; destruct (leap y); lia.
Qed.
Lemma ordinal_day x : ordinal x = day_of_year x.
Proof. unfold ordinal, day_of_year, dayn, dayn_ymd. change (days_before_month (year x) 1) with 0. lia. Qed.
Lemma day_of_year_bounds x : 1 <= day_of_year x <= 366.
Proof. rewrite <- ordinal_day. unfold ordinal. assert (K := day_bounds x). assert (B := before_month_bounds (year x) (month x) (proj1 (proj2 (date_bounds x)))). lia. Qed.

Definition counted (x : date) (n : numeric) : Prop :=
  match n with NIsoYear | NIsoShort => 0 <= week_year x | _ => True end.
Lemma number_bounds x n : 0 <= year x < 10000 -> n = NIsoYear /\ number_of x n = -1
  \/ 0 <= number_of x n < 10 ^ Z.of_nat (number_width n).
Proof.
  intro Y. assert (WY := week_year_bounds x Y). assert (WI := iso_week_bounds x). rewrite week_iso in WI.
  assert (W6 := weeks_bounds 6 x). rewrite weeks_sunday in W6. assert (W0 := weeks_bounds 0 x). rewrite weeks_monday in W0.
  destruct (date_bounds x) as (_ & M & _). assert (D := day_bounds x). assert (O := day_of_year_bounds x).
  destruct n; cbn [number_of number_width]; [right|right|right|right|right|right|right|right|assert (week_year x = -1 \/ 0 <= week_year x) as [K|K] by lia; [left; auto|right]|right|right|right|right|right].
  - change (10 ^ Z.of_nat 4) with 10000. exact Y.
  - change (10 ^ Z.of_nat 2) with 100. split; [apply Z.div_pos; lia|apply Z.div_lt_upper_bound; lia].
  - change (10 ^ Z.of_nat 2) with 100. apply Z.mod_pos_bound. lia.
  - change (10 ^ Z.of_nat 2) with 100. lia.
  - change (10 ^ Z.of_nat 2) with 100. lia.
  - change (10 ^ Z.of_nat 3) with 1000. lia.
  - change (10 ^ Z.of_nat 1) with 10. assert (0 <= dayn x mod 7 < 7) by (apply Z.mod_pos_bound; lia). lia.
  - change (10 ^ Z.of_nat 1) with 10. assert (0 <= (dayn x - 1) mod 7 < 7) by (apply Z.mod_pos_bound; lia). lia.
  - change (10 ^ Z.of_nat 4) with 10000. lia.
  - change (10 ^ Z.of_nat 2) with 100. apply Z.mod_pos_bound. lia.
  - change (10 ^ Z.of_nat 2) with 100. lia.
  - change (10 ^ Z.of_nat 2) with 100. lia.
  - change (10 ^ Z.of_nat 2) with 100. lia.
  - change (10 ^ Z.of_nat 1) with 10. Z.div_mod_to_equations. lia.
Qed.
Lemma counted_bounds x n : 0 <= year x < 10000 -> counted x n -> 0 <= number_of x n < 10 ^ Z.of_nat (number_width n).
Proof. intros Y C. destruct (number_bounds x n Y) as [[-> B]|B]; [|exact B]. cbn [counted number_of] in *. lia. Qed.
Lemma from_sunday x : (weekday_of x + 1) mod 7 = dayn x mod 7.
Proof. unfold weekday_of. rewrite Zplus_mod_idemp_l. f_equal. lia. Qed.
Lemma show_num_text x n p : 0 <= year x < 10000 -> show_num x n p = number_text (number_width n) p (number_of x n).
Proof.
  intro Y. assert (B' := number_bounds x n Y). assert (WY := week_year_bounds x Y).
  assert (n = NIsoYear \/ 0 <= number_of x n < 10 ^ Z.of_nat (number_width n)) as [->|B] by tauto.
  { cbn [show_num number_of number_width]. rewrite week_year_iso. apply show_year_text, WY. }
  clear B'. destruct n; cbn [show_num number_of number_width] in *.
  - apply show_year_text. lia.
  - rewrite (Z.mod_small _ 256) by (change (10 ^ Z.of_nat 2) with 100 in B; lia). apply write_two_text, B.
  - apply write_two_text, B.
  - apply write_two_text, B.
  - apply write_two_text, B.
  - rewrite ordinal_day. apply (write_n_text 2), B.
  - rewrite from_sunday. apply one_digit, B.
  - rewrite <- Z.add_assoc. apply one_digit, B.
  - rewrite week_year_iso. apply show_year_text, WY.
  - rewrite week_year_iso. apply write_two_text, B.
  - rewrite week_iso. apply write_two_text, B.
  - rewrite weeks_sunday. apply write_two_text, B.
  - rewrite weeks_monday. apply write_two_text, B.
  - unfold quarter. replace ((month x - 1) / 3 + 1) with ((month x + 2) / 3) by (Z.div_mod_to_equations; lia). apply one_digit, B.
Qed.
Lemma weekday_bounds x : 0 <= weekday_of x < 7.
Proof. apply Z.mod_pos_bound. lia. Qed.
Lemma weekday_turn x : dayn x mod 7 = if weekday_of x =? 6 then 0 else weekday_of x + 1.
Proof.
  rewrite <- from_sunday. assert (B := weekday_bounds x). destruct (Z.eqb_spec (weekday_of x) 6) as [->|N]; [reflexivity|].
  apply Z.mod_small. lia.
Qed.
Definition item_of (p : piece) : fitem :=
  match p with
  | PNum n f => FNum n f
  | PMonthName b => FMonthName b
  | PDayName b => FWeekdayName b
  | PText c => if is_ws c then FSpace c else FLit c
  end.
Lemma show_item_of x p : 0 <= year x < 10000 -> show_item x (item_of p) = piece_shown x p.
Proof.
  intro Y. destruct p as [n f|b|b|c]; cbn [item_of show_item piece_shown].
  - apply show_num_text, Y.
  - destruct (date_bounds x) as (_ & M & _). unfold show_name, name_text.
    destruct (month_cases _ M) as [E|[E|[E|[E|[E|[E|[E|[E|[E|[E|[E|E]]]]]]]]]]]; rewrite E; reflexivity.
  - unfold show_name, name_text. rewrite weekday_turn. assert (B := weekday_bounds x).
    assert (weekday_of x = 0 \/ weekday_of x = 1 \/ weekday_of x = 2 \/ weekday_of x = 3 \/ weekday_of x = 4
            \/ weekday_of x = 5 \/ weekday_of x = 6) as [E|[E|[E|[E|[E|[E|E]]]]]] by lia; rewrite E; reflexivity.
  - destruct (is_ws c); reflexivity.
Qed.
Lemma format_items_cons c s : c <> 37%N -> format_items (c :: s) = (if is_ws c then FSpace c else FLit c) :: format_items s.
Proof. intro H. cbn [format_items]. change (chr "%") with 37%N. rewrite (proj2 (N.eqb_neq c 37) H). reflexivity. Qed.
Lemma format_items_written fmt ps : written fmt ps -> format_items fmt = map item_of ps.
Proof.
  induction 1 as [|c s ps N W IH|k qs s ps I W IH|f p k n s ps If Ik W IH].
  - reflexivity.
  - rewrite format_items_cons by exact N. rewrite IH. reflexivity.
  - rewrite map_app, <- IH. unfold others in I.
    repeat (destruct I as [I|I]; [injection I as <- <-; reflexivity|]). destruct I.
  - cbn [map]. rewrite <- IH. unfold paddings in If. unfold numbers in Ik.
    repeat (destruct If as [If|If]; [injection If as <- <-;
      repeat (destruct Ik as [Ik|Ik]; [injection Ik as <- <-; reflexivity|]); destruct Ik|]). destruct If.
Qed.
Lemma item_of_date p : date_item (item_of p) = true.
Proof. destruct p; cbn [item_of]; try reflexivity. destruct (is_ws c); reflexivity. Qed.
Lemma printable_written fmt ps : written fmt ps -> printable fmt = true.
Proof.
  intro W. unfold printable. rewrite (format_items_written _ _ W). apply forallb_forall. intros i I.
  apply in_map_iff in I. destruct I as (p & <- & _). apply item_of_date.
Qed.
Lemma wide_time k s is n : wide_spec k s = Some (is, n) -> forallb date_item is = false.
Proof.
  unfold wide_spec. intro H.
  repeat match type of H with (if ?b then _ else _) = _ => destruct b end;
    first [discriminate H|injection H as <- _; reflexivity].
Qed.
Lemma spec_good k : forallb date_item (spec_items k) = true -> exists t qs, In (t, qs) others /\ lit t = [k].
Proof.
  intro H.
  assert (K : forall (t : string) c, N.eqb k c = true -> lit t = [c] -> (exists qs, In (t, qs) others) -> exists t qs, In (t, qs) others /\ lit t = [k]).
  { intros t c E L (qs & I). apply N.eqb_eq in E. subst c. eauto. }
  unfold spec_items in H.
  repeat match type of H with forallb _ (if ?b then _ else _) = true =>
    let E := fresh "E" in destruct b eqn:E; [try discriminate H; clear H|] end; [..|discriminate H].
  all: repeat match goal with E : (_ || _)%bool = true |- _ => apply orb_true_iff in E; destruct E as [E|E] end.
  all: match goal with E : N.eqb _ (chr ?t) = true |- _ => apply (K t (chr t) E eq_refl); eexists; unfold others; repeat ((left; reflexivity) || right) end.
Qed.

Lemma repad_good p k : forallb date_item (repad p (spec_items k)) = true ->
  exists t n, In (t, n) numbers /\ lit t = [k].
Proof.
  intro H.
  assert (K : forall (t : string) c, N.eqb k c = true -> lit t = [c] -> (exists n, In (t, n) numbers) -> exists t n, In (t, n) numbers /\ lit t = [k]).
  { intros t c E L (qs & I). apply N.eqb_eq in E. subst c. eauto. }
  unfold spec_items in H.
  repeat match type of H with context [if ?b then _ else _] =>
    let E := fresh "E" in destruct b eqn:E; [try discriminate H; clear H|] end; [..|discriminate H].
  all: match goal with E : N.eqb _ (chr ?t) = true |- _ => apply (K t (chr t) E eq_refl); eexists; unfold numbers; repeat ((left; reflexivity) || right) end.
Qed.
Lemma pad_good k p : pad_of k = Some p -> exists t, In (t, p) paddings /\ lit t = [k].
Proof.
  unfold pad_of. intro H.
  repeat match type of H with context [if ?b then _ else _] =>
    let E := fresh "E" in destruct b eqn:E; [injection H as <-|] end; [..|discriminate H].
  all: match goal with E : N.eqb _ (chr ?t) = true |- _ => apply N.eqb_eq in E; subst k; exists t end; (split; [|reflexivity]); unfold paddings;
    repeat ((left; reflexivity) || right).
Qed.
Lemma written_printable n : forall fmt, (List.length fmt <= n)%nat -> printable fmt = true -> exists ps, written fmt ps.
Proof.
  unfold printable. induction n as [|n IH]; intros fmt L H.
  - destruct fmt; [|cbn in L; lia]. exists []. constructor.
  - destruct fmt as [|c s]; [exists []; constructor|]. cbn [List.length] in L.
    destruct (N.eq_dec c 37) as [->|N].
    + cbn [format_items] in H. change (N.eqb 37 (chr "%")) with true in H. cbn match in H.
      destruct s as [|k s]; [discriminate|]. cbn [List.length] in L.
      destruct (pad_of k) as [p|] eqn:Ep.
      * destruct s as [|k' s]; [discriminate|]. cbn [List.length] in L. rewrite forallb_app in H. apply andb_true_iff in H. destruct H as [H1 H2].
        destruct (IH s) as (ps & W); [lia|exact H2|].
        destruct (repad_good p k' H1) as (t & m & I & E). destruct (pad_good k p Ep) as (f & If & Ef).
        exists (PNum m p :: ps). pose proof (written_pad f p t m s ps If I W) as X. rewrite Ef, E in X. exact X.
      * destruct (wide_spec k s) as [[is m]|] eqn:Ew.
        { rewrite forallb_app, (wide_time _ _ _ _ Ew) in H. discriminate H. }
        rewrite forallb_app in H. apply andb_true_iff in H. destruct H as [H1 H2].
        destruct (IH s) as (ps & W); [lia|exact H2|].
        destruct (spec_good k H1) as (t & qs & I & E). exists (qs ++ ps).
        pose proof (written_spec t qs s ps I W) as X. rewrite E in X. exact X.
    + rewrite format_items_cons in H by exact N. cbn [forallb] in H. apply andb_true_iff in H. destruct H as [_ H].
      destruct (IH s) as (ps & W); [lia|exact H|]. exists (PText c :: ps). constructor; assumption.
Qed.
Lemma printable_iff fmt : printable fmt = true <-> valid_format fmt.
Proof. unfold valid_format. split; [apply (written_printable (List.length fmt)), Nat.le_refl|]. intros (ps & W). exact (printable_written _ _ W). Qed.
Lemma format_date_written fmt ps x :
  written fmt ps -> 0 <= year x < 10000 -> format_date fmt x = date_text ps x.
Proof.
  intros W Y. unfold format_date. rewrite (format_items_written _ _ W).
  unfold date_text. rewrite map_map, flat_map_concat_map. f_equal. apply map_ext. intro p. apply show_item_of, Y.
Qed.

(** ** Reading *)
Lemma take_digits_app w a b : all_digits a -> (List.length a <= w)%nat -> List.length a = w \/ ~ starts_digit b ->
  take_digits w (a ++ b) = (a, b).
Proof.
  intros A. revert w. induction a as [|c a IH]; intros w L H.
  - destruct w as [|w]; [destruct b; reflexivity|]. destruct H as [H|H]; [discriminate|]. cbn [app].
    destruct b as [|c b]; [reflexivity|]. cbn [take_digits]. cbn [starts_digit] in H.
    destruct (is_digit c) eqn:D; [|reflexivity]. apply is_digit_range in D. contradiction.
  - apply andb_true_iff in A. destruct A as [Hc A]. destruct w as [|w]; [cbn in L; lia|]. cbn [app take_digits].
    rewrite Hc, (IH A); [reflexivity|cbn in L; lia|]. destruct H as [H|H]; [left; cbn in H; lia|right; exact H].
Qed.
Lemma digit_not_ws c : is_digit c = true -> is_ws c = false.
Proof.
  intro H. apply is_digit_range in H. unfold is_ws. rewrite !orb_false_iff.
  repeat split; try (apply N.eqb_neq; lia).
  - apply andb_false_iff. right. apply N.leb_gt. lia.
  - apply andb_false_iff. left. apply N.leb_gt. lia.
Qed.
Lemma trim_twice s : trim_start (trim_start s) = trim_start s.
Proof. destruct (trim_start_spec s) as (w & _ & _ & K). apply trim_start_id, K. Qed.
Lemma scan_num_trim signed w s : scan_num signed w (trim_start s) = scan_num signed w s.
Proof. unfold scan_num. rewrite trim_twice. reflexivity. Qed.
Lemma scan_num_text signed w p v r : (0 < w <= 4)%nat -> 0 <= v < 10 ^ Z.of_nat w ->
  p = ZeroPad \/ ~ starts_digit r -> scan_num signed w (number_text w p v ++ r) = Some (v, r).
Proof.
  intros W V H. destruct (number_shape w p v) as (k & ds & E & D & Nd & Ev & L & Lz & _); [lia|exact V|].
  rewrite E. unfold scan_num. rewrite <- app_assoc.
  rewrite trim_start_ws by (clear; induction k as [|k IH]; [reflexivity|apply all_ws_cons; split; [reflexivity|exact IH]]).
  destruct ds as [|c ds]; [contradiction|].
  assert (Hc := D). apply andb_true_iff in Hc. destruct Hc as [Hc _].
  cbn [app trim_start]. rewrite (digit_not_ws c Hc). apply is_digit_range in Hc.
  change (chr "-") with 45%N. change (chr "+") with 43%N.
  rewrite (proj2 (N.eqb_neq c 45)), (proj2 (N.eqb_neq c 43)) by lia. rewrite !andb_false_r.
  change (c :: ds ++ r) with ((c :: ds) ++ r).
  rewrite take_digits_app; [|exact D|exact L|destruct H as [H|H]; [left; apply Lz, H|right; exact H]].
  rewrite Ev. rewrite (proj2 (Z.ltb_lt v _)); [reflexivity|].
  assert (10 ^ Z.of_nat w <= 10 ^ 4) by (apply Z.pow_le_mono_r; lia). lia.
Qed.

Lemma skipn_app_exact {A} (a b : list A) : skipn (List.length a) (a ++ b) = b.
Proof. rewrite skipn_app, skipn_all, Nat.sub_diag. reflexivity. Qed.
Lemma scan_name_text long names : Forall (fun n => (3 <= List.length n)%nat) names ->
  NoDup (map (fun n => map ascii_lower (firstn 3 n)) names) -> forall i k n r,
  nth_error names k = Some n ->
  scan_name long names i ((if long then n else firstn 3 n) ++ r) = Some (i + Z.of_nat k, r).
Proof.
  intros F N. induction F as [|m names Lm F IH]; intros i k n r K; [destruct k; discriminate|].
  cbn [map] in N. apply NoDup_cons_iff in N. destruct N as [Nm N].
  assert (Ln : (3 <= List.length n)%nat).
  { apply nth_error_In in K. destruct K as [<-|K]; [exact Lm|]. rewrite Forall_forall in F. apply F, K. }
  set (t := (if long then n else firstn 3 n) ++ r).
  assert (Et : exists u, t = firstn 3 n ++ u).
  { unfold t. destruct long; [|eauto]. exists (skipn 3 n ++ r). rewrite app_assoc, firstn_skipn. reflexivity. }
  assert (L3 : forall q : str, (3 <= List.length q)%nat -> List.length (firstn 3 q) = 3%nat) by (intros q Q; rewrite firstn_length; lia).
  destruct Et as (u & Et). cbn [scan_name].
  destruct k as [|k].
  - cbn in K. injection K as ->. rewrite Et at 1. rewrite map_app, starts_with_app.
    replace (i + Z.of_nat 0) with i by lia. do 2 f_equal.
    unfold t. destruct long.
    + rewrite skipn_app. replace (3 - List.length n)%nat with 0%nat by lia. cbn [skipn].
      rewrite map_app, starts_with_app. cbn [andb]. apply skipn_app_exact.
    + cbn [andb]. rewrite <- (L3 n Ln) at 1. apply skipn_app_exact.
  - cbn in K. destruct (starts_with (map ascii_lower (firstn 3 m)) (map ascii_lower t)) eqn:Es.
    + exfalso. apply Nm. apply in_map_iff. exists n. split; [|apply nth_error_In in K; exact K].
      apply starts_with_iff in Es. destruct Es as (q & Es). rewrite Et, map_app in Es.
      assert (El : List.length (map ascii_lower (firstn 3 n)) = List.length (map ascii_lower (firstn 3 m))).
      { rewrite !map_length, !L3 by assumption. reflexivity. }
      apply (f_equal (firstn (List.length (map ascii_lower (firstn 3 n))))) in Es.
      rewrite firstn_app, firstn_all, Nat.sub_diag, firstn_O, app_nil_r in Es.
      rewrite El, firstn_app, firstn_all, Nat.sub_diag, firstn_O, app_nil_r in Es. exact Es.
    + unfold t. rewrite (IH N (i + 1) k n r K). do 2 f_equal. lia.
Qed.
Lemma months_apart : Forall (fun n => (3 <= List.length n)%nat) month_names
  /\ NoDup (map (fun n => map ascii_lower (firstn 3 n)) month_names).
Proof.
  split; [repeat constructor|]. cbn.
  repeat (constructor; [cbn; intro H; repeat (destruct H as [H|H]; [discriminate H|]); exact H|]). constructor.
Qed.
Lemma days_apart : Forall (fun n => (3 <= List.length n)%nat) day_names
  /\ NoDup (map (fun n => map ascii_lower (firstn 3 n)) day_names).
Proof.
  split; [repeat constructor|]. cbn.
  repeat (constructor; [cbn; intro H; repeat (destruct H as [H|H]; [discriminate H|]); exact H|]). constructor.
Qed.

(** The fields read so far agree with [x] and the time [t]. *)
Section Reading.
Variable t : field -> Z.
Definition field_of (x : date) (a : field) : Z :=
  match a with
  | AYear => year x | ACentury => year x / 100 | AShortYear => year x mod 100
  | AMonth => month x | ADay => day x | AOrdinal => ordinal x | AWeekday => weekday_of x
  | AIsoYear => week_year x | AIsoShort => week_year x mod 100 | AIsoWeek => iso_week x
  | AWeekSunday => weeks_from 6 x | AWeekMonday => weeks_from 0 x | AQuarter => quarter x
  | _ => t a
  end.
Definition sound (x : date) (a : field) : Prop :=
  match a with AIsoYear | AIsoShort => 0 <= week_year x | _ => True end.
Definition agrees (x : date) (p : parsed) : Prop := forall a v, p a = Some v -> v = field_of x a /\ sound x a.
Lemma set_agrees x p a : agrees x p -> sound x a -> exists q, set_field p a (field_of x a) = Some q /\ agrees x q
  /\ q a <> None /\ (forall b, p b <> None -> q b <> None) /\ (forall b, b <> a -> q b = p b).
Proof.
  intros A So. unfold set_field. destruct (p a) as [w|] eqn:E.
  - rewrite <- (proj1 (A a w E)), Z.eqb_refl. exists p. split; [reflexivity|]. split; [exact A|]. split; [congruence|]. auto.
  - eexists. split; [reflexivity|].
    assert (K : forall b, field_eqb a b = true <-> a = b) by (intro b; destruct a, b; cbn; split; congruence).
    split; [|split; [|split]].
    + intros b v. destruct (field_eqb a b) eqn:Eb; [|apply A]. apply K in Eb. subst b. intro Ev. injection Ev as <-. auto.
    + rewrite (proj2 (K a) eq_refl). discriminate.
    + intros b Hb. destruct (field_eqb a b); [discriminate|exact Hb].
    + intros b Hb. destruct (field_eqb a b) eqn:Eb; [|reflexivity]. apply K in Eb. congruence.
Qed.
(** The field that a piece tells. *)
Definition told (p : piece) : option field :=
  match p with
  | PNum n _ => Some (n_field (read_num n))
  | PMonthName _ => Some AMonth
  | PDayName _ => Some AWeekday
  | PText _ => None
  end.
Lemma number_read x n : 0 <= year x < 10000 -> counted x n -> let k := read_num n in
  n_width k = number_width n /\ n_least k <= number_of x n <= n_most k /\ n_value k (number_of x n) = field_of x (n_field k).
Proof.
  intros Y C. destruct (date_bounds x) as (_ & M & _). assert (D := day_bounds x). assert (O := day_of_year_bounds x).
  assert (WY := week_year_bounds x Y). assert (WI := iso_week_bounds x). assert (W6 := weeks_bounds 6 x). assert (W0 := weeks_bounds 0 x).
  assert (B := weekday_bounds x).
  destruct n; cbn [read_num n_width n_least n_most n_value n_field number_of number_width field_of];
    (split; [reflexivity|]); (split; [|try reflexivity]); try lia.
  - assert (0 <= year x / 100 < 100) by (split; [apply Z.div_pos; lia|apply Z.div_lt_upper_bound; lia]). lia.
  - assert (0 <= year x mod 100 < 100) by (apply Z.mod_pos_bound; lia). lia.
  - symmetry. apply ordinal_day.
  - assert (0 <= dayn x mod 7 < 7) by (apply Z.mod_pos_bound; lia). lia.
  - rewrite Zplus_mod_idemp_l. unfold weekday_of. replace (dayn x + 6) with (dayn x - 1 + 1 * 7) by lia.
    apply Z.mod_add. lia.
  - assert (0 <= (dayn x - 1) mod 7 < 7) by (apply Z.mod_pos_bound; lia). lia.
  - unfold weekday_of. lia.
  - assert (0 <= week_year x mod 100 < 100) by (apply Z.mod_pos_bound; lia). lia.
  - rewrite <- week_iso. exact WI.
  - symmetry. apply week_iso.
  - rewrite <- weeks_sunday. exact W6.
  - symmetry. apply weeks_sunday.
  - rewrite <- weeks_monday. exact W0.
  - symmetry. apply weeks_monday.
  - Z.div_mod_to_equations. lia.
  - unfold quarter. Z.div_mod_to_equations. lia.
Qed.
Lemma shown_name b s : name_text b s = (if b then lit s else firstn 3 (lit s)).
Proof. reflexivity. Qed.
Lemma letter_first s r : match s with [] => False | c :: _ => is_ws c = false end -> trim_start (s ++ r) = s ++ r.
Proof. destruct s as [|c s]; [intros []|]. intro H. apply trim_start_id. exact H. Qed.

Lemma parse_item_piece x q r p : 0 <= year x < 10000 -> agrees x p ->
  match q with PNum n f => (f = ZeroPad \/ ~ starts_digit r) /\ counted x n | _ => True end ->
  forall s, s = piece_shown x q ++ r \/ s = trim_start (piece_shown x q ++ r) ->
  exists r' p', parse_item (item_of q) s p = Some (r', p') /\ (r' = r \/ r' = trim_start r) /\ agrees x p'
    /\ (forall a, p a <> None -> p' a <> None) /\ (forall a, told q = Some a -> p' a <> None)
    /\ (forall a, told q <> Some a -> p' a = p a).
Proof.
  intros Y A H s Hs. destruct q as [n f|b|b|c]; cbn [item_of piece_shown told] in *.
  - destruct H as [H C]. destruct (number_read x n Y C) as (Wn & Bn & Vn). cbv zeta in *.
    assert (So : sound x (n_field (read_num n))) by (destruct n; exact C || exact I).
    assert (E : scan_num (n_signed (read_num n)) (n_width (read_num n)) s = Some (number_of x n, r)).
    { rewrite Wn. destruct Hs as [->| ->]; [|rewrite scan_num_trim]; (apply scan_num_text;
        [destruct n; cbn; lia|apply counted_bounds; assumption|exact H]). }
    cbn [parse_item]. rewrite E, (proj2 (Z.leb_le _ _)), (proj2 (Z.leb_le _ _)) by lia. cbn [andb]. rewrite Vn.
    destruct (set_agrees x p (n_field (read_num n)) A So) as (p' & Ep & A' & T & K & Oth).
    exists r, p'. rewrite Ep. cbn [option_map]. split; [reflexivity|]. split; [auto|]. split; [exact A'|]. split; [exact K|]. split.
    + intros a Ha. injection Ha as <-. exact T.
    + intros a Ha. apply Oth. congruence.
  - destruct (date_bounds x) as (_ & M & _). set (i := Z.to_nat (month x - 1)) in *.
    assert (Hn : nth_error month_names i = Some (lit (nth i names_of_months ""%string))).
    { unfold i. destruct (month_cases _ M) as [E|[E|[E|[E|[E|[E|[E|[E|[E|[E|[E|E]]]]]]]]]]]; rewrite E; reflexivity. }
    assert (Es : s = (if b then lit (nth i names_of_months ""%string) else firstn 3 (lit (nth i names_of_months ""%string))) ++ r).
    { rewrite <- shown_name. destruct Hs as [->| ->]; [reflexivity|]. apply letter_first. unfold i, name_text.
      destruct (month_cases _ M) as [E|[E|[E|[E|[E|[E|[E|[E|[E|[E|[E|E]]]]]]]]]]]; rewrite E; destruct b; reflexivity. }
    cbn [parse_item]. rewrite Es, (scan_name_text b month_names (proj1 months_apart) (proj2 months_apart) 1 i _ r Hn).
    replace (1 + Z.of_nat i) with (field_of x AMonth) by (cbn [field_of]; unfold i; lia).
    destruct (set_agrees x p AMonth A I) as (p' & Ep & A' & T & K & Oth).
    exists r, p'. rewrite Ep. cbn [option_map]. split; [reflexivity|]. split; [auto|]. split; [exact A'|]. split; [exact K|]. split.
    + intros a Ha. injection Ha as <-. exact T.
    + intros a Ha. apply Oth. congruence.
  - assert (B := weekday_bounds x). rewrite weekday_turn in Hs. set (i := Z.to_nat (weekday_of x)).
    set (nm := nth (Z.to_nat (if weekday_of x =? 6 then 0 else weekday_of x + 1)) names_of_days ""%string) in *.
    assert (Wc : weekday_of x = 0 \/ weekday_of x = 1 \/ weekday_of x = 2 \/ weekday_of x = 3 \/ weekday_of x = 4
            \/ weekday_of x = 5 \/ weekday_of x = 6) by lia.
    assert (Hn : nth_error day_names i = Some (lit nm)).
    { unfold i, nm. destruct Wc as [E|[E|[E|[E|[E|[E|E]]]]]]; rewrite E; reflexivity. }
    assert (Es : s = (if b then lit nm else firstn 3 (lit nm)) ++ r).
    { rewrite <- shown_name. destruct Hs as [->| ->]; [reflexivity|]. apply letter_first. unfold nm, name_text.
      destruct Wc as [E|[E|[E|[E|[E|[E|E]]]]]]; rewrite E; destruct b; reflexivity. }
    cbn [parse_item]. rewrite Es, (scan_name_text b day_names (proj1 days_apart) (proj2 days_apart) 0 i _ r Hn).
    replace (0 + Z.of_nat i) with (field_of x AWeekday) by (cbn [field_of]; unfold i; lia).
    destruct (set_agrees x p AWeekday A I) as (p' & Ep & A' & T & K & Oth).
    exists r, p'. rewrite Ep. cbn [option_map]. split; [reflexivity|]. split; [auto|]. split; [exact A'|]. split; [exact K|]. split.
    + intros a Ha. injection Ha as <-. exact T.
    + intros a Ha. apply Oth. congruence.
  - cbn [app trim_start] in Hs. destruct (is_ws c) eqn:W.
    + exists (trim_start r), p. cbn [parse_item]. split; [|split; [auto|split; [exact A|split; [auto|split; [discriminate|auto]]]]].
      destruct Hs as [->| ->]; [cbn [trim_start]; rewrite W; reflexivity|rewrite trim_twice; reflexivity].
    + exists r, p. assert (s = c :: r) as -> by (destruct Hs; assumption). cbn [parse_item]. rewrite N.eqb_refl.
      split; [reflexivity|split; [auto|split; [exact A|split; [auto|split; [discriminate|auto]]]]].
Qed.
Lemma parse_items_text x ps : 0 <= year x < 10000 -> forall p s, agrees x p -> apart ps x ->
  s = date_text ps x \/ s = trim_start (date_text ps x) ->
  exists p', parse_items (map item_of ps) s p = Some p' /\ agrees x p'
    /\ (forall a, p a <> None -> p' a <> None) /\ (forall q a, In q ps -> told q = Some a -> p' a <> None)
    /\ (forall a, (forall q, In q ps -> told q <> Some a) -> p' a = p a).
Proof.
  intro Y. induction ps as [|q ps IH]; intros p s A Ap Hs.
  - assert (s = []) as -> by (destruct Hs; assumption). exists p. cbn. split; [reflexivity|split; [exact A|split; [auto|split; [intros q a []|auto]]]].
  - unfold date_text in Hs. cbn [flat_map] in Hs. fold (date_text ps x) in Hs.
    assert (H : match q with PNum n f => (f = ZeroPad \/ ~ starts_digit (date_text ps x)) /\ counted x n | _ => True end)
      by (destruct q; try exact I; split; apply Ap).
    assert (Ap' : apart ps x) by (destruct q; try exact Ap; apply Ap).
    destruct (parse_item_piece x q (date_text ps x) p Y A H s Hs) as (r & p1 & E & Hr & A1 & K1 & T1 & O1).
    destruct (IH p1 r A1 Ap' Hr) as (p2 & E2 & A2 & K2 & T2 & O2).
    exists p2. cbn [map parse_items]. rewrite E. split; [exact E2|split; [exact A2|split; [auto|split]]].
    + intros q' a [<-|I] Ha; [apply K2, T1, Ha|apply (T2 q' a I Ha)].
    + intros a Ha. rewrite O2 by (intros q' I; apply Ha; right; exact I). apply O1, Ha. left. reflexivity.
Qed.

(** ** The date of the fields *)
Lemma agree_ok x p a : agrees x p -> agree (p a) (field_of x a) = true.
Proof. intro A. unfold agree. destruct (p a) as [v|] eqn:E; [|reflexivity]. apply Z.eqb_eq, (A a v E). Qed.
Lemma agree_part_ok x p a y : agrees x p -> (p a <> None -> 0 <= y) -> agree_part (p a) y (field_of x a) = true.
Proof.
  intros A P. unfold agree_part. destruct (p a) as [v|] eqn:E; [|reflexivity].
  rewrite (proj2 (Z.leb_le _ _)) by (apply P; discriminate). apply Z.eqb_eq, (A a v E).
Qed.
(** The fields tell the year. *)
Definition tells (x : date) (y q r : option Z) : Prop :=
  y <> None \/ (r <> None /\ (q <> None \/ 1970 <= year x < 2070)).
Lemma resolve_agrees z (y q r : option Z) :
  (forall v, y = Some v -> v = z) -> (forall v, q = Some v -> 0 <= z < 10000 /\ v = z / 100) ->
  (forall v, r = Some v -> 0 <= z < 10000 /\ v = z mod 100) ->
  (y <> None \/ (r <> None /\ (q <> None \/ 1970 <= z < 2070)) -> resolve_year y q r = Some (Some z))
  /\ (q = None \/ r <> None \/ y <> None -> exists o, resolve_year y q r = Some o /\ (y = None -> q = None -> r = None -> o = None)).
Proof.
  intros K1 K2 K3. assert (Dm := Z.div_mod z 100 ltac:(lia)).
  unfold resolve_year. destruct y as [y|].
  - rewrite (K1 y eq_refl). split; intros _; [|eexists; split; [|discriminate]];
      (destruct q as [q|], r as [r|]; try reflexivity;
        try destruct (K2 _ eq_refl) as [B ->]; try destruct (K3 _ eq_refl) as [B' ->];
        cbn [agree]; rewrite (proj2 (Z.leb_le 0 _)), ?Z.eqb_refl by lia; reflexivity).
  - split.
    + intros [[]|[Hr Hq]]; [reflexivity|]. destruct r as [r|]; [|contradiction]. destruct (K3 _ eq_refl) as [B ->].
      destruct q as [q|].
      * destruct (K2 _ eq_refl) as [_ ->]. replace (z / 100 * 100 + z mod 100) with z by lia.
        rewrite (proj2 (Z.ltb_lt _ _)) by lia. reflexivity.
      * destruct Hq as [[]|Hq]; [reflexivity|]. do 2 f_equal. assert (R := Z.mod_pos_bound z 100 ltac:(lia)).
        assert (z / 100 = 19 \/ z / 100 = 20) as [E|E] by lia; rewrite E in Dm; destruct (Z.ltb_spec (z mod 100) 70); lia.
    + intro H. destruct q as [q|], r as [r|].
      * destruct (K2 _ eq_refl) as [B ->], (K3 _ eq_refl) as [_ ->]. replace (z / 100 * 100 + z mod 100) with z by lia.
        rewrite (proj2 (Z.ltb_lt _ _)) by lia. eexists. split; [reflexivity|discriminate].
      * destruct H as [H|[H|H]]; [discriminate|contradiction H; reflexivity|contradiction H; reflexivity].
      * eexists. split; [reflexivity|discriminate].
      * exists None. auto.
Qed.
Lemma some_of x p a : agrees x p -> p a <> None -> p a = Some (field_of x a).
Proof. intros A H. destruct (p a) as [v|] eqn:E; [|contradiction]. f_equal. apply (A a v E). Qed.
Lemma to_date_agrees x p : 0 <= year x < 10000 -> agrees x p ->
  let year_told := p AYear <> None \/ (p AShortYear <> None /\ (p ACentury <> None \/ 1970 <= year x < 2070)) in
  (year_told /\ ((p AMonth <> None /\ p ADay <> None) \/ p AOrdinal <> None
      \/ ((p AWeekSunday <> None \/ p AWeekMonday <> None) /\ p AWeekday <> None)))
  \/ ((p AIsoYear <> None \/ (p AIsoShort <> None /\ 1970 <= week_year x < 2070)) /\ p AIsoWeek <> None /\ p AWeekday <> None
      /\ (p ACentury <> None \/ p AShortYear <> None -> year_told)) ->
  to_date p = Some x.
Proof.
  intros Y A year_told H. unfold to_date. assert (WY := week_year_bounds x Y).
  destruct (resolve_agrees (year x) (p AYear) (p ACentury) (p AShortYear)) as [Ry Ry'];
    [intros v E; apply (A _ _ E)|intros v E; split; [exact Y|apply (A _ _ E)]|intros v E; split; [exact Y|apply (A _ _ E)]|].
  assert (I2 : p AIsoShort <> None -> 0 <= week_year x).
  { intro P. destruct (p AIsoShort) as [v|] eqn:E; [|contradiction]. apply (A _ _ E). }
  destruct (resolve_agrees (week_year x) (p AIsoYear) None (p AIsoShort)) as [Ri Ri'];
    [intros v E; apply (A _ _ E)|discriminate|intros v E; split; [assert (0 <= week_year x) by (apply I2; congruence); lia|apply (A _ _ E)]|].
  destruct (Ri' (or_introl eq_refl)) as (iy & Eiy & _).
  assert (Ey : exists y, resolve_year (p AYear) (p ACentury) (p AShortYear) = Some y
    /\ (y = Some (year x) \/ (y = None /\ ~ year_told) )).
  { assert (Dt : year_told \/ ~ year_told).
    { unfold year_told. destruct (p AYear), (p AShortYear), (p ACentury);
        first [left; left; discriminate | left; right; split; [discriminate|left; discriminate]
              | right; intros [[]|[[] _]]; reflexivity | idtac].
      destruct (Z_le_gt_dec 1970 (year x)), (Z_lt_le_dec (year x) 2070);
        first [left; right; split; [discriminate|right; lia]|right; intros [K|[_ [K|K]]]; [apply K; reflexivity|apply K; reflexivity|lia]]. }
    destruct Dt as [T|T]; [exists (Some (year x)); split; [apply Ry, T|auto]|].
    destruct H as [[T' _]|(_ & _ & _ & T')]; [contradiction|].
    destruct (p ACentury) eqn:Ec; [destruct T; apply T'; left; discriminate|].
    destruct (p AShortYear) eqn:Es; [destruct T; apply T'; right; discriminate|].
    destruct (p AYear) eqn:Ey0; [destruct T; left; discriminate|].
    exists None. split; [reflexivity|auto]. }
  destruct Ey as (y & Ey & Hy). rewrite Ey, Eiy.
  set (iso := match iy, p AIsoWeek, p AWeekday with Some iy, Some n, Some d => from_iso iy n d | _, _, _ => None end).
  assert (Ei : (p AIsoYear <> None \/ (p AIsoShort <> None /\ 1970 <= week_year x < 2070)) -> p AIsoWeek <> None -> p AWeekday <> None -> iso = Some x).
  { intros K1 K2 K3. unfold iso. rewrite Ri in Eiy by (destruct K1 as [K1|[K1 K1']]; [left; exact K1|right; split; [exact K1|right; exact K1']]). injection Eiy as <-.
    rewrite (some_of x p _ A K2), (some_of x p _ A K3). cbn [field_of]. rewrite <- week_year_iso. apply from_iso_date. }
  assert (Ef : match y with
        | None => iso
        | Some y =>
            match p AMonth, p ADay, p AOrdinal, p AWeekSunday, p AWeekMonday, p AWeekday with
            | Some m, Some d, _, _, _, _ => from_ymd y m d
            | _, _, Some o, _, _, _ => from_yo y o
            | _, _, _, Some n, _, Some d => from_week 6 y n d
            | _, _, _, _, Some n, Some d => from_week 0 y n d
            | _, _, _, _, _, _ => iso
            end
        end = Some x).
  { destruct Hy as [->|[-> Ny]].
    2: { destruct H as [[T _]|(K1 & K2 & K3 & _)]; [contradiction|auto]. }
    assert (Hd : ((p AMonth <> None /\ p ADay <> None) \/ p AOrdinal <> None
      \/ ((p AWeekSunday <> None \/ p AWeekMonday <> None) /\ p AWeekday <> None)) \/ iso = Some x) by (destruct H as [[_ H]|(K1 & K2 & K3 & _)]; auto).
    clear H Ei. clearbody iso.
    assert (KM := A AMonth). assert (KD := A ADay). assert (KO := A AOrdinal). assert (KS := A AWeekSunday). assert (KN := A AWeekMonday). assert (KW := A AWeekday).
    cbn [field_of] in *.
    assert (FO : from_yo (year x) (ordinal x) = Some x) by (apply from_yo_dayn; auto).
    assert (FM : from_ymd (year x) (month x) (day x) = Some x) by (apply from_ymd_Some; auto).
    assert (F6 := from_week_date 6 x). assert (F0 := from_week_date 0 x).
    destruct (p AMonth) as [m|], (p ADay) as [d|], (p AOrdinal) as [o|], (p AWeekSunday) as [a|], (p AWeekMonday) as [b|], (p AWeekday) as [c|];
      repeat match goal with K : forall v, Some ?z = Some v -> _ |- _ => destruct (K z eq_refl) as [-> _]; clear K end;
      first [assumption | destruct Hd as [[[H1 H2]|[H3|[[H4|H5] H6]]]|Hd]; [..|assumption]; exfalso; congruence]. }
  rewrite Ef. clear Ef Ei Ey Eiy.
  rewrite (agree_ok x p AYear A : agree (p AYear) (year x) = true).
  rewrite (agree_part_ok x p ACentury (year x) A (fun _ => proj1 Y) : agree_part (p ACentury) (year x) (year x / 100) = true).
  rewrite (agree_part_ok x p AShortYear (year x) A (fun _ => proj1 Y) : agree_part (p AShortYear) (year x) (year x mod 100) = true).
  rewrite (agree_ok x p AMonth A : agree (p AMonth) (month x) = true), (agree_ok x p ADay A : agree (p ADay) (day x) = true),
    (agree_ok x p AOrdinal A : agree (p AOrdinal) (ordinal x) = true), (agree_ok x p AWeekday A : agree (p AWeekday) (weekday_of x) = true).
  rewrite week_year_iso, (agree_ok x p AIsoYear A : agree (p AIsoYear) (week_year x) = true).
  rewrite (agree_part_ok x p AIsoShort (week_year x) A I2 : agree_part (p AIsoShort) (week_year x) (week_year x mod 100) = true).
  rewrite (agree_ok x p AIsoWeek A : agree (p AIsoWeek) (iso_week x) = true), (agree_ok x p AWeekSunday A : agree (p AWeekSunday) (weeks_from 6 x) = true),
    (agree_ok x p AWeekMonday A : agree (p AWeekMonday) (weeks_from 0 x) = true), (agree_ok x p AQuarter A : agree (p AQuarter) (quarter x) = true).
  reflexivity.
Qed.
End Reading.
(** A year told by two digits only is taken from 1970 to 2069. *)
Lemma parse_short_year fmt ps x y : written fmt ps -> apart ps x -> tells_day ps -> has ps NShortYear -> only_short ps ->
  0 <= year x < 10000 -> 1970 <= y < 2070 -> y mod 100 = year x mod 100 ->
  parse_date (format_date fmt x) fmt = from_ymd y (month x) (day x).
Proof.
  intros W Ap Hd (f & Hs) Os Y Hy Ey. unfold parse_date. rewrite (format_date_written fmt ps x W Y), (format_items_written _ _ W).
  set (t := fun _ : field => 0).
  destruct (parse_items_text t x ps Y (fun _ => None) (date_text ps x)) as (p & E & A & _ & T & O);
    [intros a v; discriminate|exact Ap|left; reflexivity|].
  rewrite E. unfold to_date.
  assert (N : forall a, match a with AShortYear | AMonth | ADay | AQuarter => False | _ => True end -> p a = None).
  { intros a Ha. apply O. intros q I. specialize (Os q I). destruct q as [n g|b|b|c]; cbn [told] in *; try discriminate.
    - intro K. injection K as K. destruct n; try contradiction; cbn in K; subst a; exact Ha.
    - intro K. injection K as <-. exact Ha.
    - contradiction. }
  assert (Py := some_of t x p AShortYear A (T _ _ Hs eq_refl)).
  assert (Pm : p AMonth = Some (month x) /\ p ADay = Some (day x)).
  { destruct Hd as [[[(g & I)|(b & I)] (g' & I')]|[(g & I)|[[(g & I)|(g & I)] _]]]; try destruct (Os _ I).
    - split; [apply (some_of t x p AMonth A), (T _ _ I eq_refl)|apply (some_of t x p ADay A), (T _ _ I' eq_refl)].
    - split; [apply (some_of t x p AMonth A), (T _ _ I eq_refl)|apply (some_of t x p ADay A), (T _ _ I' eq_refl)]. }
  destruct Pm as [Pm Pd].
  assert (Pq : agree (p AQuarter) (quarter x) = true) by exact (agree_ok t x p AQuarter A).
  rewrite (N AYear I), (N ACentury I), (N AIsoYear I), (N AIsoShort I), (N AIsoWeek I), (N AOrdinal I), (N AWeekday I),
    (N AWeekSunday I), (N AWeekMonday I), Py, Pm, Pd. cbn [field_of resolve_year].
  assert (Er : year x mod 100 + (if year x mod 100 <? 70 then 2000 else 1900) = y).
  { assert (R := Z.mod_pos_bound (year x) 100 ltac:(lia)). assert (Dm := Z.div_mod y 100 ltac:(lia)). rewrite Ey in Dm.
    assert (y / 100 = 19 \/ y / 100 = 20) as [K|K] by lia; rewrite K in Dm; destruct (Z.ltb_spec (year x mod 100) 70); lia. }
  rewrite Er. destruct (from_ymd y (month x) (day x)) as [z|] eqn:Ez; [|reflexivity].
  apply from_ymd_Some in Ez. destruct Ez as (Ez & Em & Ed). cbn [agree agree_part].
  unfold quarter in *. rewrite <- Em in Pq. rewrite Pq, Ez, Em, Ed, <- Ey, !Z.eqb_refl, (proj2 (Z.leb_le _ _)) by lia. reflexivity.
Qed.
Lemma format_date_pattern fmt ps x :
  pattern fmt ps x -> 0 <= year x < 10000 -> format_date fmt x = date_text ps x.
Proof. intros (W & _) Y. apply format_date_written; assumption. Qed.

(** The pieces of a format tell the fields of the date. *)
Lemma told_date t x p ps : 0 <= year x < 10000 -> agrees t x p -> (forall q a, In q ps -> told q = Some a -> p a <> None) ->
  (tells_day ps /\ tells_year ps x) \/ (tells_week ps x /\ forall a, a = ACentury \/ a = AShortYear -> (forall q, In q ps -> told q <> Some a) -> p a = None) ->
  to_date p = Some x.
Proof.
  intros Y A T H.
  assert (Wd : tells_weekday ps -> p AWeekday <> None) by (intros [(f & I)|[(f & I)|(b & I)]]; apply (T _ _ I eq_refl)).
  assert (Hy : tells_year ps x -> p AYear <> None \/ (p AShortYear <> None /\ (p ACentury <> None \/ 1970 <= year x < 2070))).
  { intros [(f & I)|((f & I) & [(f' & I')|Hy])].
    - left. apply (T _ _ I eq_refl).
    - right. split; [apply (T _ _ I eq_refl)|left; apply (T _ _ I' eq_refl)].
    - right. split; [apply (T _ _ I eq_refl)|auto]. }
  apply (to_date_agrees t x p Y A). cbv zeta. destruct H as [[Hd Ht]|[(K1 & (f & I) & Kw & K3) N]].
  - left. split; [apply Hy, Ht|].
    destruct Hd as [[[(f & I)|(b & I)] (f' & I')]|[(f & I)|[[(f & I)|(f & I)] Kw]]].
    + left. split; [apply (T _ _ I eq_refl)|apply (T _ _ I' eq_refl)].
    + left. split; [apply (T _ _ I eq_refl)|apply (T _ _ I' eq_refl)].
    + right. left. apply (T _ _ I eq_refl).
    + right. right. split; [left; apply (T _ _ I eq_refl)|auto].
    + right. right. split; [right; apply (T _ _ I eq_refl)|auto].
  - right. split; [|split; [apply (T _ _ I eq_refl)|split; [auto|]]].
    + destruct K1 as [(g & J)|[(g & J) K1]]; [left; apply (T _ _ J eq_refl)|right; split; [apply (T _ _ J eq_refl)|exact K1]].
    + intro K. apply Hy, K3.
      assert (Dec : forall n, has ps n \/ ~ has ps n).
      { intro n. unfold has. clear. induction ps as [|q ps IH]; [right; intros (g & [])|].
        destruct IH as [(g & J)|IH]; [left; exists g; right; exact J|].
        assert (D : (exists g, q = PNum n g) \/ ~ exists g, q = PNum n g).
        { destruct q as [m g|b|b|c]; [|right; intros (g & K); discriminate..].
          assert ({m = n} + {m <> n}) as [->|Nm] by decide equality; [left; eauto|right; intros (h & K); congruence]. }
        destruct D as [(g & ->)|D]; [left; exists g; left; reflexivity|].
        right. intros (g & [J|J]); [apply D; eauto|apply IH; eauto]. }
      destruct (Dec NCentury) as [C|C]; [auto|]. destruct (Dec NShortYear) as [C'|C']; [auto|].
      exfalso. assert (p ACentury = None) as E1.
      { apply N; [auto|]. intros q I1 E1. destruct q as [n g|b|b|c]; try discriminate E1. destruct n; try discriminate E1. apply C. exists g. exact I1. }
      assert (p AShortYear = None) as E2.
      { apply N; [auto|]. intros q I1 E2. destruct q as [n g|b|b|c]; try discriminate E2. destruct n; try discriminate E2. apply C'. exists g. exact I1. }
      destruct K; contradiction.
Qed.
Lemma parse_format_date fmt ps x :
  pattern fmt ps x -> 0 <= year x < 10000 -> parse_date (format_date fmt x) fmt = Some x.
Proof.
  intros P Y. unfold parse_date. rewrite (format_date_pattern fmt ps x P Y).
  destruct P as (W & Ap & H). rewrite (format_items_written _ _ W). set (t := fun _ : field => 0).
  destruct (parse_items_text t x ps Y (fun _ => None) (date_text ps x)) as (p & E & A & _ & T & O);
    [intros a v; discriminate|exact Ap|left; reflexivity|].
  rewrite E. apply (told_date t x p ps Y A T). destruct H as [H|H]; [left; exact H|right]. split; [exact H|]. intros a _. apply O.
Qed.
