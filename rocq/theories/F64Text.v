(** Reading and printing decimals: the printed text reads back. *)
From Coq Require Import ZArith NArith List Bool String Reals Lia Lra.
From Coq Require Import Floats.SpecFloat.
From Flocq Require Import Core IEEE754.BinarySingleNaN.
From Verif Require Import Str F64 F64Facts.
Import ListNotations.
Local Open Scope Z_scope.

(** ** Digit strings *)

Lemma digits_val_acc s n :
  fold_left (fun n c => 10 * n + digit_val c) s n
  = n * 10 ^ Z.of_nat (List.length s) + digits_val s.
Proof.
  unfold digits_val. revert n. induction s as [|c s IH]; intro n.
  - simpl. lia.
  - cbn [fold_left List.length]. rewrite IH, (IH (10 * 0 + digit_val c)).
    rewrite Nat2Z.inj_succ, Z.pow_succ_r by lia. ring.
Qed.

Lemma digits_val_app a b :
  digits_val (a ++ b) = digits_val a * 10 ^ Z.of_nat (List.length b) + digits_val b.
Proof. unfold digits_val at 1. rewrite fold_left_app, digits_val_acc. reflexivity. Qed.

Lemma digits_val_cons c b :
  digits_val (c :: b) = digit_val c * 10 ^ Z.of_nat (List.length b) + digits_val b.
Proof. apply (digits_val_app [c] b). Qed.

Lemma digits_val_zeros j : digits_val (repeat 48%N j) = 0.
Proof. induction j; [reflexivity|]. cbn [repeat]. rewrite digits_val_cons, IHj. reflexivity. Qed.

Definition all_digits (s : str) : Prop := forallb is_digit s = true.

Lemma all_digits_app a b : all_digits (a ++ b) <-> all_digits a /\ all_digits b.
Proof. unfold all_digits. rewrite forallb_app, andb_true_iff. reflexivity. Qed.

Lemma is_digit_range c : is_digit c = true <-> (48 <= c <= 57)%N.
Proof. unfold is_digit. rewrite andb_true_iff, !N.leb_le. reflexivity. Qed.

Lemma digit_val_range c : is_digit c = true -> 0 <= digit_val c <= 9.
Proof. rewrite is_digit_range. unfold digit_val. lia. Qed.

Lemma digits_val_bound s :
  all_digits s -> 0 <= digits_val s < 10 ^ Z.of_nat (List.length s).
Proof.
  induction s as [|c s IH]; intro H.
  - unfold digits_val; simpl; lia.
  - apply andb_true_iff in H. destruct H as [Hc Hs]. specialize (IH Hs).
    apply digit_val_range in Hc. rewrite digits_val_cons.
    cbn [List.length]. rewrite Nat2Z.inj_succ, Z.pow_succ_r by lia. nia.
Qed.

Lemma all_digits_zeros j : all_digits (repeat 48%N j).
Proof. induction j; [reflexivity|]. exact IHj. Qed.

Lemma digits_aux_spec f : forall n acc,
  0 <= n < 10 ^ Z.of_nat (S f) ->
  exists ds, digits_aux (S f) n acc = ds ++ acc /\ all_digits ds /\ ds <> []
             /\ digits_val ds = n.
Proof.
  induction f as [|f IH]; intros n acc H.
  - cbn [digits_aux]. change (10 ^ Z.of_nat 1) with 10 in H.
    exists [Z.to_N (48 + n mod 10)].
    rewrite Z.mod_small by lia. destruct (n <? 10) eqn:E; [|apply Z.ltb_ge in E; lia].
    repeat split; [ |discriminate|].
    + unfold all_digits. cbn [forallb]. rewrite andb_true_r. apply is_digit_range. lia.
    + unfold digits_val, digit_val. cbn [fold_left]. lia.
  - remember (S f) as g. cbn [digits_aux].
    assert (0 <= n mod 10 < 10) as M by (apply Z.mod_pos_bound; lia).
    assert (is_digit (Z.to_N (48 + n mod 10)) = true) as D by (apply is_digit_range; lia).
    assert (digit_val (Z.to_N (48 + n mod 10)) = n mod 10) as V by (unfold digit_val; lia).
    destruct (n <? 10) eqn:E.
    + exists [Z.to_N (48 + n mod 10)]. repeat split; [ |discriminate|].
      * unfold all_digits. cbn [forallb]. rewrite D. reflexivity.
      * unfold digits_val. cbn [fold_left]. rewrite V. apply Z.ltb_lt in E.
        rewrite Z.mod_small; lia.
    + subst g. destruct (IH (n / 10) (Z.to_N (48 + n mod 10) :: acc)) as (ds & E1 & A & N & V1).
      { rewrite (Nat2Z.inj_succ (S f)), Z.pow_succ_r in H by lia. split; [apply Z.div_pos; lia|].
        apply Z.div_lt_upper_bound; lia. }
      exists (ds ++ [Z.to_N (48 + n mod 10)]). repeat split.
      * rewrite E1, <- app_assoc. reflexivity.
      * apply all_digits_app. split; [exact A|]. unfold all_digits. cbn [forallb].
        rewrite D. reflexivity.
      * destruct ds; discriminate.
      * rewrite digits_val_app, V1. unfold digits_val at 1. cbn [fold_left].
        rewrite V. change (Z.of_nat (List.length [Z.to_N (48 + n mod 10)])) with 1.
        generalize (Z.div_mod n 10). lia.
Qed.

Lemma digits_fuel n : 0 <= n -> n < 10 ^ Z.of_nat (S (Z.to_nat (Z.log2 n))).
Proof.
  intro H. rewrite Nat2Z.inj_succ, Z2Nat.id by apply Z.log2_nonneg.
  destruct (Z.eq_dec n 0) as [->|N]; [simpl; lia|].
  destruct (Z.log2_spec n) as [_ L]; [lia|].
  eapply Z.lt_le_trans; [exact L|].
  apply Z.pow_le_mono_l. lia.
Qed.

Lemma digits_spec n :
  0 <= n -> all_digits (digits n) /\ digits n <> [] /\ digits_val (digits n) = n.
Proof.
  intro H. destruct (digits_aux_spec (Z.to_nat (Z.log2 n)) n []) as (ds & E & A & N & V).
  - split; [exact H|apply digits_fuel, H].
  - unfold digits. rewrite E, app_nil_r. auto.
Qed.

Lemma strip_zeros_spec s : exists j, s = strip_zeros s ++ repeat 48%N j.
Proof.
  induction s as [|c s [j IH]].
  - exists 0%nat. reflexivity.
  - cbn [strip_zeros]. destruct (strip_zeros s) as [|d t] eqn:E.
    + destruct (N.eqb_spec c 48) as [->|Hc].
      * exists (S j). cbn [repeat app]. rewrite IH at 1. reflexivity.
      * exists j. rewrite IH at 1. reflexivity.
    + exists j. rewrite IH at 1. reflexivity.
Qed.

(** ** Reading *)

Lemma fin_or_inf_unique x y s v : fin_or_inf x s v -> fin_or_inf y s v -> x = y.
Proof.
  unfold fin_or_inf. destruct (Rlt_bool _ _).
  - intros (A & C & D) (A' & C' & D'). apply f64_ext; congruence.
  - intros H H'. apply f64_eq. congruence.
Qed.

Lemma fofdec_eq neg n k n' k' :
  0 <= n -> 0 <= n' ->
  n * 10 ^ Z.of_nat k' = n' * 10 ^ Z.of_nat k ->
  fofdec neg n k = fofdec neg n' k'.
Proof.
  intros H H' E. eapply fin_or_inf_unique; [apply fofdec_correct, H|].
  replace (IZR n / IZR (10 ^ Z.of_nat k))%R with (IZR n' / IZR (10 ^ Z.of_nat k'))%R.
  - apply fofdec_correct, H'.
  - assert (forall j, IZR (10 ^ Z.of_nat j) <> 0%R) as P.
    { intro j. apply IZR_neq. apply Z.pow_nonzero; lia. }
    apply (f_equal IZR) in E. rewrite !mult_IZR in E.
    assert (P1 := P k). assert (P2 := P k').
    field_simplify_eq; [|split; assumption]. lra.
Qed.

Lemma span_digits_app a b :
  all_digits a -> (match b with c :: _ => is_digit c = false | [] => True end) ->
  span_digits (a ++ b) = (a, b).
Proof.
  intros A Hb. induction a as [|c a IH].
  - cbn [app]. destruct b as [|c b]; [reflexivity|]. cbn [span_digits]. rewrite Hb. reflexivity.
  - apply andb_true_iff in A. destruct A as [Hc A]. cbn [app span_digits].
    rewrite Hc, (IH A). reflexivity.
Qed.
Lemma span_digits_all a : all_digits a -> span_digits a = (a, []).
Proof. intro H. rewrite <- (app_nil_r a) at 1. apply span_digits_app; auto. Qed.

Lemma parse_int neg ip :
  all_digits ip -> ip <> [] -> parse_unsigned neg ip = Some (fofdec neg (digits_val ip) 0).
Proof.
  intros A N. unfold parse_unsigned. rewrite span_digits_all by exact A.
  destruct ip; [contradiction|reflexivity].
Qed.
Lemma parse_frac neg ip fp :
  all_digits ip -> all_digits fp -> ip ++ fp <> [] ->
  parse_unsigned neg (ip ++ chr "." :: fp)
  = Some (fofdec neg (digits_val (ip ++ fp)) (List.length fp)).
Proof.
  intros A F N. unfold parse_unsigned.
  rewrite span_digits_app by (auto; reflexivity).
  cbv beta iota zeta. rewrite N.eqb_refl.
  rewrite (span_digits_all fp F). cbv beta iota zeta.
  destruct (ip ++ fp); [contradiction|reflexivity].
Qed.

(** ** Printed decimals *)

(** The text is [ip] or [ip.fp], with digits only, [ip] not empty. *)
Definition decimal_text (s ip fp : str) : Prop :=
  all_digits ip /\ ip <> [] /\ all_digits fp
  /\ ((fp = [] /\ s = ip) \/ (fp <> [] /\ s = ip ++ chr "." :: fp)).

Lemma firstn_skipn_digits i ds :
  all_digits ds -> all_digits (firstn i ds) /\ all_digits (skipn i ds).
Proof. intro H. apply all_digits_app. rewrite firstn_skipn. exact H. Qed.

Lemma show_dec_spec n k :
  0 <= n ->
  exists ip fp, decimal_text (show_dec n k) ip fp
    /\ digits_val (ip ++ fp) * 10 ^ Z.of_nat k = n * 10 ^ Z.of_nat (List.length fp).
Proof.
  intro H. destruct (digits_spec n H) as (A & N & V).
  unfold show_dec. cbv zeta.
  set (ds := repeat 48%N (S k - List.length (digits n)) ++ digits n).
  assert (all_digits ds) as Ad.
  { apply all_digits_app. split; [apply all_digits_zeros|exact A]. }
  assert (digits_val ds = n) as Vd.
  { unfold ds. rewrite digits_val_app, digits_val_zeros, V. lia. }
  assert (S k <= List.length ds)%nat as L.
  { unfold ds. rewrite app_length, repeat_length. lia. }
  set (i := (List.length ds - k)%nat).
  destruct (firstn_skipn_digits i ds Ad) as [A1 A2].
  assert (List.length (skipn i ds) = k) as Lk by (rewrite skipn_length; unfold i; lia).
  assert (firstn i ds <> []) as Ni.
  { intro E. apply (f_equal (@List.length _)) in E. rewrite firstn_length in E.
    simpl in E. unfold i in E. lia. }
  destruct (strip_zeros_spec (skipn i ds)) as [j Hj].
  set (fp := strip_zeros (skipn i ds)) in *.
  assert (all_digits fp) as Af. { assert (all_digits (fp ++ repeat 48%N j)) as A3 by (rewrite <- Hj; exact A2).
    apply all_digits_app in A3. tauto. }
  exists (firstn i ds), fp. split.
  - repeat split; try assumption. destruct fp eqn:E; [left|right]; split; easy.
  - assert (n = digits_val (firstn i ds ++ fp) * 10 ^ Z.of_nat j) as E.
    { rewrite <- Vd at 1. rewrite <- (firstn_skipn i ds) at 1. rewrite Hj.
      rewrite app_assoc, digits_val_app, digits_val_zeros, repeat_length. lia. }
    rewrite E, <- Z.mul_assoc, <- Z.pow_add_r by lia. f_equal. f_equal.
    apply (f_equal (@List.length _)) in Hj. rewrite app_length, repeat_length, Lk in Hj. lia.
Qed.

Lemma parse_decimal_text neg s ip fp :
  decimal_text s ip fp ->
  parse_unsigned neg s = Some (fofdec neg (digits_val (ip ++ fp)) (List.length fp)).
Proof.
  intros (A & N & F & [[E ->]|[E ->]]).
  - subst fp. rewrite app_nil_r. apply parse_int; assumption.
  - apply parse_frac; try assumption. destruct ip; [contradiction|discriminate].
Qed.

Lemma digits_val_nonneg s : all_digits s -> 0 <= digits_val s.
Proof. intro H. apply digits_val_bound in H. lia. Qed.

Lemma decimal_text_nonneg s ip fp : decimal_text s ip fp -> 0 <= digits_val (ip ++ fp).
Proof.
  intros (A & _ & F & _). apply digits_val_nonneg, all_digits_app. auto.
Qed.

Lemma parse_show_dec neg n k :
  0 <= n -> parse_unsigned neg (show_dec n k) = Some (fofdec neg n k).
Proof.
  intro H. destruct (show_dec_spec n k H) as (ip & fp & D & E).
  rewrite (parse_decimal_text neg _ _ _ D). f_equal. apply fofdec_eq.
  - eapply decimal_text_nonneg, D.
  - exact H.
  - exact E.
Qed.

(** ** Printing a float *)

Definition shown (s : str) : Prop := exists n k, 0 <= n /\ s = show_dec n k.

Lemma shown_scaled q p : 0 <= q -> shown (show_scaled q p).
Proof.
  intro H. unfold show_scaled. destruct (0 <=? p) eqn:E.
  - exists (q * 10 ^ p), 0%nat. split; [|reflexivity].
    apply Z.mul_nonneg_nonneg; [exact H|]. apply Z.pow_nonneg. lia.
  - exists q, (Z.to_nat (- p)). auto.
Qed.

Lemma shown_candidates d k l n s :
  0 <= d -> In s (candidates d k l n) -> shown s.
Proof.
  intros H. unfold candidates. cbv zeta.
  assert (0 <= d / 10 ^ (l - n)) as Q.
  { destruct (Z.eq_dec (10 ^ (l - n)) 0) as [E|E].
    - rewrite E, Zdiv_0_r. lia.
    - apply Z.div_pos; [exact H|]. assert (0 <= 10 ^ (l - n)) by (apply Z.pow_nonneg; lia). lia. }
  destruct (_ <? _); intros [<-|[<-|[]]]; apply shown_scaled; lia.
Qed.

(** The value of a positive finite float. *)
Lemma SF2R_pos m e : SF2R radix2 (S754_finite false m e) = (IZR (Zpos m) * bpow radix2 e)%R.
Proof. reflexivity. Qed.

Lemma bpow_pos_pow e : 0 <= e -> bpow radix2 e = IZR (2 ^ e).
Proof. intro H. rewrite (IZR_Zpower radix2) by exact H. reflexivity. Qed.

Lemma exact_expansion m e d k :
  (if 0 <=? e then (Zpos m * 2 ^ e, 0) else (Zpos m * 5 ^ (- e), - e)) = (d, k) ->
  0 <= d /\ 0 <= k
  /\ (IZR d / IZR (10 ^ Z.of_nat (Z.to_nat k)) = IZR (Zpos m) * bpow radix2 e)%R.
Proof.
  destruct (0 <=? e) eqn:E; intro H; apply pair_equal_spec in H; destruct H as [<- <-].
  - apply Z.leb_le in E. assert (0 <= 2 ^ e) by (apply Z.pow_nonneg; lia).
    split; [apply Z.mul_nonneg_nonneg; lia|]. split; [lia|].
    rewrite mult_IZR, <- bpow_pos_pow by exact E. simpl (10 ^ _). field.
  - apply Z.leb_gt in E. assert (0 <= 5 ^ (- e)) by (apply Z.pow_nonneg; lia).
    split; [apply Z.mul_nonneg_nonneg; lia|]. split; [lia|].
    rewrite Z2Nat.id by lia. change 10 with (2 * 5) at 1. rewrite Z.pow_mul_l.
    rewrite !mult_IZR.
    replace e with (- - e) at 4 by lia. rewrite (bpow_opp radix2 (- e)).
    rewrite bpow_pos_pow by lia.
    assert (IZR (2 ^ (- e)) <> 0%R) by (apply IZR_neq, Z.pow_nonzero; lia).
    assert (IZR (5 ^ (- e)) <> 0%R) by (apply IZR_neq, Z.pow_nonzero; lia).
    field. auto.
Qed.

Lemma fofdec_value x n k :
  ffin x = true -> fsign x = false -> 0 <= n ->
  (IZR n / IZR (10 ^ Z.of_nat k))%R = fR x -> fofdec false n k = x.
Proof.
  intros F S H E. eapply fin_or_inf_unique; [apply fofdec_correct, H|].
  rewrite Rmult_1_l, E. unfold fin_or_inf.
  rewrite rnd_format by apply fR_format.
  rewrite Rlt_bool_true by apply fR_bound. auto.
Qed.

Lemma reads_as_eq m e (V : valid_binary prec emax (S754_finite false m e) = true) s :
  reads_as (S754_finite false m e) s = true ->
  parse_unsigned false s = Some (mkF64 (S754_finite false m e) V).
Proof.
  unfold reads_as. destruct (parse_unsigned false s) as [y|]; [|discriminate].
  intro H. f_equal. set (x := mkF64 _ V).
  change (feqb y x = true) in H.
  apply feqb_R in H. destruct H as (Ny & _ & E).
  assert (ffin x = true) as Fx by reflexivity.
  assert (fR x = IZR (Zpos m) * bpow radix2 e)%R as Vx by apply (fR_SF x).
  assert (fR x > 0)%R as Px.
  { rewrite Vx. apply Rmult_lt_0_compat; [apply IZR_lt; lia|apply bpow_gt_0]. }
  assert (ffin y = true) as Fy.
  { rewrite ffin_SF. unfold fis_nan in Ny. unfold fval in E.
    assert (bpow radix2 1024 > 0)%R by apply bpow_gt_0.
    assert (Bx := fR_bound x). apply Rabs_lt_inv in Bx.
    cbn [x sf] in E. fold x in E.
    destruct (sf y) as [b|b| |b m' e']; try reflexivity; try discriminate.
    destruct b; lra. }
  rewrite !fval_fin in E by assumption.
  apply f64_ext_R; try assumption. rewrite E. lra.
Qed.

Lemma shortest_spec m e (V : valid_binary prec emax (S754_finite false m e) = true) d k l :
  0 <= d -> fofdec false d (Z.to_nat k) = mkF64 (S754_finite false m e) V ->
  forall fuel n,
  let s := shortest (S754_finite false m e) d k l fuel n in
  shown s /\ parse_unsigned false s = Some (mkF64 (S754_finite false m e) V).
Proof.
  intros Hd E fuel. cbv zeta.
  assert (shown (show_dec d (Z.to_nat k))
          /\ parse_unsigned false (show_dec d (Z.to_nat k)) = Some (mkF64 _ V)) as Full.
  { split; [exists d, (Z.to_nat k); auto|]. rewrite parse_show_dec by exact Hd. f_equal. exact E. }
  induction fuel as [|f IH]; intro n; cbn [shortest]; [exact Full|].
  destruct (l <=? n); [exact Full|].
  destruct (List.find _ _) as [s|] eqn:F; [|apply IH].
  apply find_some in F. destruct F as [I R]. split.
  - eapply shown_candidates; [exact Hd|exact I].
  - apply reads_as_eq, R.
Qed.

Lemma show_pos_spec m e (V : valid_binary prec emax (S754_finite false m e) = true) :
  shown (show_pos m e)
  /\ parse_unsigned false (show_pos m e) = Some (mkF64 (S754_finite false m e) V).
Proof.
  unfold show_pos.
  destruct (if 0 <=? e then _ else _) as [d k] eqn:E.
  destruct (exact_expansion _ _ _ _ E) as (Hd & Hk & R).
  apply shortest_spec; [exact Hd|].
  apply fofdec_value; try reflexivity; try assumption.
Qed.

Lemma shown_text s : shown s -> exists ip fp, decimal_text s ip fp.
Proof.
  intros (n & k & H & ->). destruct (show_dec_spec n k H) as (ip & fp & D & _). eauto.
Qed.

Lemma fofdec_neg n k : 0 <= n -> fofdec true n k = fneg (fofdec false n k).
Proof.
  intro H. eapply fin_or_inf_unique; [apply fofdec_correct, H|].
  generalize (fofdec_correct false n k H). unfold fin_or_inf.
  set (v := (IZR n / IZR (10 ^ Z.of_nat k))%R).
  rewrite Rmult_1_l. replace (-1 * v)%R with (- v)%R by ring.
  rewrite rnd_opp, Rabs_Ropp. destruct (Rlt_bool _ _).
  - intros (A & C & D). destruct (fneg_correct (fofdec false n k)) as [E F].
    rewrite E, F. repeat split; [congruence|exact C|].
    rewrite ffin_SF in C. revert C D. rewrite !fsign_SF, sf_fneg.
    destruct (sf _); simpl; try easy; intros _ ->; reflexivity.
  - intro A. rewrite sf_fneg, A. reflexivity.
Qed.

(** What is printed for a finite float reads back as that float. *)
Lemma parse_show_f64 x : ffin x = true -> parse_f64 (show_f64 x) = Some x.
Proof.
  intro F. rewrite ffin_SF in F.
  assert (forall m e (V : valid_binary prec emax (S754_finite false m e) = true),
            parse_f64 (show_pos m e) = Some (mkF64 _ V)
            /\ parse_f64 (chr "-" :: show_pos m e) = Some (fneg (mkF64 _ V))) as P.
  { intros m e V. destruct (show_pos_spec m e V) as [S E]. split.
    - destruct (shown_text _ S) as (ip & fp & A & N & _ & D).
      unfold parse_f64. destruct (show_pos m e) as [|c s] eqn:Es.
      + destruct D as [[_ D]|[_ D]]; [congruence|]. destruct ip; discriminate.
      + assert (is_digit c = true) as Dc.
        { destruct ip as [|c' ip]; [contradiction|].
          apply andb_true_iff in A. destruct A as [A _].
          destruct D as [[_ D]|[_ D]]; injection D as -> _; exact A. }
        destruct (N.eqb_spec c (chr "-")) as [->|_]; [discriminate Dc|exact E].
    - unfold parse_f64. rewrite N.eqb_refl.
      destruct S as (n & k & Hn & S). rewrite S in E |- *.
      rewrite parse_show_dec in E |- * by exact Hn. injection E as E.
      rewrite fofdec_neg, E by exact Hn. reflexivity. }
  unfold show_f64. destruct x as [[s|s| |s m e] V]; cbn [sf] in *; try discriminate.
  - destruct s; (etransitivity; [vm_compute; reflexivity|]); f_equal; apply f64_eq; reflexivity.
  - destruct s.
    + destruct (P m e V) as [_ E]. rewrite E. f_equal. apply f64_eq. rewrite sf_fneg. reflexivity.
    + destruct (P m e V) as [E _]. exact E.
Qed.

(** The shape of what is printed: an optional ['-'] and a decimal text. *)
Lemma show_f64_text x :
  ffin x = true ->
  exists s ip fp, decimal_text s ip fp
    /\ show_f64 x = (if fsign x then [chr "-"] else []) ++ s.
Proof.
  rewrite ffin_SF, fsign_SF. unfold show_f64.
  destruct x as [[s|s| |s m e] V]; cbn [sf]; try discriminate; intros _; cbn [sign_SF].
  - exists (lit "0"), (lit "0"), []. split.
    + repeat split; try discriminate. left. auto.
    + destruct s; reflexivity.
  - destruct (show_pos_spec m e V) as [S _].
    destruct (shown_text _ S) as (ip & fp & D).
    exists (show_pos m e), ip, fp. split; [exact D|]. destruct s; reflexivity.
Qed.
