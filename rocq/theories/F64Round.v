(** Rounding to 8 decimals leaves short decimals alone. *)
From Coq Require Import ZArith NArith List Bool String Reals Lia Lra.
From Coq Require Import Floats.SpecFloat.
From Flocq Require Import Core Relative IEEE754.BinarySingleNaN.
From Verif Require Import Str F64 F64Facts F64Text.
Import ListNotations.
Local Open Scope Z_scope.

Lemma round_half_up_near m e :
  (Rabs (IZR (round_half_up m e) - IZR m * bpow radix2 e) <= / 2)%R.
Proof.
  unfold round_half_up. destruct (0 <=? e) eqn:E.
  - apply Z.leb_le in E. rewrite mult_IZR, <- bpow_pos_pow by exact E.
    rewrite Rminus_eq_0, Rabs_R0. lra.
  - apply Z.leb_gt in E. set (t := 2 ^ (- e)).
    assert (0 < t) as Ht by (apply Z.pow_pos_nonneg; lia).
    assert (bpow radix2 e = / IZR t)%R as ->.
    { replace e with (- - e) by lia. rewrite bpow_opp, bpow_pos_pow by lia. reflexivity. }
    set (q := (2 * m + t) / (2 * t)).
    assert (2 * t * q <= 2 * m + t < 2 * t * q + 2 * t) as Q.
    { generalize (Z.div_mod (2 * m + t) (2 * t)), (Z.mod_pos_bound (2 * m + t) (2 * t)).
      fold q. lia. }
    assert (0 < IZR t)%R as Pt by (apply IZR_lt; exact Ht).
    assert (2 * IZR t * IZR q <= 2 * IZR m + IZR t < 2 * IZR t * IZR q + 2 * IZR t)%R as Q'.
    { rewrite <- !mult_IZR, <- !plus_IZR. split; [apply IZR_le|apply IZR_lt]; lia. }
    replace (IZR q - IZR m * / IZR t)%R with ((IZR t * IZR q - IZR m) / IZR t)%R
      by (field; lra).
    apply Rabs_le. split.
    + apply Rmult_le_reg_r with (IZR t); [exact Pt|]. unfold Rdiv.
      rewrite Rmult_assoc, Rinv_l by lra. lra.
    + apply Rmult_le_reg_r with (IZR t); [exact Pt|]. unfold Rdiv.
      rewrite Rmult_assoc, Rinv_l by lra. lra.
Qed.

(** [f64::round] gives a nearest integer of a finite value. *)
Lemma fround_spec x :
  ffin x = true ->
  exists n, (Rabs (IZR n - fR x) <= / 2)%R
    /\ (Z.abs n <= 2 ^ 53 ->
        ffin (fround x) = true /\ fR (fround x) = IZR n
        /\ (n = 0 -> fsign (fround x) = fsign x)).
Proof.
  intro F. rewrite ffin_SF in F. destruct x as [[s|s| |s m e] V]; try discriminate.
  - exists 0. split.
    + unfold fR. simpl. rewrite Rminus_0_r, Rabs_R0. lra.
    + intros _. unfold fround. simpl sf. cbv iota. repeat split.
  - assert (K := round_half_up_near (Zpos m) e).
    set (x := mkF64 _ V). unfold fround. cbn [x sf]. cbv zeta.
    set (n := round_half_up (Zpos m) e) in *.
    assert (fR x = (if s then -1 else 1) * (IZR (Zpos m) * bpow radix2 e))%R as Rx.
    { rewrite fR_SF. unfold x. cbn [sf SF2R]. unfold F2R. cbn [Fnum Fexp].
      destruct s; cbn [cond_Zopp]; [change (Z.neg m) with (- Zpos m); rewrite opp_IZR|]; ring. }
    exists (if s then - n else n). split.
    + rewrite Rx. destruct s; [rewrite opp_IZR|]; (eapply Rle_trans; [|exact K]).
      * rewrite <- Rabs_Ropp. right. f_equal. ring.
      * right. f_equal. ring.
    + intro Hn. set (n' := if s then - n else n) in *.
      rewrite binary_normalize_equiv. fold (ofB (binary_normalize prec emax Hprec Hmax mode_NE n' 0 s)).
      unfold ffin, fR, fsign. rewrite B_ofB.
      generalize (binary_normalize_correct prec emax Hprec Hmax mode_NE n' 0 s). cbv zeta.
      replace (F2R (Float radix2 n' 0)) with (IZR n') by (unfold F2R; simpl; lra).
      change (round radix2 (SpecFloat.fexp prec emax) (round_mode mode_NE) (IZR n')) with (rnd (IZR n')).
      rewrite rnd_Z by exact Hn. rewrite Rlt_bool_true by (apply Rabs_Z_small, Hn).
      intros (A & C & D). repeat split; [exact C|exact A|].
      intros E. rewrite D, E, Rcompare_Eq by reflexivity. reflexivity.
Qed.

(** The same for all finite floats: large ones are whole. *)
Lemma fround_whole x :
  ffin x = true ->
  exists n, (Rabs (IZR n - fR x) <= / 2)%R
    /\ ffin (fround x) = true /\ fR (fround x) = IZR n.
Proof.
  intro F. pose proof F as F0. rewrite ffin_SF in F. destruct x as [[s|s| |s m e] V]; try discriminate.
  - exists 0. split.
    + unfold fR. simpl. rewrite Rminus_0_r, Rabs_R0. lra.
    + unfold fround. simpl sf. cbv iota. repeat split.
  - set (x := mkF64 _ V) in *.
    assert (fR x = (if s then -1 else 1) * (IZR (Zpos m) * bpow radix2 e))%R as Rx.
    { rewrite fR_SF. unfold x. cbn [sf SF2R]. unfold F2R. cbn [Fnum Fexp].
      destruct s; cbn [cond_Zopp]; [change (Z.neg m) with (- Zpos m); rewrite opp_IZR|]; ring. }
    destruct (Z_le_gt_dec 0 e) as [P|P].
    + set (n := Zpos m * 2 ^ e). exists (if s then - n else n).
      assert (IZR (if s then - n else n) = fR x) as En.
      { rewrite Rx. unfold n. assert (IZR (2 ^ e) = bpow radix2 e) as <- by (rewrite <- IZR_Zpower by exact P; reflexivity).
        destruct s; [rewrite opp_IZR|]; rewrite mult_IZR; ring. }
      split; [rewrite En, Rminus_diag_eq, Rabs_R0 by reflexivity; lra|].
      unfold fround. cbn [x sf]. cbv zeta. unfold round_half_up. replace (0 <=? e) with true by (symmetry; apply Z.leb_le, P). fold n.
      set (n' := if s then - n else n) in *.
      rewrite binary_normalize_equiv. fold (ofB (binary_normalize prec emax Hprec Hmax mode_NE n' 0 s)).
      unfold ffin. unfold fR at 1. rewrite B_ofB.
      generalize (binary_normalize_correct prec emax Hprec Hmax mode_NE n' 0 s). cbv zeta.
      replace (F2R (Float radix2 n' 0)) with (IZR n') by (unfold F2R; simpl; lra).
      change (round radix2 (SpecFloat.fexp prec emax) (round_mode mode_NE) (IZR n')) with (rnd (IZR n')).
      rewrite En. rewrite rnd_format by (apply generic_format_B2R). rewrite Rlt_bool_true by (apply abs_B2R_lt_emax).
      intros (A & C & _). split; [exact C|exact A].
    + destruct (fround_spec x F0) as (n & N1 & N2). exists n. split; [exact N1|].
      assert (Z.abs n <= 2 ^ 53) as Hn; [|destruct (N2 Hn) as (A & C & _); auto].
      assert (Zpos m < 2 ^ 53) as Hm.
      { pose proof V as V'. unfold SpecFloat.valid_binary, SpecFloat.bounded in V'. apply andb_true_iff in V' as [V' _].
        unfold SpecFloat.canonical_mantissa, SpecFloat.fexp, SpecFloat.emin in V'. apply Zeq_bool_eq in V'.
        assert (Zpos (SpecFloat.digits2_pos m) <= 53) as Hd by (change prec with 53 in V'; change emax with 1024 in V'; lia).
        rewrite Digits.Zpos_digits2_pos in Hd. apply (Digits.Zpower_gt_Zdigits radix2 53 (Zpos m)) in Hd. exact Hd. }
      apply le_IZR. rewrite abs_IZR.
      replace (IZR n) with ((IZR n - fR x) + fR x)%R by ring.
      eapply Rle_trans; [apply Rabs_triang|].
      assert (Rabs (fR x) <= IZR (Zpos m) * / 2)%R as L.
      { rewrite Rx. rewrite !Rabs_mult, (Rabs_pos_eq (bpow radix2 e)), (Rabs_pos_eq (IZR (Zpos m))) by (try apply bpow_ge_0; apply IZR_le; lia).
        replace (Rabs (if s then -1 else 1)) with 1%R by (destruct s; unfold Rabs; destruct Rcase_abs; lra).
        rewrite Rmult_1_l. apply Rmult_le_compat_l; [apply IZR_le; lia|].
        change (/ 2)%R with (bpow radix2 (-1)). apply bpow_le. lia. }
      apply IZR_lt in Hm. change (IZR (2 ^ 53)) with 9007199254740992%R in *. lra.
Qed.

Lemma fofZ_1e8 : ffin f1e8 = true /\ fR f1e8 = 100000000%R.
Proof. apply (fofZ_int 100000000). lia. Qed.

Lemma format_quarter n : Z.abs n < 2 ^ 53 -> generic_format radix2 fexp64 (IZR n / 4).
Proof.
  intro H. replace (IZR n / 4)%R with (F2R (Float radix2 n (-2))).
  - apply generic_format_F2R. intro Hn. unfold cexp.
    assert (mag radix2 (F2R (Float radix2 n (-2))) <= 51) as M.
    { apply mag_le_bpow.
      - apply F2R_neq_0. exact Hn.
      - unfold F2R. cbn [Fnum Fexp]. rewrite Rabs_mult, <- abs_IZR.
        rewrite (Rabs_pos_eq (bpow radix2 (-2))) by apply bpow_ge_0.
        change 51 with (53 + -2). rewrite bpow_plus.
        apply Rmult_lt_compat_r; [apply bpow_gt_0|]. apply (IZR_lt _ (2 ^ 53)). lia. }
    change (Z.max (mag radix2 (F2R (Float radix2 n (-2))) - 53) (-1074) <= -2). lia.
  - unfold F2R. cbn [Fnum Fexp]. change (bpow radix2 (-2)) with (/ 4)%R. reflexivity.
Qed.

Lemma rnd_rel v :
  (bpow radix2 (-1022) <= Rabs v)%R -> (Rabs (rnd v - v) <= bpow radix2 (-53) * Rabs v)%R.
Proof.
  intro H.
  assert (K := relative_error_N_FLT radix2 (-1074) 53 eq_refl (fun n => negb (Z.even n)) v H).
  replace (bpow radix2 (-53)) with (/ 2 * bpow radix2 (-53 + 1))%R; [exact K|].
  rewrite bpow_plus. change (bpow radix2 1) with 2%R. field.
Qed.

Lemma bpow_m1022_small : (bpow radix2 (-1022) <= / 100000000)%R.
Proof.
  apply Rle_trans with (bpow radix2 (-27)); [apply bpow_le; lia|].
  change (-27) with (- (27)). rewrite bpow_opp. apply Rinv_le; [lra|].
  change (bpow radix2 27) with 134217728%R. lra.
Qed.

(** A float that is the nearest one to [N / 10^8] survives rounding to 8
    decimals. *)
Lemma rounded_stable x N :
  Z.abs N < 2 ^ 51 -> ffin x = true -> fR x = rnd (IZR N / 100000000) ->
  fdiv (fround (fmul x f1e8)) f1e8 = x.
Proof.
  intros HN F R.
  destruct fofZ_1e8 as [F8 R8].
  assert (Rabs (IZR N) < IZR (2 ^ 51))%R as HN'.
  { rewrite <- abs_IZR. apply IZR_lt. exact HN. }
  (* the product is within 1/4 of N *)
  assert (Rabs (fR x * 100000000 - IZR N) <= / 4)%R as D.
  { destruct (Z.eq_dec N 0) as [->|Z].
    - rewrite R. unfold Rdiv. rewrite Rmult_0_l, rnd_0, Rmult_0_l, Rminus_0_r, Rabs_R0. lra.
    - assert (Rabs (fR x - IZR N / 100000000) <= bpow radix2 (-53) * Rabs (IZR N / 100000000))%R as K.
      { rewrite R. apply rnd_rel. eapply Rle_trans; [apply bpow_m1022_small|].
        unfold Rdiv. rewrite Rabs_mult, (Rabs_pos_eq (/ 100000000)) by lra.
        assert (1 <= Rabs (IZR N))%R; [|lra].
        rewrite <- abs_IZR. apply IZR_le. lia. }
      replace (fR x * 100000000 - IZR N)%R with ((fR x - IZR N / 100000000) * 100000000)%R by field.
      rewrite Rabs_mult, (Rabs_pos_eq 100000000) by lra.
      apply Rle_trans with (bpow radix2 (-53) * Rabs (IZR N / 100000000) * 100000000)%R.
      { apply Rmult_le_compat_r; [lra|exact K]. }
      unfold Rdiv. rewrite Rabs_mult, (Rabs_pos_eq (/ 100000000)) by lra.
      replace (bpow radix2 (-53) * (Rabs (IZR N) * / 100000000) * 100000000)%R
        with (Rabs (IZR N) * bpow radix2 (-53))%R by field.
      apply Rle_trans with (IZR (2 ^ 51) * bpow radix2 (-53))%R.
      { apply Rmult_le_compat_r; [apply bpow_ge_0|]. lra. }
      change (IZR (2 ^ 51)) with (bpow radix2 51). rewrite <- bpow_plus.
      simpl. lra. }
  assert (fR x * 100000000 <= IZR (4 * N + 1) / 4)%R as U.
  { rewrite plus_IZR, mult_IZR. apply Rabs_le_inv in D. lra. }
  assert (IZR (4 * N - 1) / 4 <= fR x * 100000000)%R as L.
  { rewrite minus_IZR, mult_IZR. apply Rabs_le_inv in D. lra. }
  apply rnd_le in U. apply rnd_le in L.
  rewrite (rnd_format (IZR (4 * N + 1) / 4)) in U by (apply format_quarter; lia).
  rewrite (rnd_format (IZR (4 * N - 1) / 4)) in L by (apply format_quarter; lia).
  set (p := rnd (fR x * 100000000)) in *.
  assert (Rabs (p - IZR N) <= / 4)%R as D2.
  { apply Rabs_le. rewrite plus_IZR, mult_IZR in U. rewrite minus_IZR, mult_IZR in L. lra. }
  assert (Rabs p < bpow radix2 1024)%R as Bp.
  { apply Rle_lt_trans with (IZR (2 ^ 51) + 1)%R.
    - replace p with (IZR N + (p - IZR N))%R by ring.
      eapply Rle_trans; [apply Rabs_triang|]. lra.
    - eapply Rle_lt_trans; [|apply pow53_lt_1024]. rewrite <- (plus_IZR (2 ^ 51) 1).
      apply IZR_le. lia. }
  destruct (fmul_correct x f1e8 F F8) as [Rm Fm].
  { rewrite R8. exact Bp. }
  rewrite R8 in Rm. fold p in Rm.
  destruct (fround_spec (fmul x f1e8) Fm) as (n & Near & Post).
  assert (n = N) as ->.
  { rewrite Rm in Near. apply Rabs_le_inv in Near. apply Rabs_le_inv in D2.
    assert (IZR n - 1 < IZR N < IZR n + 1)%R as [H1 H2] by lra.
    rewrite <- minus_IZR in H1. rewrite <- plus_IZR in H2.
    apply lt_IZR in H1. apply lt_IZR in H2. lia. }
  destruct Post as (Fr & Rr & Sr); [lia|].
  destruct (Z.eq_dec N 0) as [->|NZ].
  - (* zero keeps its sign *)
    assert (fR x = 0)%R as Zx.
    { rewrite R. unfold Rdiv. rewrite Rmult_0_l. apply rnd_0. }
    rewrite fR_SF in Zx. rewrite ffin_SF in F.
    destruct x as [[s|s| |s m e] V]; try discriminate.
    + destruct s; apply f64_eq; reflexivity.
    + exfalso. cbn [sf SF2R] in Zx. apply eq_0_F2R in Zx. destruct s; discriminate.
  - destruct (fdiv_correct (fround (fmul x f1e8)) f1e8 Fr) as [Rd Fd].
    + rewrite R8. lra.
    + rewrite Rr, R8, <- R. apply fR_bound.
    + apply f64_ext_R; try assumption.
      * rewrite Rd, Rr, R8. symmetry. exact R.
      * rewrite Rd, Rr, R8, <- R. intro Zx.
        (* x is not zero because N is not *)
        assert (bpow radix2 (-27) <= Rabs (IZR N / 100000000))%R as Lb.
        { unfold Rdiv. rewrite Rabs_mult, (Rabs_pos_eq (/ 100000000)) by lra.
          assert (1 <= Rabs (IZR N))%R by (rewrite <- abs_IZR; apply IZR_le; lia).
          assert (bpow radix2 (-27) <= / 100000000)%R; [|lra].
          change (-27) with (- (27)). rewrite bpow_opp. apply Rinv_le; [lra|].
          change (bpow radix2 27) with 134217728%R. lra. }
        assert (bpow radix2 (-27) <= Rabs (rnd (IZR N / 100000000)))%R as Lb'.
        { apply abs_round_ge_generic; try apply valid_rnd_N; try exact fexp64_valid; [|exact Lb].
          apply format_bpow. lia. }
        rewrite <- R, Zx, Rabs_R0 in Lb'.
        assert (0 < bpow radix2 (-27))%R by apply bpow_gt_0. lra.
Qed.
