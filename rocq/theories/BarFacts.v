(** The progress bar grows with the amount. *)
From Coq Require Import ZArith NArith List Bool String Reals Lra Lia.
From Coq Require Import Floats.SpecFloat.
From Flocq Require Import Core IEEE754.BinarySingleNaN.
From Verif Require Import Base Str F64 Date Amount Envelope
  SpecAmount StrFacts F64Facts AmountFacts EntryFacts FillFacts.
Import ListNotations.
Local Open Scope Z_scope.

Definition top : R := bpow radix2 1024.
Definition clamp (r : R) : R := Rmax (- top) (Rmin r top).
Lemma top_pos : (0 < top)%R.
Proof. apply bpow_gt_0. Qed.
Lemma clamp_le x y : (x <= y)%R -> (clamp x <= clamp y)%R.
Proof. intro H. unfold clamp. apply Rle_max_compat_l. apply Rle_min_compat_r, H. Qed.
Lemma fval_bound x : (- top <= fval x <= top)%R.
Proof.
  assert (P := top_pos). unfold fval. destruct (sf x) as [s|[]| |s m e] eqn:E; fold top; try lra;
    assert (K := fR_bound x); fold top in K; apply Rabs_lt_inv in K; lra.
Qed.
Lemma finite_or_inf x : fis_nan x = false ->
  ffin x = true \/ (sf x = S754_infinity true /\ fval x = - top)%R \/ (sf x = S754_infinity false /\ fval x = top).
Proof.
  rewrite ffin_SF. unfold fis_nan, fval. destruct (sf x) as [s|[]| |s m e]; intro H; auto; discriminate.
Qed.
Lemma clamp_small r : (Rabs r < top)%R -> clamp r = r.
Proof. intro H. apply Rabs_lt_inv in H. unfold clamp. rewrite Rmin_left, Rmax_right by lra. reflexivity. Qed.
Lemma inf_val x s : sf x = S754_infinity s -> fis_nan x = false /\ fval x = if s then (- top)%R else top.
Proof. unfold fis_nan, fval. intros ->. destruct s; auto. Qed.
Lemma B2SF_inf x s : B2SF (B x) = S754_infinity s -> sf x = S754_infinity s.
Proof. rewrite B2SF_B. auto. Qed.
Lemma over_sign (r : R) (s : bool) : ~ (Rabs r < top)%R -> (s = true -> (r <= 0)%R) -> (s = false -> (0 <= r)%R) ->
  (if s then (- top)%R else top) = clamp r.
Proof.
  intros H A C. assert (P := top_pos). unfold clamp. destruct s.
  - specialize (A eq_refl). rewrite Rabs_left1 in H by exact A. rewrite Rmin_left by lra. rewrite Rmax_left by lra. reflexivity.
  - specialize (C eq_refl). rewrite Rabs_pos_eq in H by exact C. rewrite Rmin_right by lra. rewrite Rmax_right by lra. reflexivity.
Qed.
Lemma sign_R x : ffin x = true -> (fsign x = true -> (fR x <= 0)%R) /\ (fsign x = false -> (0 <= fR x)%R).
Proof.
  rewrite ffin_SF, fsign_SF, fR_SF. destruct (sf x) as [s|s| |s m e]; cbn [sign_SF SF2R]; intro F; try discriminate.
  - split; intros _; lra.
  - split; intros ->; cbn [cond_Zopp].
    + apply F2R_le_0. cbn. lia.
    + apply F2R_ge_0. cbn. lia.
Qed.
Lemma rnd_nonneg r : (0 <= r)%R -> (0 <= rnd r)%R.
Proof. intro H. rewrite <- rnd_0. apply rnd_le, H. Qed.
Lemma rnd_nonpos r : (r <= 0)%R -> (rnd r <= 0)%R.
Proof. intro H. rewrite <- rnd_0. apply rnd_le, H. Qed.

Definition pos_fin (w : f64) : Prop := ffin w = true /\ (0 < fR w)%R.
Lemma pos_fin_SF w : pos_fin w -> exists m e, sf w = S754_finite false m e.
Proof.
  intros [F P]. rewrite ffin_SF in F. rewrite fR_SF in P. destruct (sf w) as [s|s| |[] m e]; try discriminate; cbn [SF2R] in P; [lra| |eauto].
  exfalso. assert (K : (F2R (Float radix2 (cond_Zopp true (Z.pos m)) e) <= 0)%R) by (apply F2R_le_0; cbn; lia). lra.
Qed.
Lemma pos_fin_sign w : pos_fin w -> fsign w = false.
Proof. intro H. destruct (pos_fin_SF w H) as (m & e & E). rewrite fsign_SF, E. reflexivity. Qed.
Lemma fmul_val x w : pos_fin w -> fis_nan x = false -> fis_nan (fmul x w) = false /\
  ((ffin x = true /\ fval (fmul x w) = clamp (rnd (fR x * fR w))) \/ (ffin x = false /\ fval (fmul x w) = fval x)).
Proof.
  intros W N. assert (Sw := pos_fin_sign w W). destruct (finite_or_inf x N) as [F|F].
  - enough (fis_nan (fmul x w) = false /\ fval (fmul x w) = clamp (rnd (fR x * fR w))) by tauto.
    destruct (Rlt_le_dec (Rabs (rnd (fR x * fR w))) top) as [L|L].
    + destruct (fmul_correct x w F (proj1 W) L) as [E Fm]. split; [apply ffin_not_nan, Fm|].
      rewrite (fval_fin _ Fm), E, clamp_small by exact L. reflexivity.
    + assert (K := Bmult_correct prec emax Hprec Hmax mode_NE (B x) (B w)). rewrite Rlt_bool_false in K by exact L.
      rewrite <- B_fmul in K. change (B2SF (B (fmul x w)) = binary_overflow prec emax mode_NE (xorb (fsign x) (fsign w))) in K.
      rewrite Sw, xorb_false_r in K. apply B2SF_inf in K. apply inf_val in K. destruct K as [K ->]. split; [exact K|].
      destruct (sign_R x F) as [S1 S2]. apply over_sign; [lra| |]; intro Q.
      * apply rnd_nonpos. specialize (S1 Q). destruct W as [_ P]. nra.
      * apply rnd_nonneg. specialize (S2 Q). destruct W as [_ P]. nra.
  - destruct (pos_fin_SF w W) as (mw & ew & Ew).
    assert (exists s, sf x = S754_infinity s) as (s & E) by (destruct F as [[E _]|[E _]]; eauto).
    assert (sf (fmul x w) = S754_infinity s) as Em.
    { unfold fmul. rewrite E, Ew. cbn [SFmul]. rewrite xorb_false_r. apply fmk_sf. reflexivity. }
    apply inf_val in Em. apply inf_val in E as Ex. destruct Em as [Nm Vm], Ex as [_ Vx]. split; [exact Nm|]. right.
    split; [rewrite ffin_SF, E; reflexivity|congruence].
Qed.
Lemma fdiv_val x w : pos_fin w -> fis_nan x = false -> fis_nan (fdiv x w) = false /\
  ((ffin x = true /\ fval (fdiv x w) = clamp (rnd (fR x / fR w))) \/ (ffin x = false /\ fval (fdiv x w) = fval x)).
Proof.
  intros W N. assert (Sw := pos_fin_sign w W). destruct (finite_or_inf x N) as [F|F].
  - enough (fis_nan (fdiv x w) = false /\ fval (fdiv x w) = clamp (rnd (fR x / fR w))) by tauto.
    assert (fR w <> 0)%R as Nz by (destruct W; lra).
    assert (0 < / fR w)%R as Pi by (apply Rinv_0_lt_compat, W).
    destruct (Rlt_le_dec (Rabs (rnd (fR x / fR w))) top) as [L|L].
    + destruct (fdiv_correct x w F Nz L) as [E Fm]. split; [apply ffin_not_nan, Fm|].
      rewrite (fval_fin _ Fm), E, clamp_small by exact L. reflexivity.
    + assert (K := Bdiv_correct prec emax Hprec Hmax mode_NE (B x) (B w) Nz). rewrite Rlt_bool_false in K by exact L.
      rewrite <- B_fdiv in K. change (B2SF (B (fdiv x w)) = binary_overflow prec emax mode_NE (xorb (fsign x) (fsign w))) in K.
      rewrite Sw, xorb_false_r in K. apply B2SF_inf in K. apply inf_val in K. destruct K as [K ->]. split; [exact K|].
      destruct (sign_R x F) as [S1 S2]. unfold Rdiv in *. apply over_sign; [lra| |]; intro Q.
      * apply rnd_nonpos. specialize (S1 Q). nra.
      * apply rnd_nonneg. specialize (S2 Q). nra.
  - destruct (pos_fin_SF w W) as (mw & ew & Ew).
    assert (exists s, sf x = S754_infinity s) as (s & E) by (destruct F as [[E _]|[E _]]; eauto).
    assert (sf (fdiv x w) = S754_infinity s) as Em.
    { unfold fdiv. rewrite E, Ew. cbn [SFdiv]. rewrite xorb_false_r. apply fmk_sf. reflexivity. }
    apply inf_val in Em. apply inf_val in E as Ex. destruct Em as [Nm Vm], Ex as [_ Vx]. split; [exact Nm|]. right.
    split; [rewrite ffin_SF, E; reflexivity|congruence].
Qed.
(** Both are monotone. *)
Lemma mono_of (f : f64 -> f64) (g : R -> R) :
  (forall x, fis_nan x = false -> (ffin x = true /\ fval (f x) = clamp (rnd (g (fR x)))) \/ (ffin x = false /\ fval (f x) = fval x)) ->
  (forall r s, (r <= s)%R -> (g r <= g s)%R) ->
  forall x y, fis_nan x = false -> fis_nan y = false -> (fval x <= fval y)%R -> (fval (f x) <= fval (f y))%R.
Proof.
  intros H G x y Nx Ny L. assert (P := top_pos).
  assert (forall z, ffin z = false -> fis_nan z = false -> fval z = (- top)%R \/ fval z = top) as I.
  { intros z F N. destruct (finite_or_inf z N) as [K|[[_ K]|[_ K]]]; auto; congruence. }
  destruct (H x Nx) as [[Fx Ex]|[Fx Ex]], (H y Ny) as [[Fy Ey]|[Fy Ey]].
  - rewrite Ex, Ey. apply clamp_le, rnd_le, G. rewrite <- !fval_fin by assumption. exact L.
  - rewrite Ey. destruct (I y Fy Ny) as [K|K].
    + exfalso. rewrite K, (fval_fin x Fx) in L. assert (Q := fR_bound x). apply Rabs_lt_inv in Q. fold top in Q. lra.
    + rewrite K. apply fval_bound.
  - rewrite Ex. destruct (I x Fx Nx) as [K|K].
    + rewrite K. apply fval_bound.
    + exfalso. rewrite K, (fval_fin y Fy) in L. assert (Q := fR_bound y). apply Rabs_lt_inv in Q. fold top in Q. lra.
  - congruence.
Qed.
Lemma fmul_mono w : pos_fin w -> forall x y, fis_nan x = false -> fis_nan y = false ->
  (fval x <= fval y)%R -> (fval (fmul x w) <= fval (fmul y w))%R.
Proof.
  intro W. apply (mono_of (fun x => fmul x w) (fun r => r * fR w)%R).
  - intros x N. apply fmul_val; assumption.
  - intros r s L. apply Rmult_le_compat_r; [destruct W; lra|exact L].
Qed.
Lemma fdiv_mono w : pos_fin w -> forall x y, fis_nan x = false -> fis_nan y = false ->
  (fval x <= fval y)%R -> (fval (fdiv x w) <= fval (fdiv y w))%R.
Proof.
  intro W. apply (mono_of (fun x => fdiv x w) (fun r => r / fR w)%R).
  - intros x N. apply fdiv_val; assumption.
  - intros r s L. unfold Rdiv. apply Rmult_le_compat_r; [|exact L]. apply Rlt_le, Rinv_0_lt_compat, W.
Qed.
(** Truncation. *)
Lemma fto_usize_floor x : fis_nan x = false -> (0 <= fval x)%R -> fto_usize x = Z.min (2 ^ 64 - 1) (Zfloor (fval x)).
Proof.
  intros N H. unfold fto_usize, fval, fis_nan in *. rewrite fR_SF in *.
  destruct (sf x) as [s|s| |s m e]; cbn [SF2R] in *.
  - change 0%R with (IZR 0). rewrite Zfloor_IZR. reflexivity.
  - destruct s; [assert (P := top_pos); unfold top in P; lra|].
    rewrite <- IZR_pow2, Zfloor_IZR by lia. reflexivity.
  - discriminate.
  - destruct s; [exfalso|].
    + assert (K : (F2R (Float radix2 (Z.neg m) e) < 0)%R) by (apply F2R_lt_0; cbn; lia). cbn [cond_Zopp] in H. change (- Z.pos m) with (Z.neg m) in H. lra.
    + f_equal. unfold F2R. cbn [Fnum Fexp cond_Zopp]. destruct (Z.leb_spec 0 e) as [E|E].
      * rewrite <- IZR_pow2, <- mult_IZR, Zfloor_IZR by lia. reflexivity.
      * symmetry. assert (0 < 2 ^ (- e)) as P by lia.
        replace (bpow radix2 e) with (/ IZR (2 ^ (- e)))%R by (rewrite IZR_pow2 by lia; rewrite <- bpow_opp; f_equal; lia).
        apply Zfloor_div. lia.
Qed.
Lemma fto_usize_mono x y : fis_nan x = false -> fis_nan y = false -> (0 <= fval x)%R -> (fval x <= fval y)%R ->
  fto_usize x <= fto_usize y.
Proof.
  intros Nx Ny P L. rewrite !fto_usize_floor by (assumption || lra). assert (K := Zfloor_le _ _ L). lia.
Qed.

(** ** Cells of the bar *)
Definition cells (v : envelope) (m : f64) (width : nat) : Z :=
  fto_usize (fmax (fmin (fdiv (fmul m (fofZ (Z.of_nat width))) (mag (v_amount v))) (fofZ (Z.of_nat width))) fzero).
Definition bar (p width : nat) : str :=
  chr "|" :: repeat bar_char p ++ repeat (chr " ") (width - p) ++ [chr "|"].
Lemma width_pos width : (0 < width)%nat -> Z.of_nat width <= 2 ^ 53 -> pos_fin (fofZ (Z.of_nat width)) /\ fR (fofZ (Z.of_nat width)) = IZR (Z.of_nat width).
Proof.
  intros P W. destruct (fofZ_int (Z.of_nat width)) as [F R]; [lia|]. split; [|exact R]. split; [exact F|]. rewrite R. apply IZR_lt. lia.
Qed.
Lemma cells_val v m width : (0 < width)%nat -> Z.of_nat width <= 2 ^ 53 -> pos_fin (mag (v_amount v)) -> fis_nan m = false ->
  let wf := fofZ (Z.of_nat width) in
  let x := fmax (fmin (fdiv (fmul m wf) (mag (v_amount v))) wf) fzero in
  fis_nan x = false /\ fval x = Rmax (Rmin (fval (fdiv (fmul m wf) (mag (v_amount v)))) (IZR (Z.of_nat width))) 0.
Proof.
  intros Wp W T N wf x. destruct (width_pos width Wp W) as [Pw Rw]. fold wf in Pw, Rw.
  destruct (fmul_val m wf Pw N) as [N1 _]. destruct (fdiv_val _ _ T N1) as [N2 _].
  assert (Nw := ffin_not_nan _ (proj1 Pw)). destruct (fmin_val _ _ N2 Nw) as [N3 E3].
  destruct (fmax_val _ fzero N3 eq_refl) as [N4 E4]. split; [exact N4|]. unfold x. rewrite E4, E3, fval_zero, (fval_fin wf (proj1 Pw)), Rw. reflexivity.
Qed.
Lemma make_bar_cells v m width : Z.of_nat width <= 2 ^ 53 ->
  (Z.to_nat (cells v m width) <= width)%nat /\ 0 <= cells v m width /\ make_bar v m width = Ok (bar (Z.to_nat (cells v m width)) width).
Proof.
  intro W. destruct (make_bar_shape v m width W) as (p & P & E). unfold make_bar in *. fold (cells v m width) in *.
  assert (0 <= cells v m width) as P0.
  { unfold cells, fto_usize. destruct (sf _) as [s|[]| |[] mm e]; try lia.
    assert (0 <= (if 0 <=? e then Zpos mm * 2 ^ e else Zpos mm / 2 ^ (- e))); [|lia].
    destruct (Z.leb_spec 0 e); [lia|]. apply Z.div_pos; lia. }
  destruct (Z.ltb_spec (Z.of_nat width) (cells v m width)); [discriminate|]. split; [lia|]. split; [exact P0|reflexivity].
Qed.
Lemma cells_mono v m m' width : (0 < width)%nat -> Z.of_nat width <= 2 ^ 53 -> pos_fin (mag (v_amount v)) ->
  fleb m m' = true -> cells v m width <= cells v m' width.
Proof.
  intros Wp W T L. apply fleb_R in L. destruct L as (N & N' & L).
  destruct (cells_val v m width Wp W T N) as [A C]. destruct (cells_val v m' width Wp W T N') as [A' C'].
  destruct (width_pos width Wp W) as [Pw _]. unfold cells. apply fto_usize_mono; [exact A|exact A'| |].
  - rewrite C. apply Rmax_r.
  - rewrite C, C'. apply Rle_max_compat_r, Rle_min_compat_r.
    apply fdiv_mono; [exact T|apply fmul_val; assumption|apply fmul_val; assumption|]. apply fmul_mono; assumption.
Qed.
Lemma cells_empty v m width : (0 < width)%nat -> Z.of_nat width <= 2 ^ 53 -> pos_fin (mag (v_amount v)) ->
  fleb m fzero = true -> cells v m width = 0.
Proof.
  intros Wp W T L. assert (K := cells_mono v m fzero width Wp W T L). destruct (make_bar_cells v m width W) as (_ & P & _).
  enough (cells v fzero width = 0) by lia. clear K P L.
  destruct (cells_val v fzero width Wp W T eq_refl) as [A C]. unfold cells. rewrite (fto_usize_floor _ A) by (rewrite C; apply Rmax_r). rewrite C.
  destruct (width_pos width Wp W) as [Pw _].
  destruct (fmul_val fzero _ Pw eq_refl) as [N1 [[_ E1]|[X _]]]; [|discriminate X].
  replace (fR fzero) with 0%R in E1 by (symmetry; apply fval_zero). rewrite Rmult_0_l, rnd_0, clamp_small in E1 by (rewrite Rabs_R0; apply top_pos).
  destruct (fdiv_val _ _ T N1) as [N2 [[F2 E2]|[F2 E2]]]; [rewrite (fval_fin _ F2) in E1|]; rewrite E2.
  - rewrite E1. unfold Rdiv. rewrite Rmult_0_l, rnd_0, clamp_small by (rewrite Rabs_R0; apply top_pos).
    rewrite Rmin_left by (apply IZR_le; lia). rewrite Rmax_left by lra. change 0%R with (IZR 0). rewrite Zfloor_IZR. reflexivity.
  - rewrite E1, Rmin_left by (apply IZR_le; lia). rewrite Rmax_left by lra. change 0%R with (IZR 0). rewrite Zfloor_IZR. reflexivity.
Qed.
(** Whole-number targets: full when the amount reaches the target. *)
Lemma cells_full v m width t : (0 < width)%nat -> 0 < t -> t * Z.of_nat width <= 2 ^ 53 -> f64_is (mag (v_amount v)) (IZR t) ->
  fleb (mag (v_amount v)) m = true -> cells v m width = Z.of_nat width.
Proof.
  intros Wp Tp W T L. assert (Z.of_nat width <= 2 ^ 53) as W' by nia.
  assert (is_int (mag (v_amount v)) t) as [Ft Rt] by (apply f64_is_int, T).
  assert (pos_fin (mag (v_amount v))) as Pt by (split; [exact Ft|rewrite Rt; apply IZR_lt; exact Tp]).
  assert (K := cells_mono v _ m width Wp W' Pt L). destruct (make_bar_cells v m width W') as (U & P & _).
  enough (cells v (mag (v_amount v)) width = Z.of_nat width) by lia. clear K U P L m.
  assert (N := ffin_not_nan _ Ft). destruct (cells_val v _ width Wp W' Pt N) as [A C]. unfold cells.
  rewrite (fto_usize_floor _ A) by (rewrite C; apply Rmax_r). rewrite C.
  destruct (width_pos width Wp W') as [Pw Rw].
  assert (Z.abs (t * Z.of_nat width) <= 2 ^ 53) as Bd by lia.
  destruct (fmul_correct (mag (v_amount v)) (fofZ (Z.of_nat width)) Ft (proj1 Pw)) as [R1 F1].
  { rewrite Rt, Rw, <- mult_IZR, rnd_Z by exact Bd. apply Rabs_Z_small, Bd. }
  rewrite Rt, Rw, <- mult_IZR, rnd_Z in R1 by exact Bd.
  assert (fR (fmul (mag (v_amount v)) (fofZ (Z.of_nat width))) / fR (mag (v_amount v)) = IZR (Z.of_nat width))%R as Q.
  { rewrite R1, Rt, mult_IZR. field. apply IZR_neq. lia. }
  destruct (fdiv_correct (fmul (mag (v_amount v)) (fofZ (Z.of_nat width))) (mag (v_amount v)) F1) as [R2 F2].
  { rewrite Rt. apply IZR_neq. lia. }
  { rewrite Q, rnd_Z by lia. apply Rabs_Z_small. lia. }
  rewrite Q, rnd_Z in R2 by lia.
  rewrite (fval_fin _ F2), R2, Rmin_left, Rmax_left by (try apply IZR_le; lra || lia). rewrite Zfloor_IZR. 
  assert (2 ^ 53 <= 2 ^ 64 - 1) by (vm_compute; discriminate). lia.
Qed.
