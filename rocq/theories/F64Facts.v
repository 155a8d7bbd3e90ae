(** Facts about the float model: agreement with Flocq, correct rounding, exact
    integer arithmetic, order. *)
From Coq Require Import ZArith NArith List Bool String Reals Lia Lra.
From Coq Require Import Floats.SpecFloat Eqdep_dec.
From Flocq Require Import Core IEEE754.BinarySingleNaN.
From Verif Require Import Str F64.
Import ListNotations.
Local Open Scope Z_scope.

Local Instance Hprec : Prec_gt_0 prec := eq_refl.
Local Instance Hmax : Prec_lt_emax prec emax := eq_refl.

Lemma f64_eq (x y : f64) : sf x = sf y -> x = y.
Proof.
  destruct x as [x Hx], y as [y Hy]; simpl; intros ->.
  f_equal; apply UIP_dec, bool_dec.
Qed.

Lemma fmk_sf s : valid_binary prec emax s = true -> sf (fmk s) = s.
Proof.
  intro H; unfold fmk; destruct bool_dec as [E|E]; [reflexivity|contradiction].
Qed.

Lemma fmk_id x : fmk (sf x) = x.
Proof. apply f64_eq, fmk_sf, sf_ok. Qed.

(** ** Agreement with Flocq *)

Definition B (x : f64) : binary_float prec emax := SF2B (sf x) (sf_ok x).

Lemma B2SF_B x : B2SF (B x) = sf x.
Proof. apply B2SF_SF2B. Qed.

Lemma B_inj x y : B x = B y -> x = y.
Proof. intro H; apply f64_eq; rewrite <- !B2SF_B, H; reflexivity. Qed.

Definition ofB (b : binary_float prec emax) : f64 := fmk (B2SF b).

Lemma sf_ofB b : sf (ofB b) = B2SF b.
Proof. apply fmk_sf, valid_binary_B2SF. Qed.

Lemma B_ofB b : B (ofB b) = b.
Proof. apply B2SF_inj; rewrite B2SF_B; apply sf_ofB. Qed.

Lemma round_nearest_even_equiv s m l :
  round_nearest_even m l = choice_mode mode_NE s m l.
Proof.
  case l; [reflexivity|intro c].
  case c; [ | reflexivity..].
  now simpl; unfold Round.cond_incr; case Z.even.
Qed.

Lemma binary_round_aux_equiv sx mx ex lx :
  SpecFloat.binary_round_aux prec emax sx mx ex lx
  = binary_round_aux prec emax mode_NE sx mx ex lx.
Proof.
  unfold SpecFloat.binary_round_aux, binary_round_aux.
  set (mrse' := shr_fexp _ _ _).
  case mrse'; intros mrs' e'; simpl.
  now rewrite (round_nearest_even_equiv sx).
Qed.

Lemma binary_round_equiv s m e :
  SpecFloat.binary_round prec emax s m e = binary_round prec emax mode_NE s m e.
Proof.
  unfold SpecFloat.binary_round, binary_round, shl_align_fexp.
  set (mez := shl_align _ _ _); case mez as [mz ez].
  apply binary_round_aux_equiv.
Qed.

Lemma binary_normalize_equiv m e szero :
  SpecFloat.binary_normalize prec emax m e szero
  = B2SF (binary_normalize prec emax Hprec Hmax mode_NE m e szero).
Proof.
  case m as [ | p | p].
  - now simpl.
  - simpl; rewrite B2SF_SF2B; apply binary_round_equiv.
  - simpl; rewrite B2SF_SF2B; apply binary_round_equiv.
Qed.

Lemma SFmul_equiv (x y : binary_float prec emax) :
  SFmul prec emax (B2SF x) (B2SF y) = B2SF (Bmult mode_NE x y).
Proof.
  case x as [sx|sx| |sx mx ex Bx]; case y as [sy|sy| |sy my ey By]; [now trivial.. | ].
  simpl. rewrite B2SF_SF2B. apply binary_round_aux_equiv.
Qed.

Lemma SFadd_equiv (x y : binary_float prec emax) :
  SFadd prec emax (B2SF x) (B2SF y) = B2SF (Bplus mode_NE x y).
Proof.
  case x as [sx|sx| |sx mx ex Bx]; case y as [sy|sy| |sy my ey By];
    [now (trivial || simpl; case Bool.eqb).. | ].
  apply binary_normalize_equiv.
Qed.

Lemma SFsub_equiv (x y : binary_float prec emax) :
  SFsub prec emax (B2SF x) (B2SF y) = B2SF (Bminus mode_NE x y).
Proof.
  case x as [sx|sx| |sx mx ex Bx]; case y as [sy|sy| |sy my ey By];
    [now (trivial || simpl; case Bool.eqb).. | ].
  simpl. unfold Zminus. rewrite <- cond_Zopp_negb. apply binary_normalize_equiv.
Qed.

Lemma SFdiv_equiv (x y : binary_float prec emax) :
  SFdiv prec emax (B2SF x) (B2SF y) = B2SF (Bdiv mode_NE x y).
Proof.
  case x as [sx|sx| |sx mx ex Bx]; case y as [sy|sy| |sy my ey By]; [now trivial.. | ].
  simpl. rewrite B2SF_SF2B.
  set (melz := SFdiv_core_binary _ _ _ _ _ _). case melz as [[mz ez] lz].
  apply binary_round_aux_equiv.
Qed.

Lemma B_fadd x y : B (fadd x y) = Bplus mode_NE (B x) (B y).
Proof. unfold fadd. rewrite <- !B2SF_B, SFadd_equiv. apply B_ofB. Qed.
Lemma B_fsub x y : B (fsub x y) = Bminus mode_NE (B x) (B y).
Proof. unfold fsub. rewrite <- !B2SF_B, SFsub_equiv. apply B_ofB. Qed.
Lemma B_fmul x y : B (fmul x y) = Bmult mode_NE (B x) (B y).
Proof. unfold fmul. rewrite <- !B2SF_B, SFmul_equiv. apply B_ofB. Qed.
Lemma B_fdiv x y : B (fdiv x y) = Bdiv mode_NE (B x) (B y).
Proof. unfold fdiv. rewrite <- !B2SF_B, SFdiv_equiv. apply B_ofB. Qed.
Lemma B_fofZ n : B (fofZ n) = binary_normalize prec emax Hprec Hmax mode_NE n 0 false.
Proof. unfold fofZ. rewrite binary_normalize_equiv. apply B_ofB. Qed.

Lemma sf_fneg x : sf (fneg x) = SFopp (sf x).
Proof.
  unfold fneg; apply fmk_sf; destruct x as [[s|s| |s m e] H]; exact H.
Qed.
Lemma sf_fabs x : sf (fabs x) = SFabs (sf x).
Proof.
  unfold fabs; apply fmk_sf; destruct x as [[s|s| |s m e] H]; exact H.
Qed.
Lemma B_fneg x : B (fneg x) = Bopp (B x).
Proof.
  apply B2SF_inj. rewrite B2SF_B, sf_fneg. destruct x as [[s|s| |s m e] H]; reflexivity.
Qed.
Lemma B_fabs x : B (fabs x) = Babs (B x).
Proof.
  apply B2SF_inj. rewrite B2SF_B, sf_fabs. destruct x as [[s|s| |s m e] H]; reflexivity.
Qed.

(** ** Value as a real number *)

Definition fR (x : f64) : R := B2R (B x).
Definition ffin (x : f64) : bool := is_finite (B x).
Definition fexp64 := SpecFloat.fexp prec emax.
Definition rnd (r : R) : R := round radix2 fexp64 ZnearestE r.

Lemma fR_SF x : fR x = SF2R radix2 (sf x).
Proof. unfold fR. rewrite <- SF2R_B2SF, B2SF_B. reflexivity. Qed.
Lemma ffin_SF x : ffin x = is_finite_SF (sf x).
Proof. unfold ffin. rewrite <- is_finite_SF_B2SF, B2SF_B. reflexivity. Qed.

Lemma fR_bound x : (Rabs (fR x) < bpow radix2 1024)%R.
Proof. apply abs_B2R_lt_emax. Qed.

Lemma fR_format x : generic_format radix2 fexp64 (fR x).
Proof. apply generic_format_B2R. Qed.

#[export] Instance fexp64_valid : Valid_exp fexp64 := fexp_correct prec emax Hprec.
#[export] Instance fexp64_mono : Monotone_exp fexp64 := fexp_monotone prec emax.

Lemma rnd_format r : generic_format radix2 fexp64 r -> rnd r = r.
Proof. intro H. apply round_generic; [apply valid_rnd_N|exact H]. Qed.

Lemma rnd_le x y : (x <= y)%R -> (rnd x <= rnd y)%R.
Proof. intro H. apply round_le; [apply fexp64_valid|apply valid_rnd_N|exact H]. Qed.

Lemma rnd_0 : rnd 0 = 0%R.
Proof. apply round_0, valid_rnd_N. Qed.

Lemma rnd_opp r : rnd (- r) = (- rnd r)%R.
Proof. apply round_NE_opp. Qed.

Lemma format_bpow e : -1074 <= e -> generic_format radix2 fexp64 (bpow radix2 e).
Proof.
  intro H. apply generic_format_bpow.
  change (Z.max (e + 1 - 53) (-1074) <= e). lia.
Qed.

Lemma format_Z n : Z.abs n <= 2 ^ 53 -> generic_format radix2 fexp64 (IZR n).
Proof.
  intro H.
  destruct (Z.eq_dec (Z.abs n) (2 ^ 53)) as [E|E].
  - destruct (Z.abs_spec n) as [[_ A]|[_ A]]; rewrite A in E.
    + rewrite E. apply (format_bpow 53). lia.
    + replace n with (- 2 ^ 53) by lia. rewrite opp_IZR.
      apply generic_format_opp. apply (format_bpow 53). lia.
  - replace (IZR n) with (F2R (Float radix2 n 0)) by (unfold F2R; simpl; lra).
    apply generic_format_F2R. intro Hn. unfold cexp.
    change (Z.max (mag radix2 (F2R (Float radix2 n 0)) - 53) (-1074) <= 0).
    assert (mag radix2 (F2R (Float radix2 n 0)) <= 53) as M.
    { apply mag_le_bpow.
      - unfold F2R; simpl. rewrite Rmult_1_r. apply IZR_neq, Hn.
      - unfold F2R; simpl. rewrite Rmult_1_r, <- abs_IZR. apply (IZR_lt _ (2 ^ 53)). lia. }
    lia.
Qed.

Lemma rnd_Z n : Z.abs n <= 2 ^ 53 -> rnd (IZR n) = IZR n.
Proof. intro H. apply rnd_format, format_Z, H. Qed.

(** Correct rounding of the operations while nothing overflows. *)
Lemma fadd_correct x y :
  ffin x = true -> ffin y = true ->
  (Rabs (rnd (fR x + fR y)) < bpow radix2 1024)%R ->
  fR (fadd x y) = rnd (fR x + fR y) /\ ffin (fadd x y) = true.
Proof.
  intros Fx Fy H. unfold fR, ffin. rewrite B_fadd.
  generalize (Bplus_correct prec emax Hprec Hmax mode_NE (B x) (B y) Fx Fy).
  rewrite Rlt_bool_true by exact H. intros (A & C & _). split; [exact A|exact C].
Qed.

Lemma fsub_correct x y :
  ffin x = true -> ffin y = true ->
  (Rabs (rnd (fR x - fR y)) < bpow radix2 1024)%R ->
  fR (fsub x y) = rnd (fR x - fR y) /\ ffin (fsub x y) = true.
Proof.
  intros Fx Fy H. unfold fR, ffin. rewrite B_fsub.
  generalize (Bminus_correct prec emax Hprec Hmax mode_NE (B x) (B y) Fx Fy).
  rewrite Rlt_bool_true by exact H. intros (A & C & _). split; [exact A|exact C].
Qed.

Lemma fmul_correct x y :
  ffin x = true -> ffin y = true ->
  (Rabs (rnd (fR x * fR y)) < bpow radix2 1024)%R ->
  fR (fmul x y) = rnd (fR x * fR y) /\ ffin (fmul x y) = true.
Proof.
  intros Fx Fy H. unfold fR, ffin. rewrite B_fmul.
  generalize (Bmult_correct prec emax Hprec Hmax mode_NE (B x) (B y)).
  rewrite Rlt_bool_true by exact H. intros (A & C & _). split; [exact A|].
  rewrite C. unfold ffin in Fx, Fy. rewrite Fx, Fy. reflexivity.
Qed.

Lemma fdiv_correct x y :
  ffin x = true -> fR y <> 0%R ->
  (Rabs (rnd (fR x / fR y)) < bpow radix2 1024)%R ->
  fR (fdiv x y) = rnd (fR x / fR y) /\ ffin (fdiv x y) = true.
Proof.
  intros Fx Ny H. unfold fR, ffin. rewrite B_fdiv.
  generalize (Bdiv_correct prec emax Hprec Hmax mode_NE (B x) (B y) Ny).
  rewrite Rlt_bool_true by exact H. intros (A & C & _). split; [exact A|].
  rewrite C. exact Fx.
Qed.

Lemma fneg_correct x : fR (fneg x) = (- fR x)%R /\ ffin (fneg x) = ffin x.
Proof. unfold fR, ffin. rewrite B_fneg. split; [apply B2R_Bopp|apply is_finite_Bopp]. Qed.

Lemma fabs_correct x : fR (fabs x) = Rabs (fR x) /\ ffin (fabs x) = ffin x.
Proof. unfold fR, ffin. rewrite B_fabs. split; [apply B2R_Babs|apply is_finite_Babs]. Qed.

Lemma pow53_lt_1024 : (IZR (2 ^ 53) < bpow radix2 1024)%R.
Proof. change (bpow radix2 53 < bpow radix2 1024)%R. apply bpow_lt. lia. Qed.

Lemma Rabs_Z_small n : Z.abs n <= 2 ^ 53 -> (Rabs (IZR n) < bpow radix2 1024)%R.
Proof.
  intro H. rewrite <- abs_IZR. eapply Rle_lt_trans; [apply IZR_le, H|apply pow53_lt_1024].
Qed.

(** [x] is the integer [n], exactly. *)
Definition is_int (x : f64) (n : Z) : Prop := ffin x = true /\ fR x = IZR n.

Lemma fadd_int x y a b :
  is_int x a -> is_int y b -> Z.abs (a + b) <= 2 ^ 53 -> is_int (fadd x y) (a + b).
Proof.
  intros [Fx Rx] [Fy Ry] H.
  destruct (fadd_correct x y Fx Fy) as [E F].
  - rewrite Rx, Ry, <- plus_IZR, rnd_Z by exact H. apply Rabs_Z_small, H.
  - split; [exact F|]. rewrite E, Rx, Ry, <- plus_IZR. apply rnd_Z, H.
Qed.


Lemma fneg_int x a : is_int x a -> is_int (fneg x) (- a).
Proof.
  intros [Fx Rx]. destruct (fneg_correct x) as [E F].
  split; [congruence|]. rewrite E, Rx, opp_IZR. reflexivity.
Qed.

Lemma fzero_int : is_int fzero 0.
Proof. split; reflexivity. Qed.

Lemma fofZ_int n : Z.abs n <= 2 ^ 53 -> is_int (fofZ n) n.
Proof.
  intro H. unfold is_int, fR, ffin. rewrite B_fofZ.
  generalize (binary_normalize_correct prec emax Hprec Hmax mode_NE n 0 false).
  cbv zeta.
  replace (F2R (Float radix2 n 0)) with (IZR n) by (unfold F2R; simpl; lra).
  change (round radix2 (SpecFloat.fexp prec emax) (round_mode mode_NE) (IZR n)) with (rnd (IZR n)).
  rewrite rnd_Z by exact H. rewrite Rlt_bool_true by (apply Rabs_Z_small, H).
  intros (A & C & _). split; [exact C|exact A].
Qed.

(** ** Order: non-NaN floats embed into the reals, infinities outside *)

Definition fval (x : f64) : R :=
  match sf x with
  | S754_infinity false => bpow radix2 1024
  | S754_infinity true => (- bpow radix2 1024)%R
  | _ => fR x
  end.

Lemma fval_fin x : ffin x = true -> fval x = fR x.
Proof.
  rewrite ffin_SF. unfold fval. destruct (sf x) as [s|s| |s m e]; simpl; easy.
Qed.

Lemma ffin_not_nan x : ffin x = true -> fis_nan x = false.
Proof. rewrite ffin_SF. unfold fis_nan. destruct (sf x); simpl; easy. Qed.

Lemma fcompare_R x y :
  fis_nan x = false -> fis_nan y = false ->
  fcompare x y = Some (Rcompare (fval x) (fval y)).
Proof.
  intros Nx Ny.
  assert (bpow radix2 1024 > 0)%R as P by apply bpow_gt_0.
  assert (forall z, (fR z < bpow radix2 1024)%R /\ (- bpow radix2 1024 < fR z)%R) as Bd.
  { intro z. generalize (fR_bound z). intro H. apply Rabs_lt_inv in H. lra. }
  destruct (ffin x) eqn:Fx, (ffin y) eqn:Fy.
  - rewrite !fval_fin by assumption.
    unfold fR. rewrite <- (Bcompare_correct _ _ (B x) (B y) Fx Fy).
    unfold Bcompare, fcompare. rewrite !B2SF_B. reflexivity.
  - rewrite (fval_fin x Fx). rewrite ffin_SF in Fx, Fy.
    unfold fis_nan in Ny. unfold fcompare, fval. specialize (Bd x).
    destruct (sf y) as [s|s| |s m e]; try discriminate.
    destruct (sf x) as [s'|s'| |s' m' e']; try discriminate; destruct s; cbn [SFcompare];
      f_equal; symmetry; ((apply Rcompare_Gt; lra) || (apply Rcompare_Lt; lra)).
  - rewrite (fval_fin y Fy). rewrite ffin_SF in Fx, Fy.
    unfold fis_nan in Nx. unfold fcompare, fval. specialize (Bd y).
    destruct (sf x) as [s|s| |s m e]; try discriminate.
    destruct (sf y) as [s'|s'| |s' m' e']; try discriminate; destruct s; cbn [SFcompare];
      f_equal; symmetry; ((apply Rcompare_Gt; lra) || (apply Rcompare_Lt; lra)).
  - rewrite ffin_SF in Fx, Fy. unfold fis_nan in Nx, Ny. unfold fcompare, fval.
    destruct (sf x) as [s|s| |s m e]; try discriminate;
    destruct (sf y) as [s'|s'| |s' m' e']; try discriminate; destruct s, s'; cbn [SFcompare];
      f_equal; symmetry;
      ((apply Rcompare_Eq; lra) || (apply Rcompare_Gt; lra) || (apply Rcompare_Lt; lra)).
Qed.

Lemma fcompare_nan x y :
  fis_nan x = true \/ fis_nan y = true -> fcompare x y = None.
Proof.
  unfold fis_nan, fcompare. destruct (sf x), (sf y); simpl; intros [H|H]; easy.
Qed.

Lemma fltb_R x y :
  fltb x y = true <-> fis_nan x = false /\ fis_nan y = false /\ (fval x < fval y)%R.
Proof.
  assert (fltb x y = match fcompare x y with Some Lt => true | _ => false end) as ->
    by reflexivity.
  destruct (fis_nan x) eqn:Nx.
  { rewrite fcompare_nan by auto. split; [easy|intros (H & _); easy]. }
  destruct (fis_nan y) eqn:Ny.
  { rewrite fcompare_nan by auto. split; [easy|intros (_ & H & _); easy]. }
  rewrite fcompare_R by assumption.
  case Rcompare_spec; intro H; split; try easy; intros (_ & _ & H'); lra.
Qed.

Lemma feqb_R x y :
  feqb x y = true <-> fis_nan x = false /\ fis_nan y = false /\ fval x = fval y.
Proof.
  assert (feqb x y = match fcompare x y with Some Eq => true | _ => false end) as ->
    by reflexivity.
  destruct (fis_nan x) eqn:Nx.
  { rewrite fcompare_nan by auto. split; [easy|intros (H & _); easy]. }
  destruct (fis_nan y) eqn:Ny.
  { rewrite fcompare_nan by auto. split; [easy|intros (_ & H & _); easy]. }
  rewrite fcompare_R by assumption.
  case Rcompare_spec; intro H; split; try easy; intros (_ & _ & H'); lra.
Qed.

Lemma fleb_R x y :
  fleb x y = true <-> fis_nan x = false /\ fis_nan y = false /\ (fval x <= fval y)%R.
Proof.
  assert (fleb x y = match fcompare x y with Some (Lt | Eq) => true | _ => false end) as ->
    by reflexivity.
  destruct (fis_nan x) eqn:Nx.
  { rewrite fcompare_nan by auto. split; [easy|intros (H & _); easy]. }
  destruct (fis_nan y) eqn:Ny.
  { rewrite fcompare_nan by auto. split; [easy|intros (_ & H & _); easy]. }
  rewrite fcompare_R by assumption.
  case Rcompare_spec; intro H; split; try easy; try (intros (_ & _ & H'); lra);
    intros _; repeat split; lra.
Qed.

Lemma fval_zero : fval fzero = 0%R.
Proof. reflexivity. Qed.

Lemma fltb_false_R x y :
  fis_nan x = false -> fis_nan y = false -> fltb x y = false -> (fval y <= fval x)%R.
Proof.
  intros Nx Ny H. apply Rnot_lt_le. intro L.
  assert (fltb x y = true) by (apply fltb_R; auto). congruence.
Qed.

Lemma fmax_val x y :
  fis_nan x = false -> fis_nan y = false ->
  fis_nan (fmax x y) = false /\ fval (fmax x y) = Rmax (fval x) (fval y).
Proof.
  intros Nx Ny. unfold fmax. rewrite Nx, Ny. destruct (fltb x y) eqn:L.
  - apply fltb_R in L. split; [assumption|]. rewrite Rmax_right; lra.
  - split; [assumption|]. apply fltb_false_R in L; try assumption. rewrite Rmax_left; lra.
Qed.
Lemma fmin_val x y :
  fis_nan x = false -> fis_nan y = false ->
  fis_nan (fmin x y) = false /\ fval (fmin x y) = Rmin (fval x) (fval y).
Proof.
  intros Nx Ny. unfold fmin. rewrite Nx, Ny. destruct (fltb y x) eqn:L.
  - apply fltb_R in L. split; [assumption|]. rewrite Rmin_right; lra.
  - split; [assumption|]. apply fltb_false_R in L; try assumption. rewrite Rmin_left; lra.
Qed.

Lemma fis_nan_fneg x : fis_nan (fneg x) = fis_nan x.
Proof. unfold fis_nan. rewrite sf_fneg. destruct (sf x); reflexivity. Qed.
Lemma fval_fneg x : fval (fneg x) = (- fval x)%R.
Proof.
  unfold fval. rewrite sf_fneg, (proj1 (fneg_correct x)).
  destruct (sf x) as [s|s| |s m e]; cbn [SFopp]; try reflexivity. destruct s; cbn [negb]; lra.
Qed.
Lemma fval_fabs x : fval (fabs x) = Rabs (fval x).
Proof.
  assert (bpow radix2 1024 > 0)%R as P by apply bpow_gt_0.
  unfold fval. rewrite sf_fabs, (proj1 (fabs_correct x)).
  destruct (sf x) as [s|s| |s m e]; cbn [SFabs]; try reflexivity.
  destruct s; [rewrite Rabs_Ropp|]; rewrite Rabs_pos_eq; lra.
Qed.

(** Two finite floats of equal value and sign are the same float. *)
Definition fsign (x : f64) : bool := Bsign (B x).
Lemma fsign_SF x : fsign x = sign_SF (sf x).
Proof. unfold fsign, B. apply Bsign_SF2B. Qed.
Lemma f64_ext x y :
  ffin x = true -> ffin y = true -> fR x = fR y -> fsign x = fsign y -> x = y.
Proof.
  intros Fx Fy R S. apply B_inj. apply B2R_Bsign_inj; assumption.
Qed.
Lemma f64_ext_R x y :
  ffin x = true -> ffin y = true -> fR x = fR y -> fR x <> 0%R -> x = y.
Proof.
  intros Fx Fy R N. apply B_inj. apply B2R_inj; try assumption.
  - apply is_finite_strict_B2R. exact N.
  - apply is_finite_strict_B2R. unfold fR in R. rewrite <- R. exact N.
Qed.

(** ** Reading decimals *)

Definition fin_or_inf (x : f64) (s : bool) (v : R) : Prop :=
  if Rlt_bool (Rabs (rnd v)) (bpow radix2 1024)
  then fR x = rnd v /\ ffin x = true /\ fsign x = s
  else sf x = S754_infinity s.

Lemma fofdec_correct neg n k :
  0 <= n ->
  fin_or_inf (fofdec neg n k) neg
    ((if neg then -1 else 1) * (IZR n / IZR (10 ^ Z.of_nat k)))%R.
Proof.
  intro Hn. destruct n as [|p|p]; [| |lia].
  - unfold fofdec, fin_or_inf.
    replace ((if neg then -1 else 1) * (IZR 0 / IZR (10 ^ Z.of_nat k)))%R with 0%R
      by (unfold Rdiv; simpl; ring).
    rewrite rnd_0, Rabs_R0, Rlt_bool_true by apply bpow_gt_0.
    rewrite fR_SF, ffin_SF, fsign_SF, fmk_sf by reflexivity. repeat split; reflexivity.
  - unfold fofdec.
    assert (0 < 10 ^ Z.of_nat k) as Ht by (apply Z.pow_pos_nonneg; lia).
    destruct (10 ^ Z.of_nat k) as [|t|t] eqn:Et; try lia. clear Et Ht.
    generalize (Bdiv_correct_aux prec emax Hprec Hmax mode_NE neg p 0 false t 0).
    cbv zeta.
    destruct (SFdiv_core_binary prec emax (Z.pos p) 0 (Z.pos t) 0) as [[q e] l].
    rewrite xorb_false_r.
    set (z := binary_round_aux prec emax mode_NE neg q e l).
    rewrite binary_round_aux_equiv. fold z.
    intros [V C].
    assert (F2R (Float radix2 (cond_Zopp neg (Z.pos p)) 0)
            / F2R (Float radix2 (cond_Zopp false (Z.pos t)) 0)
            = (if neg then -1 else 1) * (IZR (Z.pos p) / IZR (Z.pos t)))%R as E.
    { unfold F2R. simpl Fnum; simpl Fexp. simpl bpow. rewrite !Rmult_1_r.
      destruct neg; simpl cond_Zopp.
      - change (Z.neg p) with (- Z.pos p). rewrite opp_IZR. unfold Rdiv. ring.
      - unfold Rdiv. ring. }
    rewrite E in C. unfold fin_or_inf.
    change (round radix2 (SpecFloat.fexp prec emax) (round_mode mode_NE)
             ((if neg then -1 else 1) * (IZR (Z.pos p) / IZR (Z.pos t))))%R with
      (rnd ((if neg then -1 else 1) * (IZR (Z.pos p) / IZR (Z.pos t))))%R in C.
    change emax with 1024 in C.
    destruct (Rlt_bool _ _).
    + rewrite fR_SF, ffin_SF, fsign_SF, fmk_sf by exact V. exact C.
    + rewrite fmk_sf by exact V. rewrite C. reflexivity.
Qed.
