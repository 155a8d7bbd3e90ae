(** Facts about the two methods of saving money. *)
From Coq Require Import ZArith NArith List Bool String Reals Lra Lia.
From Coq Require Import Floats.SpecFloat.
From Flocq Require Import Core IEEE754.BinarySingleNaN Relative Plus_error.
From Verif Require Import Base Str F64 Date Amount Posting Entry Envelope Account
  SpecAmount SpecDate SpecEntry SpecEnvelope SpecFunding StrFacts F64Facts AmountFacts PostingFacts EntryFacts
  DateFormat DateFacts FreqFacts EnvelopeFacts FillFacts AccountFacts BarFacts.
Import ListNotations.
Local Open Scope Z_scope.

Opaque dayn of_dayn first_dayn last_dayn.

(** ** The limit *)
Lemma fmax_ge_l x y : fis_nan x = false -> fleb x (fmax x y) = true.
Proof.
  intro N. destruct (fis_nan y) eqn:M.
  - unfold fmax. rewrite N, M. apply fleb_R. repeat split; auto. lra.
  - destruct (fmax_val x y N M) as [A C]. apply fleb_R. rewrite C. repeat split; auto. apply Rmax_l.
Qed.
Lemma fleb_trans x y z : fleb x y = true -> fleb y z = true -> fleb x z = true.
Proof. rewrite !fleb_R. intros (A & C & D) (E & F & G). repeat split; auto. lra. Qed.
Lemma fmin_ge x y z : fleb z x = true -> fleb z y = true -> fleb z (fmin x y) = true.
Proof.
  rewrite !fleb_R. intros (A & C & D) (_ & F & G). destruct (fmin_val x y C F) as [M V]. rewrite V.
  repeat split; auto. apply Rmin_glb; assumption.
Qed.
Lemma limit_ge m av rem total x : fleb x m = true -> fleb x av = true -> fleb x rem = true ->
  fleb x (fmax (fmax (fmin (fmin m av) rem) (fneg total)) fzero) = true.
Proof.
  intros A C D. assert (fleb x (fmin (fmin m av) rem) = true) as K by (repeat apply fmin_ge; assumption).
  assert (forall u, fleb x u = true -> fis_nan u = false) as Nn by (intros u H; apply fleb_R in H; tauto).
  assert (K2 := fleb_trans _ _ _ K (fmax_ge_l _ (fneg total) (Nn _ K))).
  exact (fleb_trans _ _ _ K2 (fmax_ge_l _ fzero (Nn _ K2))).
Qed.

(** The amount as the limit. *)
Lemma ready_amount today v av a due : filling_amount today v av = Ok a -> ready today v due ->
  mag a = match v_funding v with
          | Manual => fzero
          | Aggressive => fmax (fmax (fmin (fmin (mag (v_amount v)) (mag av)) (missing v)) (fneg (total_mag v))) fzero
          | Conservative => fmax (fmax (fmin (fmin (fdiv (missing v) (fofZ (days_since due today))) (mag av)) (missing v)) (fneg (total_mag v))) fzero
          end.
Proof.
  intros H (Du & La). unfold filling_amount in H. destruct (negb _); [discriminate|]. rewrite Du in H. cbn [bind] in H.
  apply bind_Ok in H. destruct H as (rem & Re & H). apply remaining_next_Ok in Re. unfold missing. rewrite <- Re.
  destruct (date_eqb (v_last v) today) eqn:E; [apply date_eqb_iff in E; contradiction|].
  destruct (v_funding v); injection H as <-; reflexivity.
Qed.

(** ** Rounding a part of a difference *)
Lemma rnd_down_float x : exists f, generic_format radix2 fexp64 f /\ (f <= x)%R
  /\ (forall g, generic_format radix2 fexp64 g -> (g <= x)%R -> (g <= f)%R).
Proof.
  exists (round radix2 fexp64 Zfloor x). destruct (round_DN_pt radix2 fexp64 x) as (A & C & D). auto.
Qed.
Lemma double_format f : generic_format radix2 fexp64 f -> generic_format radix2 fexp64 (2 * f).
Proof.
  intro F. rewrite Rmult_comm. change 2%R with (bpow radix2 1).
  apply (@FLT_format_generic radix2 (-1074) 53 eq_refl) in F. destruct F as [g E P Q].
  apply (generic_format_FLT radix2 (-1074) 53).
  exists (Float radix2 (Fnum g) (Fexp g + 1)).
  - rewrite E. unfold F2R. cbn [Fnum Fexp]. rewrite bpow_plus. ring.
  - exact P.
  - cbn [Fexp]. lia.
Qed.
Lemma part_below x k : (bpow radix2 (-1074) <= x)%R -> (2 <= k)%R -> (rnd (rnd x / k) <= x)%R.
Proof.
  intros P K. assert (0 < bpow radix2 (-1074))%R as Bp by apply bpow_gt_0.
  destruct (rnd_down_float x) as (f & Ff & Fx & Fm).
  assert (0 < f)%R as F0.
  { assert (bpow radix2 (-1074) <= f)%R; [|lra]. apply Fm; [apply format_bpow; lia|exact P]. }
  assert (x <= 2 * f)%R as X2.
  { destruct (Rle_lt_dec x (2 * f)) as [H|H]; [exact H|]. assert (2 * f <= f)%R; [apply Fm; [apply double_format, Ff|lra]|lra]. }
  assert (rnd x <= 2 * f)%R as R2.
  { rewrite <- (rnd_format (2 * f)) by apply double_format, Ff. apply rnd_le, X2. }
  assert (0 <= rnd x)%R as R0 by (apply rnd_nonneg; lra).
  apply Rle_trans with f; [|exact Fx]. rewrite <- (rnd_format f Ff) at 1. apply rnd_le.
  apply Rmult_le_reg_r with k; [lra|]. unfold Rdiv. rewrite Rmult_assoc, Rinv_l by lra. nra.
Qed.
(** The difference of two floats is zero or not below the least positive one. *)
Lemma difference_least a b : generic_format radix2 fexp64 a -> generic_format radix2 fexp64 b -> (b < a)%R ->
  (bpow radix2 (-1074) <= a - b)%R.
Proof.
  intros A C L.
  assert (forall r, generic_format radix2 fexp64 r -> exists n, r = (IZR n * bpow radix2 (-1074))%R) as Q.
  { intros r F. apply (@FLT_format_generic radix2 (-1074) 53 eq_refl) in F. destruct F as [g E P Q].
    exists (Fnum g * 2 ^ (Fexp g + 1074)). rewrite mult_IZR, IZR_pow2 by lia. rewrite E. unfold F2R.
    rewrite Rmult_assoc, <- bpow_plus. f_equal. f_equal. lia. }
  destruct (Q a A) as (n & ->). destruct (Q b C) as (m & ->).
  assert (0 < bpow radix2 (-1074))%R as Bp by apply bpow_gt_0.
  assert (m < n) as Lt by (apply lt_IZR; nra). assert (1 <= IZR (n - m))%R as G by (apply IZR_le; lia).
  rewrite minus_IZR in G. nra.
Qed.
Lemma sum_error x y : generic_format radix2 fexp64 x -> generic_format radix2 fexp64 y ->
  (Rabs (rnd (x + y) - (x + y)) <= bpow radix2 (-53) * Rabs (x + y))%R.
Proof.
  intros X Y. destruct (@FLT_plus_error_N_ex radix2 (-1074) 53 eq_refl (fun z => negb (Z.even z)) x y X Y) as (eps & E & R).
  change (round radix2 (FLT_exp (-1074) 53) ZnearestE (x + y)) with (rnd (x + y)) in R.
  assert (u_ro radix2 53 = bpow radix2 (-53)) as U.
  { unfold u_ro. change (/ 2)%R with (bpow radix2 (-1)). rewrite <- bpow_plus. reflexivity. }
  rewrite U in E. assert (0 < bpow radix2 (-53))%R as Bp by apply bpow_gt_0.
  rewrite R. replace ((x + y) * (1 + eps) - (x + y))%R with (eps * (x + y))%R by ring. rewrite Rabs_mult.
  apply Rmult_le_compat_r; [apply Rabs_pos|]. apply Rle_trans with (1 := E).
  apply Rmult_le_reg_r with (1 + bpow radix2 (-53))%R; [lra|]. unfold Rdiv. rewrite Rmult_assoc, Rinv_l by lra. nra.
Qed.
Lemma last_step a n : generic_format radix2 fexp64 a -> generic_format radix2 fexp64 n -> (0 <= n <= a)%R ->
  (Rabs (rnd (n + rnd (a - n)) - a) <= bpow radix2 (-51) * a)%R.
Proof.
  intros A C (L & H). set (u := bpow radix2 (-53)).
  assert (0 < u)%R as U0 by apply bpow_gt_0.
  assert (u <= 1)%R as U1 by (change 1%R with (bpow radix2 0); apply bpow_le; lia).
  assert (bpow radix2 (-51) = 4 * u)%R as U4.
  { unfold u. change 4%R with (bpow radix2 2). rewrite <- bpow_plus. reflexivity. }
  assert (E1 := sum_error a (- n) A (generic_format_opp _ _ _ C)). fold u in E1.
  change (a + - n)%R with (a - n)%R in E1. rewrite (Rabs_pos_eq (a - n)) in E1 by lra.
  assert (F := generic_format_round radix2 fexp64 ZnearestE (a - n)). fold (rnd (a - n)) in F.
  assert (E2 := sum_error n _ C F). fold u in E2.
  set (r := rnd (a - n)) in *. apply Rabs_le_inv in E1.
  assert (0 <= r)%R as R0 by (apply rnd_nonneg; lra). rewrite (Rabs_pos_eq (n + r)) in E2 by lra. apply Rabs_le_inv in E2.
  rewrite U4. apply Rabs_le.
  assert (u * (a - n) <= u * a)%R as K1 by nra.
  assert (u * (n + r) <= 2 * u * a)%R as K2 by nra. split; lra.
Qed.

(** ** The conservative amount *)
Lemma missing_correct v : in_range v ->
  ffin (missing v) = true /\ fR (missing v) = rnd (fR (mag (v_amount v)) - fR (mag (v_next v)))
  /\ (0 <= fR (missing v) <= fR (mag (v_amount v)))%R.
Proof.
  unfold in_range, finite, real_of. rewrite <- !ffin_SF, <- !fR_SF. intros (A & C & L & H).
  set (t := mag (v_amount v)) in *. set (n := mag (v_next v)) in *.
  assert (0 <= rnd (fR t - fR n) <= fR t)%R as K.
  { split; [apply rnd_nonneg; lra|]. rewrite <- (rnd_format _ (fR_format t)) at 2. apply rnd_le. lra. }
  assert (Q := fR_bound t). rewrite Rabs_pos_eq in Q by lra.
  destruct (fsub_correct t n A C) as [E F]; [rewrite Rabs_pos_eq; lra|].
  unfold missing. fold t n. rewrite E. auto.
Qed.
Lemma days_small k today due : days_later k today due -> days_since due today = Z.of_nat k /\ Z.of_nat k <= 2 ^ 53.
Proof.
  intro H. apply days_later_dayn in H. unfold days_since. split; [lia|].
  assert (first_dayn <= dayn today <= last_dayn /\ first_dayn <= dayn due <= last_dayn) as [A C] by (split; apply dayn_bounds).
  enough (last_dayn - first_dayn <= 2 ^ 53) by lia. Transparent first_dayn last_dayn dayn. vm_compute. congruence. Opaque dayn first_dayn last_dayn.
Qed.
Lemma quotient_correct v k : in_range v -> (1 <= k) -> k <= 2 ^ 53 ->
  let q := fdiv (missing v) (fofZ k) in
  ffin q = true /\ fR q = rnd (fR (missing v) / IZR k) /\ (0 <= fR q <= fR (missing v))%R.
Proof.
  intros I K L q. destruct (missing_correct v I) as (F & E & Lo & Hi). destruct (fofZ_int k) as [Kf Kr]; [lia|].
  assert (1 <= IZR k)%R as K1 by (apply IZR_le; lia).
  assert (0 <= fR (missing v) / IZR k <= fR (missing v))%R as Q.
  { split; [apply Rmult_le_pos; [lra|apply Rlt_le, Rinv_0_lt_compat; lra]|].
    apply Rmult_le_reg_r with (IZR k); [lra|]. unfold Rdiv. rewrite Rmult_assoc, Rinv_l by lra. nra. }
  assert (0 <= rnd (fR (missing v) / IZR k) <= fR (missing v))%R as R.
  { split; [apply rnd_nonneg; lra|]. rewrite <- (rnd_format _ (fR_format (missing v))) at 2. apply rnd_le. lra. }
  assert (B := fR_bound (missing v)). rewrite Rabs_pos_eq in B by lra.
  destruct (fdiv_correct (missing v) (fofZ k) F) as [G H]; [rewrite Kr; lra|rewrite Kr, Rabs_pos_eq; lra|].
  unfold q. rewrite G, Kr. auto.
Qed.
Lemma limit_is m av rem total : ffin m = true -> (0 <= fR m)%R -> fleb m av = true -> fleb m rem = true -> fltb total fzero = false ->
  let x := fmax (fmax (fmin (fmin m av) rem) (fneg total)) fzero in ffin x = true /\ fR x = fR m.
Proof.
  intros F P A C T x. assert (G : fleb m x = true).
  { apply limit_ge; auto. apply fleb_R. assert (N := ffin_not_nan _ F). repeat split; auto. lra. }
  destruct (limit_bounds m av rem total T) as (_ & _ & D). fold x in D. unfold at_most in D.
  apply fleb_R in G. destruct G as (Nm & Nx & G).
  assert (fval x = fval m) as E.
  { destruct (fltb fzero x) eqn:Z.
    - specialize (D eq_refl). apply (fltb_false_R _ _ Nm Nx) in D. lra.
    - apply (fltb_false_R fzero x eq_refl Nx) in Z. rewrite fval_zero in Z. rewrite (fval_fin m F) in *. lra. }
  assert (ffin x = true) as Fx.
  { destruct (finite_or_inf x Nx) as [H|[[_ H]|[_ H]]]; [exact H|..]; exfalso;
    rewrite E, (fval_fin m F) in H; assert (B := fR_bound m); rewrite Rabs_pos_eq in B by lra; fold top in B; assert (K := top_pos); lra. }
  split; [exact Fx|]. rewrite <- (fval_fin x Fx), E. apply fval_fin, F.
Qed.
Lemma conservative_amount today v av a due k :
  filling_amount today v av = Ok a -> v_funding v = Conservative -> ready today v due ->
  days_later k today due -> (1 <= k)%nat -> not_owing v -> in_range v ->
  fleb (fdiv (missing v) (fofZ (Z.of_nat k))) (mag av) = true ->
  ffin (mag a) = true /\ fR (mag a) = rnd (fR (missing v) / INR k).
Proof.
  intros H Fu Re Da K T I Af. assert (E := ready_amount _ _ _ _ _ H Re). rewrite Fu in E.
  destruct (days_small _ _ _ Da) as [Ds Dl]. rewrite Ds in E.
  destruct (quotient_correct v (Z.of_nat k) I) as (Qf & Qr & Ql & Qh); [lia|exact Dl|].
  destruct (missing_correct v I) as (F & _ & _).
  destruct (limit_is _ (mag av) (missing v) (total_mag v) Qf Ql Af) as [A C]; [|exact T|].
  - apply fleb_R. split; [apply ffin_not_nan, Qf|]. split; [apply ffin_not_nan, F|]. rewrite !fval_fin by assumption. exact Qh.
  - rewrite E. split; [exact A|]. rewrite C, Qr, INR_IZR_INZ. reflexivity.
Qed.

(** ** Saving day by day *)
Lemma day_moves today v a u : positive a -> last_is_past today v -> symbol a = symbol (v_amount v) ->
  (exists e, e_date e = today /\ posted_to v (e_postings e) = [a] /\ env_process today v e = Ok u) ->
  same_definition v u /\ mag (v_next u) = fadd (mag (v_next v)) (mag a).
Proof.
  intros P L S (e & D & Po & H).
  assert (manual e) as M.
  { eexists. apply (posted_to_In v (e_postings e) a). rewrite Po. left. reflexivity. }
  apply (env_process_manual today v e u M) in H. rewrite Po, D in H. inversion H as [|v0 a0 u0 l0 w0 Mo Re]; subst.
  inversion Re; subst. destruct Mo as (Sd & _ & Q). split; [exact Sd|].
  assert (~ negative a) as Nn by (unfold negative, positive in *; rewrite (fltb_zero_asym' _ P); discriminate).
  destruct Q as [(Q & _)|[(_ & (l & F & E) & _)|[(_ & _ & (_ & A) & _)|(_ & Q & _)]]]; [contradiction| |rewrite A; reflexivity|contradiction].
  exfalso. specialize (L _ F). apply not_later_dayn in L. apply earlier_dayn in E. lia.
Qed.
Lemma step_value today v av a due k :
  filling_amount today v av = Ok a -> v_funding v = Conservative -> ready today v due ->
  days_later k today due -> (1 <= k)%nat -> not_owing v -> in_range v ->
  fleb (mag (v_amount v)) (mag av) = true ->
  ffin (mag a) = true /\ fR (mag a) = rnd (rnd (fR (mag (v_amount v)) - fR (mag (v_next v))) / INR k).
Proof.
  intros H Fu Re Da K T I Af. destruct (missing_correct v I) as (F & Mr & _ & Mh).
  destruct (days_small _ _ _ Da) as [Ds Dl].
  destruct (quotient_correct v (Z.of_nat k) I) as (Qf & Qr & Ql & Qh); [lia|exact Dl|].
  rewrite <- Mr. apply (conservative_amount today v av a due k); auto.
  apply fleb_R in Af. destruct Af as (An & Avn & Af). apply fleb_R. split; [apply ffin_not_nan, Qf|]. split; [exact Avn|].
  rewrite (fval_fin _ Qf). destruct I as (Ta & _). unfold finite in Ta. rewrite <- ffin_SF in Ta. rewrite (fval_fin _ Ta) in Af. lra.
Qed.
Lemma no_gap a n k : generic_format radix2 fexp64 a -> generic_format radix2 fexp64 n -> (0 <= n <= a)%R -> (2 <= k)%R ->
  (n <= rnd (n + rnd (rnd (a - n) / k)) <= a)%R.
Proof.
  intros A C (L & H) K.
  assert (0 <= rnd (rnd (a - n) / k) <= a - n)%R as Q.
  { split.
    - apply rnd_nonneg. apply Rmult_le_pos; [apply rnd_nonneg; lra|apply Rlt_le, Rinv_0_lt_compat; lra].
    - destruct (Rle_lt_or_eq_dec n a H) as [Lt|Eq].
      + apply part_below; [apply difference_least; assumption|exact K].
      + subst. rewrite Rminus_diag_eq by reflexivity. rewrite rnd_0. unfold Rdiv. rewrite Rmult_0_l, rnd_0. lra. }
  split.
  - rewrite <- (rnd_format n C) at 1. apply rnd_le. lra.
  - rewrite <- (rnd_format a A) at 2. apply rnd_le. lra.
Qed.
Lemma run_before due d v w : saving_run due d v w -> dayn d <= dayn due.
Proof.
  induction 1 as [v|today nd v av a u w Re T L Af H Q To R IH]; [lia|].
  assert (days_later 1 today nd) as D by (exists today; split; [reflexivity|exact To]). apply days_later_dayn in D. lia.
Qed.
Lemma run_target due today v w : saving_run due today v w ->
  forall k, days_later k today due -> (1 <= k)%nat -> v_funding v = Conservative -> in_range v ->
  (fR (mag (v_amount v)) <= bpow radix2 1023)%R ->
  v_amount w = v_amount v /\ ffin (mag (v_next w)) = true
  /\ (Rabs (fR (mag (v_next w)) - fR (mag (v_amount v))) <= bpow radix2 (-51) * fR (mag (v_amount v)))%R.
Proof.
  induction 1 as [v|today nd v av a u w Re T L Af H Q To R IH]; intros k Da K Fu I Ta.
  { apply days_later_dayn in Da. lia. }
  destruct (step_value _ _ _ _ _ _ H Fu Re Da K T I Af) as [Af1 Av].
  assert (days_later 1 today nd) as D1 by (exists today; split; [reflexivity|exact To]).
  apply days_later_dayn in D1. assert (Dk := Da). apply days_later_dayn in Dk.
  destruct (filling_amount_safe _ _ _ _ H) as (An & Ap & As).
  assert (I' := I). destruct I' as (Fa & Fn & Lo & Hi). unfold finite, real_of in Fa, Fn, Lo, Hi.
  rewrite <- ffin_SF in Fa, Fn. rewrite <- fR_SF in Lo. rewrite <- !fR_SF in Hi.
  set (t := mag (v_amount v)) in *. set (n := mag (v_next v)) in *.
  assert (0 <= fR (mag a))%R as A0.
  { apply (fltb_false_R (mag a) fzero An eq_refl) in Ap. rewrite fval_zero, (fval_fin _ Af1) in Ap. exact Ap. }
  assert (bpow radix2 1024 = 2 * bpow radix2 1023)%R as B2.
  { change 2%R with (bpow radix2 1). rewrite <- bpow_plus. reflexivity. }
  assert (0 < bpow radix2 1023)%R as B0 by apply bpow_gt_0.
  assert (bpow radix2 (-51) <= /2)%R as B51.
  { change (/2)%R with (bpow radix2 (-1)). apply bpow_le. lia. }
  assert (0 < bpow radix2 (-51))%R as B51' by apply bpow_gt_0.
  assert (0 < INR k)%R as K0 by (apply lt_0_INR; lia).
  (* the amount after the day *)
  assert (same_definition v u /\ ffin (mag (v_next u)) = true /\ fR (mag (v_next u)) = rnd (fR n + fR (mag a))) as (Sd & Uf & Ur).
  { assert (Rabs (rnd (fR n + fR (mag a))) < bpow radix2 1024)%R as Small.
    { destruct (Nat.eq_dec k 1) as [->|K2].
      - assert (E := last_step (fR t) (fR n) (fR_format t) (fR_format n) (conj Lo Hi)).
        cbn [INR] in Av. unfold Rdiv in Av. rewrite Rinv_1, Rmult_1_r in Av.
        rewrite (rnd_format (rnd _)) in Av by (apply generic_format_round; auto with typeclass_instances).
        rewrite Av. apply Rabs_le_inv in E. apply Rabs_lt. nra.
      - assert (2 <= INR k)%R as K3 by (change 2%R with (INR 2); apply le_INR; lia).
        assert (E := no_gap (fR t) (fR n) (INR k) (fR_format t) (fR_format n) (conj Lo Hi) K3).
        rewrite <- Av in E. apply Rabs_lt. lra. }
    destruct (fadd_correct n (mag a) Fn Af1 Small) as [Sr Sf].
    destruct Q as [(P & Ex)|(P & ->)].
    - destruct (day_moves _ _ _ _ P L As Ex) as [Sd E]. rewrite E. fold n. auto.
    - split; [apply same_definition_refl|]. split; [exact Fn|].
      assert (fR (mag a) = 0)%R as Z.
      { unfold positive in P. apply not_true_is_false in P. apply (fltb_false_R fzero (mag a) eq_refl An) in P.
        rewrite fval_zero, (fval_fin _ Af1) in P. lra. }
      rewrite Z, Rplus_0_r. symmetry. apply rnd_format, fR_format. }
  assert (Sd' := Sd). destruct Sd' as (_ & Ea & _ & _ & _ & Ef & _). assert (Te : v_amount u = v_amount v) by congruence.
  destruct (Nat.eq_dec k 1) as [->|K2].
  - (* the last day *)
    assert (u = w) as <-.
    { inversion R as [|? nd2 ? ? ? ? ? ? ? ? ? ? ? To2 R2]; subst; [reflexivity|]. apply run_before in R2.
      assert (days_later 1 nd nd2) as D2 by (exists nd; split; [reflexivity|exact To2]). apply days_later_dayn in D2. lia. }
    split; [exact Te|]. split; [exact Uf|]. rewrite Ur, Av. cbn [INR]. unfold Rdiv. rewrite Rinv_1, Rmult_1_r.
    rewrite (rnd_format (rnd (fR t - fR n))) by (apply generic_format_round; auto with typeclass_instances).
    apply last_step; auto using fR_format.
  - assert (2 <= INR k)%R as K3 by (change 2%R with (INR 2); apply le_INR; lia).
    assert (E := no_gap (fR t) (fR n) (INR k) (fR_format t) (fR_format n) (conj Lo Hi) K3). rewrite <- Av, <- Ur in E.
    unfold t. rewrite <- Te. apply (IH (k - 1)%nat).
    + apply days_later_dayn. lia.
    + lia.
    + congruence.
    + unfold in_range, finite, real_of. rewrite Te, <- !ffin_SF, <- !fR_SF. fold t. repeat split; auto; lra.
    + rewrite Te. exact Ta.
Qed.

(** ** Aggressive envelopes of an account *)
Lemma fsub_nonpos x y : fltb y x = false -> fis_nan x = false -> fis_nan y = false -> fltb fzero (fsub x y) = false.
Proof.
  intros L Nx Ny. apply (fltb_false_R y x Ny Nx) in L. apply not_true_is_false. intro K. apply fltb_R in K. destruct K as (_ & Nn & K).
  rewrite fval_zero in K. assert (P := top_pos).
  destruct (finite_or_inf x Nx) as [Fx|[[Sx Vx]|[Sx Vx]]]; destruct (finite_or_inf y Ny) as [Fy|[[Sy Vy]|[Sy Vy]]].
  - rewrite (fval_fin x Fx), (fval_fin y Fy) in L.
    destruct (Rlt_le_dec (Rabs (rnd (fR x - fR y))) (bpow radix2 1024)) as [S|S].
    + destruct (fsub_correct x y Fx Fy S) as [E F]. rewrite (fval_fin _ F), E in K.
      assert (Q := rnd_nonpos (fR x - fR y)). lra.
    + assert (Q := Bminus_correct prec emax Hprec Hmax mode_NE (B x) (B y) Fx Fy).
      rewrite Rlt_bool_false in Q by exact S. rewrite <- B_fsub in Q. destruct Q as [Q Sg].
      rewrite B2SF_B in Q. destruct (Bsign (B x)) eqn:Sx.
      * change (sf (fsub x y) = S754_infinity true) in Q. destruct (inf_val _ _ Q) as [_ V]. rewrite V in K. lra.
      * destruct (sign_R x Fx) as [_ X]. destruct (sign_R y Fy) as [Y _]. unfold fsign in X, Y.
        assert (Bsign (B y) = true) as Sy by (destruct (Bsign (B y)); [reflexivity|discriminate]).
        specialize (X Sx). specialize (Y Sy). assert (fR x - fR y = 0)%R as Z by lra. rewrite Z, rnd_0, Rabs_R0 in S.
        assert (0 < bpow radix2 1024)%R by apply bpow_gt_0. lra.
  - rewrite Vy in L. assert (Q := fR_bound x). rewrite (fval_fin x Fx) in L. apply Rabs_lt_inv in Q. fold top in Q. lra.
  - assert (sf (fsub x y) = S754_infinity true) as Q.
    { rewrite ffin_SF in Fx. unfold fsub. rewrite fmk_sf; unfold SFsub; rewrite Sy; destruct (sf x); try discriminate; reflexivity. }
    destruct (inf_val _ _ Q) as [_ V]. rewrite V in K. lra.
  - assert (sf (fsub x y) = S754_infinity true) as Q.
    { rewrite ffin_SF in Fy. unfold fsub. rewrite fmk_sf; unfold SFsub; rewrite Sx; destruct (sf y); try discriminate; reflexivity. }
    destruct (inf_val _ _ Q) as [_ V]. rewrite V in K. lra.
  - assert (sf (fsub x y) = S754_nan) as Q.
    { unfold fsub. rewrite fmk_sf; unfold SFsub; rewrite Sx, Sy; reflexivity. }
    unfold fis_nan in Nn. rewrite Q in Nn. discriminate.
  - assert (sf (fsub x y) = S754_infinity true) as Q.
    { unfold fsub. rewrite fmk_sf; unfold SFsub; rewrite Sx, Sy; reflexivity. }
    destruct (inf_val _ _ Q) as [_ V]. rewrite V in K. lra.
  - rewrite Vx, (fval_fin y Fy) in L. assert (Q := fR_bound y). apply Rabs_lt_inv in Q. fold top in Q. lra.
  - rewrite Vx, Vy in L. lra.
  - assert (sf (fsub x y) = S754_nan) as Q.
    { unfold fsub. rewrite fmk_sf; unfold SFsub; rewrite Sx, Sy; reflexivity. }
    unfold fis_nan in Nn. rewrite Q in Nn. discriminate.
Qed.
Lemma fsub_nan_l x y : fis_nan x = true -> fltb fzero (fsub x y) = false.
Proof.
  intro N. apply not_true_is_false. intro K. apply fltb_R in K. destruct K as (_ & K & _).
  rewrite fsub_fadd in K. unfold fis_nan, fadd in *. destruct (sf x); try discriminate N. discriminate K.
Qed.
Lemma left_nonpos today p vs ps q sym : fillings today p vs ps q ->
  ~ positive (pool_only p sym) -> ~ positive (pool_only q sym).
Proof.
  unfold positive. induction 1 as [|p v a vs ps q E F IH]; intro N; [exact N|]. apply IH.
  destruct (filling_amount_safe _ _ _ _ E) as (An & Ap & As).
  rewrite pool_only_sub. destruct (sym_dec (symbol a) sym) as [Es|Es]; [|exact N].
  rewrite pool_only_find in N. apply not_true_iff_false. apply not_true_iff_false in N. destruct (pool_find sym p) as [b|]; cbn [mag] in *.
  - destruct (fis_nan (mag b)) eqn:Nb; [apply fsub_nan_l, Nb|]. apply fsub_nonpos; auto.
    apply not_true_is_false. intro K. apply fltb_R in K. destruct K as (_ & _ & K).
    apply (fltb_false_R _ fzero An eq_refl) in Ap. apply (fltb_false_R fzero _ eq_refl Nb) in N. rewrite fval_zero in *. lra.
  - apply fneg_nonpos, Ap.
Qed.
