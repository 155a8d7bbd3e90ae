(** Exact conditions for properties that do not hold in general. *)
From Coq Require Import ZArith NArith List Bool String Reals Lra Lia.
From Flocq Require Import Core.
From Verif Require Import Base Str F64 Date Amount Posting Entry Envelope Account World Ledger
  SpecAmount SpecDate SpecEntry SpecEnvelope SpecFunding StrFacts F64Facts AmountFacts EntryFacts
  DateFacts FreqFacts EnvelopeFacts FillFacts AccountFacts BarFacts F64Round FundingFacts
  PropertiesLedger PropertiesEnvelope.
Import ListNotations.
Local Open Scope Z_scope.

(** ** C40 *)
Lemma fmin_is x y : fis_nan x = false -> fis_nan (fmin x y) = false.
Proof. intro N. unfold fmin. rewrite N. destruct (fis_nan y) eqn:E; [exact N|]. destruct (fltb y x); assumption. Qed.
Lemma fmin_is_r x y : fis_nan y = false -> fis_nan (fmin x y) = false.
Proof. intro N. unfold fmin. destruct (fis_nan x) eqn:E; [exact N|]. rewrite N. destruct (fltb y x); assumption. Qed.
Lemma limit_above m av rem t : fltb av fzero = false ->
  fltb av (fmax (fmax (fmin (fmin m av) rem) t) fzero) = fltb av t
  /\ (fltb av t = true -> fmax (fmax (fmin (fmin m av) rem) t) fzero = t).
Proof.
  intro A. destruct (fis_nan av) eqn:N.
  { rewrite !nan_not_less by exact N. split; [reflexivity|discriminate]. }
  assert (Nx : fis_nan (fmin (fmin m av) rem) = false) by (apply fmin_is, fmin_is_r, N).
  assert (Lx : fltb av (fmin (fmin m av) rem) = false).
  { apply fmin_keeps; [apply fmin_is_r, N|]. apply fmin_not_above. }
  set (x := fmin (fmin m av) rem) in *. clearbody x. clear m rem.
  apply (fltb_false_R av x N Nx) in Lx. apply (fltb_false_R av fzero N eq_refl) in A. rewrite fval_zero in A.
  assert (Z : fval fzero = 0%R) by apply fval_zero.
  unfold fmax. rewrite Nx. destruct (fis_nan t) eqn:Nt.
  - rewrite Nx. change (fis_nan fzero) with false. cbn match.
    assert (F : fltb av t = false) by (apply not_true_is_false; intro H; apply fltb_R in H; destruct H as (_ & H & _); congruence).
    rewrite F. split; [|discriminate]. apply not_true_is_false. intro H. destruct (fltb x fzero); apply fltb_R in H; lra.
  - destruct (fltb x t) eqn:Lt.
    + rewrite Nt. change (fis_nan fzero) with false. cbn match. destruct (fltb t fzero) eqn:Lz.
      * apply fltb_R in Lz. assert (F : fltb av t = false) by (apply not_true_is_false; intro H; apply fltb_R in H; lra).
        rewrite F. split; [|discriminate]. apply not_true_is_false. intro H. apply fltb_R in H. lra.
      * split; [reflexivity|]. reflexivity.
    + rewrite Nx. change (fis_nan fzero) with false. cbn match. apply (fltb_false_R x t Nx Nt) in Lt.
      assert (F : fltb av t = false) by (apply not_true_is_false; intro H; apply fltb_R in H; lra).
      rewrite F. split; [|discriminate]. apply not_true_is_false. intro H. destruct (fltb x fzero); apply fltb_R in H; lra.
Qed.
(** An envelope gets more than there is exactly if it is filled at all and owes
    more than there is; then it gets what it owes. *)
Theorem C40_exact : forall today v av a, filling_amount today v av = Ok a -> ~ negative av ->
  (fltb (mag av) (mag a) = true <->
   (exists due, ready today v due) /\ v_funding v <> Manual /\ fltb (mag av) (fneg (total_mag v)) = true)
  /\ (fltb (mag av) (mag a) = true -> mag a = fneg (total_mag v)).
Proof.
  intros today v av a H N. apply not_true_iff_false in N. unfold filling_amount in H.
  destruct (negb (ostr_eqb (symbol av) (symbol (v_amount v)))); [discriminate|].
  destruct (env_next_due today v) as [[due|]| | |] eqn:Ed; try discriminate; cbn [bind] in H.
  2: { injection H as <-. cbn [mag]. split; [|congruence]. split; [congruence|]. intros ((due & R & _) & _). congruence. }
  destruct (remaining_next v) as [rem| | |]; try discriminate. cbn [bind] in H.
  destruct (date_eqb (v_last v) today) eqn:El.
  { injection H as <-. cbn [mag]. split; [|congruence]. split; [congruence|]. intros ((d & _ & R) & _). apply date_eqb_iff in El. contradiction. }
  assert (Rd : ready today v due).
  { split; [exact Ed|]. intro R. apply date_eqb_iff in R. congruence. }
  destruct (v_funding v).
  - injection H as <-. cbn [mag]. split; [|congruence]. split; [congruence|]. intros (_ & F & _). contradiction.
  - injection H as <-. cbn [mag].
    destruct (limit_above (fdiv (mag rem) (fofZ (days_since due today))) (mag av) (mag rem) (fneg (total_mag v)) N) as [E1 E2].
    rewrite E1. split; [|exact E2]. split; [intro L|tauto]. split; [eauto|]. split; [discriminate|exact L].
  - injection H as <-. cbn [mag].
    destruct (limit_above (mag (v_amount v)) (mag av) (mag rem) (fneg (total_mag v)) N) as [E1 E2].
    rewrite E1. split; [|exact E2]. split; [intro L|tauto]. split; [eauto|]. split; [discriminate|exact L].
Qed.
Print Assumptions C40_exact.

Example C40_exact_case :
  let v := mkEnvelope (lit "x") (dollars 50) Expense [] (Monthly 15) Aggressive None (dollars (-30)) (dollars 0) (lit "a") epoch in
  filling_amount today v (dollars 10) = Ok (dollars 30) /\ fltb (mag (dollars 10)) (fneg (total_mag v)) = true.
Proof. vm_compute. split; reflexivity. Qed.

(** ** C37 *)
(** If the sum over the [for] accounts is negative, the money always moves in
    the wrong direction. *)
Theorem C37_exact : forall today v e w f s, ~ manual e -> env_process today v e = Ok w ->
  (exists p, In p (e_postings e) /\ own v p) ->
  sums e (symbol (v_amount v)) (linked v) (e_postings e) fzero f ->
  sums e (symbol (v_amount v)) (own v) (e_postings e) fzero s ->
  fltb f fzero = true ->
  exists a, moved today v a (e_date e) w
    /\ (fltb s fzero = true -> positive a /\ mag a = fneg f) /\ (fltb s fzero = false -> negative a /\ mag a = f).
Proof.
  intros today v e w f s M H (p & Ip & Op) Sf Ss F.
  assert (Z : sums e (symbol (v_amount v)) (linked v) (e_postings e) fzero f -> (forall p, In p (e_postings e) -> ~ linked v p) -> f = fzero).
  { clear. generalize fzero as x. induction (e_postings e) as [|q ps IH]; intros x S N.
    - inversion S. reflexivity.
    - inversion S; subst; [exfalso; eapply N; [left; reflexivity|eassumption]|]. apply IH; [assumption|]. intros r I. apply N. right. exact I. }
  destruct (env_process_auto _ _ _ _ M H) as [(_ & [K|K])|(_ & _ & f' & s' & Sf' & Ss' & K)].
  - exfalso. exact (K p Ip Op).
  - rewrite (Z Sf K) in F. discriminate.
  - rewrite <- (sums_unique _ _ _ _ _ _ _ Sf Sf'), <- (sums_unique _ _ _ _ _ _ _ Ss Ss') in K.
    assert (E : fmin f (fabs s) = f).
    { unfold fmin. destruct (fis_nan f) eqn:Nf; [rewrite nan_not_less in F by exact Nf; discriminate|].
      destruct (fis_nan (fabs s)) eqn:Ns; [reflexivity|]. destruct (fltb (fabs s) f) eqn:L; [|reflexivity].
      assert (A := fabs_nonneg s). apply (fltb_false_R (fabs s) fzero Ns eq_refl) in A. apply fltb_R in L. apply fltb_R in F. lra. }
    assert (Nz : feqb f fzero = false).
    { apply not_true_is_false. intro Q. unfold feqb, fltb in *. unfold SpecFloat.SFeqb, SpecFloat.SFltb in *. destruct (SpecFloat.SFcompare (sf f) (sf fzero)) as [[]|]; discriminate. }
    rewrite E, Nz in K. destruct K as [[K _]|[_ K]]; [discriminate|]. eexists. split; [exact K|].
    unfold transfer. rewrite E. split; intros ->; cbn [mag].
    + split; [|reflexivity]. unfold positive. cbn [mag]. apply fltb_R in F. destruct F as (F1 & F2 & F3). apply fltb_R.
      rewrite fis_nan_fneg. split; [reflexivity|]. split; [exact F1|]. rewrite fval_fneg, fval_zero in *. lra.
    + split; [exact F|reflexivity].
Qed.
Print Assumptions C37_exact.
Example C37_exact_case :
  let e := the (parse_entry (text ["2024/03/08 * shop [food]"; "  assets:checking  -$20"; "  expenses:food  -$5"; "  income:job  $25"]%string)
                  default_format (chr ".") my_accounts) no_entry in
  match env_of "food" (the (acc_process (mkDate 2024 3 20 eq_refl) checking e) no_account) with
  | Some w => v_now w = dollars 5 /\ v_next w = dollars 0
  | None => False
  end.
Proof. vm_compute. split; reflexivity. Qed.

(** ** C92 *)
(** What is filled in counts for the next due date exactly if the last due date
    is not in the future. Otherwise as much is missing as before. *)
Theorem C92_exact : forall today v av a e w,
  filling_amount today v av = Ok a -> positive a -> e_date e = today -> posted_to v (e_postings e) = [a] -> manual e ->
  env_process today v e = Ok w ->
  (last_is_past today v -> added (v_next v) a (v_next w) /\ v_now w = v_now v)
  /\ (~ last_is_past today v -> added (v_now v) a (v_now w) /\ v_next w = v_next v /\ missing w = missing v).
Proof.
  intros today v av a e w H Pa De Po M E. apply (env_process_manual today v e w M) in E. rewrite Po in E.
  inversion E as [|? ? u ? ? Mv Rest]; subst. inversion Rest; subst. clear E Rest.
  destruct Mv as (Sd & K). unfold positive in Pa.
  assert (Nn : ~ negative a).
  { unfold negative. intro Q. apply fltb_R in Q. apply fltb_R in Pa. rewrite fval_zero in *. lra. }
  assert (Am : v_amount w = v_amount v) by (destruct Sd as (_ & A & _); congruence).
  destruct K as [_ [(Q & _)|[(_ & (l & L1 & L2) & A1 & A2)|[(_ & L & A1 & A2)|(_ & Q & _)]]]]; try contradiction.
  - split.
    + intro P. exfalso. specialize (P l L1). apply earlier_dayn in L2. apply not_later_dayn in P. lia.
    + intros _. split; [exact A1|]. split; [exact A2|]. unfold missing. rewrite A2, Am. reflexivity.
  - split; [auto|]. intro N. exfalso. apply N. intros l L1. destruct L as [L|(l' & L & D)]; [congruence|].
    rewrite L in L1. injection L1 as <-. exact D.
Qed.
Print Assumptions C92_exact.

Example C92_exact_case :
  let v := mkEnvelope (lit "x") (dollars 50) Expense [] (Annually (mkDate 2026 1 1 eq_refl)) Aggressive None (dollars 0) (dollars 0) (lit "a") epoch in
  let e := mkEntry today Cleared [] None None [EnvPosting (mkEnvPosting (lit "a") (lit "x") (dollars 50))] in
  filling_amount today v (dollars 90) = Ok (dollars 50)
  /\ match env_process today v e with
     | Ok w => v_next w = dollars 0 /\ v_now w = dollars 50 /\ filling_amount (mkDate 2024 3 21 eq_refl) w (dollars 90) = Ok (dollars 50)
     | _ => False
     end.
Proof. vm_compute. repeat split; reflexivity. Qed.

(** ** C66 *)
Lemma cells_at_least v m width k : (0 < width)%nat -> Z.of_nat width <= 2 ^ 53 -> pos_fin (mag (v_amount v)) -> fis_nan m = false -> 1 <= k <= Z.of_nat width ->
  let y := fval (fdiv (fmul m (fofZ (Z.of_nat width))) (mag (v_amount v))) in
  ((IZR k <= y)%R -> k <= cells v m width) /\ ((y < IZR k)%R -> cells v m width < k).
Proof.
  intros Wp W T N K y. destruct (cells_val v m width Wp W T N) as [A C]. fold y in C. unfold cells.
  rewrite (fto_usize_floor _ A) by (rewrite C; apply Rmax_r). rewrite C.
  assert (1 <= IZR k <= IZR (Z.of_nat width))%R as [K1 K2] by (split; apply IZR_le; lia).
  assert (2 ^ 53 <= 2 ^ 64 - 1) as B by (vm_compute; discriminate). split; intro H.
  - assert (k <= Zfloor (Rmax (Rmin y (IZR (Z.of_nat width))) 0)); [|lia]. apply Zfloor_lub.
    apply Rle_trans with (2 := Rmax_l _ _). apply Rmin_glb; lra.
  - assert (Zfloor (Rmax (Rmin y (IZR (Z.of_nat width))) 0) < k); [|lia]. apply lt_IZR. apply Rle_lt_trans with (1 := Zfloor_lb _).
    apply Rmax_lub_lt; [|lra]. apply Rle_lt_trans with (1 := Rmin_l _ _). exact H.
Qed.
Lemma small_bpow e : e < 0 -> (0 < bpow radix2 e <= / 2)%R.
Proof. intro E. split; [apply bpow_gt_0|]. change (/ 2)%R with (bpow radix2 (-1)). apply bpow_le. lia. Qed.
(** Outside of a margin of one part in 2^51 around its exact value, a cell of
    the bar is filled if and only if it should be. *)
Theorem C66_close : forall v m width k,
  (0 < width)%nat -> Z.of_nat width <= 2 ^ 53 -> 1 <= k <= Z.of_nat width ->
  finite (mag (v_amount v)) -> finite m ->
  (bpow radix2 (-900) <= real_of (mag (v_amount v)) <= bpow radix2 900)%R -> (Rabs (real_of m) <= bpow radix2 900)%R ->
  exists p, make_bar v m width = Ok (bar p width)
  /\ ((IZR k * (1 + bpow radix2 (-51)) * real_of (mag (v_amount v)) <= IZR (Z.of_nat width) * real_of m)%R -> k <= Z.of_nat p)
  /\ ((IZR (Z.of_nat width) * real_of m <= IZR k * (1 - bpow radix2 (-51)) * real_of (mag (v_amount v)))%R -> Z.of_nat p < k).
Proof.
  intros v m width k Wp W K Ft Fm Bt Bm. set (tg := mag (v_amount v)) in *.
  assert (Ft' : ffin tg = true) by (rewrite ffin_SF; exact Ft). assert (Fm' : ffin m = true) by (rewrite ffin_SF; exact Fm).
  assert (Er : forall x, real_of x = fR x) by (intro x; symmetry; apply fR_SF). rewrite !Er in *. assert (P0 := bpow_gt_0 radix2 (-900)).
  assert (T : pos_fin tg) by (split; [exact Ft'|lra]). assert (N := ffin_not_nan _ Fm').
  destruct (make_bar_cells v m width W) as (_ & C0 & E). exists (Z.to_nat (cells v m width)). split; [exact E|]. rewrite Z2Nat.id by exact C0. clear E C0.
  destruct (cells_at_least v m width k Wp W T N K) as [L1 L2]. fold tg in L1, L2.
  destruct (width_pos width Wp W) as [Pw Rw]. set (wf := fofZ (Z.of_nat width)) in *. set (wi := IZR (Z.of_nat width)) in *.
  assert (Kr : (1 <= IZR k)%R) by (apply IZR_le; lia).
  assert (Kw : (IZR k <= wi)%R) by (apply IZR_le; lia).
  assert (Wr : (wi <= bpow radix2 53)%R) by (change (bpow radix2 53) with (IZR (2 ^ 53)); apply IZR_le; exact W).
  assert (Bp : (Rabs (fR m * wi) <= bpow radix2 953)%R).
  { rewrite Rabs_mult, (Rabs_pos_eq wi) by lra. change 953 with (900 + 53). rewrite bpow_plus.
    apply Rmult_le_compat; [apply Rabs_pos|lra|exact Bm|exact Wr]. }
  assert (Rp : forall r e, (Rabs r <= bpow radix2 e)%R -> -1074 <= e - 52 -> (Rabs (rnd r) <= bpow radix2 e)%R).
  { intros r e H He. assert (G : rnd (bpow radix2 e) = bpow radix2 e).
    { apply rnd_format. apply format_bpow; lia. }
    apply Rabs_le_inv in H. destruct H as [H1 H2]. apply rnd_le in H1, H2. rewrite rnd_opp in H1. rewrite G in H1, H2. apply Rabs_le. lra. }
  destruct (fmul_correct m wf Fm' (proj1 Pw)) as [R1 F1].
  { rewrite Rw. apply Rle_lt_trans with (1 := Rp _ 953 Bp ltac:(lia)). apply bpow_lt. lia. }
  rewrite Rw in R1. fold wi in R1.
  destruct (fdiv_val (fmul m wf) tg T (ffin_not_nan _ F1)) as [_ [[_ Ey]|[X _]]]; [|congruence]. rewrite R1 in Ey.
  set (q := (fR m * wi)%R) in *. set (t := fR tg) in *.
  assert (Sm := small_bpow (-53) eq_refl). assert (S51 := small_bpow (-51) eq_refl).
  assert (E51 : bpow radix2 (-51) = (4 * bpow radix2 (-53))%R) by (change 4%R with (bpow radix2 2); rewrite <- bpow_plus; reflexivity).
  set (u := bpow radix2 (-53)) in *. rewrite E51 in *. clear E51.
  assert (u4 : (u <= / 8)%R) by (unfold u; change (/ 8)%R with (bpow radix2 (-3)); apply bpow_le; lia).
  assert (Kt : (bpow radix2 53 < top)%R) by (unfold top; apply bpow_lt; lia).
  rewrite Ey in L1, L2. split; intro H.
  - apply L1. rewrite (Rmult_comm wi), (Rmult_comm (IZR k * _)) in H. fold q in H.
    assert (KU : (1 <= IZR k * (1 + 4 * u))%R) by nra.
    assert (TU : (t * 1 <= t * (IZR k * (1 + 4 * u)))%R) by (apply Rmult_le_compat_l; lra).
    assert (Q0 : (0 < q)%R) by lra.
    assert (Q1 : (bpow radix2 (-1022) <= Rabs q)%R).
    { apply Rle_trans with (bpow radix2 (-900)); [apply bpow_le; lia|]. rewrite Rabs_pos_eq by lra. lra. }
    assert (D := rnd_rel q Q1). rewrite (Rabs_pos_eq q) in D by lra. apply Rabs_le_inv in D. fold u in D.
    assert (V : (IZR k <= rnd q / t)%R).
    { apply Rmult_le_reg_r with t; [lra|]. unfold Rdiv. rewrite Rmult_assoc, Rinv_l, Rmult_1_r by lra.
      apply Rle_trans with (q * (1 - u))%R; [|lra].
      apply Rle_trans with (t * (IZR k * (1 + 4 * u)) * (1 - u))%R; [|apply Rmult_le_compat_r; lra].
      apply Rle_trans with (t * IZR k * 1)%R; [lra|]. replace (t * (IZR k * (1 + 4 * u)) * (1 - u))%R with (t * IZR k * ((1 + 4 * u) * (1 - u)))%R by ring.
      apply Rmult_le_compat_l; [apply Rmult_le_pos; lra|nra]. }
    apply rnd_le in V. rewrite rnd_Z in V by lia. unfold clamp. apply Rle_trans with (2 := Rmax_r _ _). apply Rmin_glb; lra.
  - apply L2. rewrite (Rmult_comm wi), (Rmult_comm (IZR k * _)) in H. fold q in H.
    assert (V : (rnd q <= t * (IZR k * (1 - 4 * u)) * (1 + u) \/ rnd q <= bpow radix2 (-1000))%R).
    { destruct (Rle_dec (bpow radix2 (-1000)) q) as [Q|Q].
      - left. assert (B0 := bpow_gt_0 radix2 (-1000)).
        assert (Q1 : (bpow radix2 (-1022) <= Rabs q)%R) by (rewrite Rabs_pos_eq by lra; apply Rle_trans with (2 := Q), bpow_le; lia).
        assert (D := rnd_rel q Q1). rewrite (Rabs_pos_eq q) in D by lra. apply Rabs_le_inv in D. fold u in D.
        apply Rle_trans with (q * (1 + u))%R; [lra|]. apply Rmult_le_compat_r; lra.
      - right. apply Rnot_le_lt, Rlt_le in Q. rewrite <- (rnd_format (bpow radix2 (-1000))); [apply rnd_le, Q|].
        apply format_bpow; lia. }
    assert (V' : (rnd q / t <= IZR k * (1 - 2 * u))%R).
    { apply Rmult_le_reg_r with t; [lra|]. unfold Rdiv at 1. rewrite Rmult_assoc, Rinv_l, Rmult_1_r by lra. destruct V as [V|V].
      - apply Rle_trans with (1 := V). apply Rle_trans with (t * (IZR k * (1 - 3 * u)))%R.
        + rewrite Rmult_assoc. apply Rmult_le_compat_l; [lra|]. rewrite Rmult_assoc. apply Rmult_le_compat_l; [lra|]. nra.
        + rewrite (Rmult_comm _ t). apply Rmult_le_compat_l; [lra|]. apply Rmult_le_compat_l; lra.
      - apply Rle_trans with (1 := V). assert (bpow radix2 (-1000) <= / 2 * bpow radix2 (-900))%R.
        { change (/ 2)%R with (bpow radix2 (-1)). rewrite <- bpow_plus. apply bpow_le. lia. }
        apply Rle_trans with (1 := H0). apply Rmult_le_compat; [lra|lra|nra|lra]. }
    assert (Z : (rnd (rnd q / t) < IZR k)%R).
    { destruct (Rle_dec (bpow radix2 (-1000)) (rnd q / t)) as [Q|Q].
      - assert (B0 := bpow_gt_0 radix2 (-1000)).
        assert (Q1 : (bpow radix2 (-1022) <= Rabs (rnd q / t))%R) by (rewrite Rabs_pos_eq by lra; apply Rle_trans with (2 := Q), bpow_le; lia).
        assert (D := rnd_rel _ Q1). rewrite (Rabs_pos_eq (rnd q / t)) in D by lra. apply Rabs_le_inv in D. fold u in D.
        apply Rle_lt_trans with (rnd q / t * (1 + u))%R; [lra|].
        apply Rle_lt_trans with (IZR k * (1 - 2 * u) * (1 + u))%R; [apply Rmult_le_compat_r; lra|]. nra.
      - apply Rnot_le_lt, Rlt_le in Q. apply rnd_le in Q. rewrite (rnd_format (bpow radix2 (-1000))) in Q by (apply format_bpow; lia).
        apply Rle_lt_trans with (1 := Q). assert (bpow radix2 (-1000) <= / 2)%R by (apply small_bpow; lia). lra. }
    unfold clamp. apply Rmax_lub_lt; [unfold top in *; assert (B1 := bpow_gt_0 radix2 1024); lra|]. apply Rle_lt_trans with (1 := Rmin_l _ _). exact Z.
Qed.
Print Assumptions C66_close.
(** 40 * 30 / 51.28 is between 23 and 24. *)
Example C66_close_case :
  match parse_envelope (text ["expense x due every 15th"; " amount $51.28"]%string) (lit "a") (chr ".") default_format with
  | Ok v => make_bar v (fofZ 30) 40 = Ok (bar 23 40)
  | _ => False
  end.
Proof. vm_compute. reflexivity. Qed.
