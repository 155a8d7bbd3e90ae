(** Property C131: an account with more money never saves less. *)
From Coq Require Import ZArith NArith List Bool String Lia Reals Lra Floats.SpecFloat.
From Flocq Require Import Core IEEE754.BinarySingleNaN.
From Verif Require Import Base Str F64 Date Amount Posting Entry Envelope Account World Ledger Cli
  SpecAmount SpecDate SpecEntry SpecEnvelope SpecMore
  StrFacts F64Facts AmountFacts EntryFacts EnvelopeFacts BarFacts FillFacts AccountFacts PropertiesLedger PropertiesCli PropertiesEnvelope.
Import ListNotations.
Local Open Scope Z_scope.

(** ** Subtraction and order *)
Lemma fsub_val x w : ffin w = true -> fis_nan x = false -> fis_nan (fsub x w) = false /\
  ((ffin x = true /\ fval (fsub x w) = clamp (rnd (fR x - fR w))) \/ (ffin x = false /\ fval (fsub x w) = fval x)).
Proof.
  intros W N. destruct (finite_or_inf x N) as [F|F].
  - enough (fis_nan (fsub x w) = false /\ fval (fsub x w) = clamp (rnd (fR x - fR w))) by tauto.
    destruct (Rlt_le_dec (Rabs (rnd (fR x - fR w))) top) as [L|L].
    + destruct (fsub_correct x w F W L) as [E Fm]. split; [apply ffin_not_nan, Fm|].
      rewrite (fval_fin _ Fm), E, clamp_small by exact L. reflexivity.
    + assert (K := Bminus_correct prec emax Hprec Hmax mode_NE (B x) (B w) F W). rewrite Rlt_bool_false in K by exact L.
      rewrite <- B_fsub in K. destruct K as [K D]. change (fsign x = negb (fsign w)) in D.
      change (B2SF (B (fsub x w)) = binary_overflow prec emax mode_NE (fsign x)) in K.
      apply B2SF_inf in K. apply inf_val in K. destruct K as [K ->]. split; [exact K|].
      destruct (sign_R x F) as [S1 S2]. destruct (sign_R w W) as [T1 T2]. apply over_sign; [lra| |]; intro Q; rewrite Q in D; symmetry in D.
      * apply negb_true_iff in D. apply rnd_nonpos. specialize (S1 Q). specialize (T2 D). lra.
      * apply negb_false_iff in D. apply rnd_nonneg. specialize (S2 Q). specialize (T1 D). lra.
  - assert (exists s, sf x = S754_infinity s) as (s & E) by (destruct F as [[E _]|[E _]]; eauto).
    assert (sf (fsub x w) = S754_infinity s) as Em.
    { rewrite ffin_SF in W. unfold fsub. rewrite E. destruct (sf w); try discriminate; cbn [SFsub]; apply fmk_sf; reflexivity. }
    apply inf_val in Em. apply inf_val in E as Ex. destruct Em as [Nm Vm], Ex as [_ Vx]. split; [exact Nm|]. right.
    split; [rewrite ffin_SF, E; reflexivity|congruence].
Qed.
Lemma fsub_mono w : ffin w = true -> forall x y, fis_nan x = false -> fis_nan y = false ->
  (fval x <= fval y)%R -> (fval (fsub x w) <= fval (fsub y w))%R.
Proof.
  intro W. apply (mono_of (fun x => fsub x w) (fun r => r - fR w)%R).
  - intros x N. apply fsub_val; assumption.
  - intros r s L. lra.
Qed.
Lemma clamp_0 : clamp 0 = 0%R.
Proof. apply clamp_small. rewrite Rabs_R0. apply top_pos. Qed.
Lemma fsub_below x w : ffin w = true -> fis_nan x = false -> (fval x <= fR w)%R -> (fval (fsub x w) <= 0)%R.
Proof.
  intros W N L. destruct (proj2 (fsub_val x w W N)) as [[F ->]|[F ->]].
  - rewrite <- clamp_0. apply clamp_le, rnd_nonpos. rewrite (fval_fin x F) in L. lra.
  - destruct (finite_or_inf x N) as [K|[[_ K]|[_ K]]]; [congruence|rewrite K; assert (P := top_pos); lra|].
    rewrite K in L. assert (Q := fR_bound w). apply Rabs_lt_inv in Q. fold top in Q. lra.
Qed.
Lemma fsub_above x w : ffin w = true -> fis_nan x = false -> (fR w <= fval x)%R -> (0 <= fval (fsub x w))%R.
Proof.
  intros W N L. destruct (proj2 (fsub_val x w W N)) as [[F ->]|[F ->]].
  - rewrite <- clamp_0. apply clamp_le, rnd_nonneg. rewrite (fval_fin x F) in L. lra.
  - destruct (finite_or_inf x N) as [K|[[_ K]|[_ K]]]; [congruence| |rewrite K; assert (P := top_pos); lra].
    rewrite K in L. assert (Q := fR_bound w). apply Rabs_lt_inv in Q. fold top in Q. lra.
Qed.

(** ** Amounts that are far from infinite *)
Lemma sane_fin x : sane x -> ffin x = true /\ (Rabs (fR x) <= IZR (10 ^ 300))%R.
Proof. intros (r & [F E] & L). rewrite ffin_SF, fR_SF, E. auto. Qed.
Lemma double_small : (IZR (10 ^ 300) + IZR (10 ^ 300) <= bpow radix2 1000)%R.
Proof. rewrite <- plus_IZR, <- (IZR_Zpower radix2) by lia. apply IZR_le. apply Z.leb_le. vm_compute. reflexivity. Qed.
Lemma rnd_small r : (Rabs r <= bpow radix2 1000)%R -> (Rabs (rnd r) < bpow radix2 1024)%R.
Proof.
  intro H. apply Rle_lt_trans with (bpow radix2 1000); [|apply bpow_lt; lia]. apply Rabs_le_inv in H. apply Rabs_le.
  split; [rewrite <- (rnd_format (bpow radix2 1000)) by (apply format_bpow; lia); rewrite <- rnd_opp|rewrite <- (rnd_format (bpow radix2 1000)) by (apply format_bpow; lia)]; apply rnd_le; lra.
Qed.
Lemma sane_sub x y : sane x -> sane y -> ffin (fsub x y) = true.
Proof.
  intros A B. apply sane_fin in A as [Fx Ax]. apply sane_fin in B as [Fy By]. apply (fsub_correct x y Fx Fy). apply rnd_small.
  assert (D := double_small). apply Rabs_le_inv in Ax, By. apply Rabs_le. lra.
Qed.
Lemma sane_add x y : sane x -> sane y -> ffin (fadd x y) = true.
Proof.
  intros A B. apply sane_fin in A as [Fx Ax]. apply sane_fin in B as [Fy By]. apply (fadd_correct x y Fx Fy). apply rnd_small.
  assert (D := double_small). apply Rabs_le_inv in Ax, By. apply Rabs_le. lra.
Qed.

(** ** One envelope *)
(** The limit as a function of the available money. *)
Definition limited (c d x : R) : R := Rmax (Rmin x c) d.
Lemma fin_of_bounds x : fis_nan x = false -> (- top < fval x < top)%R -> ffin x = true.
Proof. intros N L. destruct (finite_or_inf x N) as [K|[[_ K]|[_ K]]]; [exact K|rewrite K in L; lra..]. Qed.
Lemma fin_bounds x : ffin x = true -> (- top < fval x < top)%R.
Proof. intro F. rewrite (fval_fin x F). assert (Q := fR_bound x). apply Rabs_lt_inv in Q. exact Q. Qed.
Lemma limit_val m rem t : ffin rem = true -> ffin t = true -> exists c d, (0 <= d)%R /\ forall av, fis_nan av = false ->
  ffin (fmax (fmax (fmin (fmin m av) rem) (fneg t)) fzero) = true
  /\ fval (fmax (fmax (fmin (fmin m av) rem) (fneg t)) fzero) = limited c d (fval av).
Proof.
  intros Fr Ft. exists (if fis_nan m then fval rem else Rmin (fval m) (fval rem)), (Rmax (- fval t) 0). split; [apply Rmax_r|]. intros av Na.
  assert (Nr := ffin_not_nan rem Fr). assert (Nt := ffin_not_nan t Ft). assert (Br := fin_bounds rem Fr). assert (Bt := fin_bounds t Ft). assert (Tp := top_pos).
  assert (fis_nan (fmin (fmin m av) rem) = false /\ fval (fmin (fmin m av) rem) = Rmin (fval av) (if fis_nan m then fval rem else Rmin (fval m) (fval rem))) as [N1 V1].
  { destruct (fis_nan m) eqn:Nm.
    - replace (fmin m av) with av by (unfold fmin; rewrite Nm; reflexivity). apply fmin_val; assumption.
    - destruct (fmin_val m av Nm Na) as [A B]. destruct (fmin_val (fmin m av) rem A Nr) as [C D]. split; [exact C|]. rewrite D, B, Rmin_assoc. f_equal. apply Rmin_comm. }
  destruct (fmax_val (fmin (fmin m av) rem) (fneg t) N1) as [N2 V2]; [rewrite fis_nan_fneg; exact Nt|].
  destruct (fmax_val _ fzero N2 eq_refl) as [N3 V3].
  assert (fval (fmax (fmax (fmin (fmin m av) rem) (fneg t)) fzero) = limited (if fis_nan m then fval rem else Rmin (fval m) (fval rem)) (Rmax (- fval t) 0) (fval av)) as V.
  { rewrite V3, V2, V1, fval_fneg, fval_zero. unfold limited. symmetry. apply Rmax_assoc. }
  split; [|exact V]. apply fin_of_bounds; [exact N3|]. rewrite V3, V2, fval_fneg, fval_zero.
  destruct (fmin_val (fmin m av) rem) as [_ V4]; [|exact Nr|].
  { unfold fmin. destruct (fis_nan m) eqn:Nm; [exact Na|]. rewrite Na. destruct (fltb av m); assumption. }
  rewrite V4. split.
  - apply Rlt_le_trans with 0%R; [lra|apply Rmax_r].
  - repeat apply Rmax_lub_lt; [|lra|lra]. apply Rle_lt_trans with (2 := proj2 Br). apply Rmin_r.
Qed.
Lemma limited_mono c d x y : (x <= y)%R -> (limited c d x <= limited c d y)%R.
Proof. intro L. unfold limited. apply Rle_max_compat_r. apply Rle_min_compat_r. exact L. Qed.
(** Either the amount is the same, or the smaller account is used up and the larger one has enough. *)
Lemma limited_cases c d x y : (x <= y)%R -> limited c d x = limited c d y \/ (x <= limited c d x)%R /\ (limited c d y <= y)%R.
Proof.
  intro L. unfold limited, Rmax, Rmin. repeat destruct (Rle_dec _ _); try (left; reflexivity); try (left; lra); right; lra.
Qed.
Lemma filled_more today v x y a : sane_envelope v -> fis_nan (mag x) = false -> fis_nan (mag y) = false -> symbol y = symbol x -> (fval (mag x) <= fval (mag y))%R ->
  filling_amount today v x = Ok a ->
  exists b, filling_amount today v y = Ok b /\ symbol a = symbol (v_amount v) /\ symbol b = symbol (v_amount v) /\ ffin (mag a) = true /\ ffin (mag b) = true
  /\ (fval (mag a) <= fval (mag b))%R /\ (fval (fsub (mag x) (mag a)) <= fval (fsub (mag y) (mag b)))%R.
Proof.
  intros (Sa & Sn & Sw) Nx Ny Sy L H.
  assert (forall z, ffin z = true -> (fval z <= fval z)%R /\ (fval (fsub (mag x) z) <= fval (fsub (mag y) z))%R) as Same.
  { intros z F. split; [lra|]. apply fsub_mono; assumption. }
  unfold filling_amount in *. rewrite Sy. destruct (negb _); [discriminate|]. apply bind_Ok in H as (next & E & H). rewrite E. cbn [bind].
  destruct next as [due|]; [|injection H as <-; eexists; split; [reflexivity|]; cbn [mag symbol]; repeat (split; [reflexivity|]); apply Same; reflexivity].
  apply bind_Ok in H as (rem & R & H). rewrite R. cbn [bind].
  destruct (date_eqb _ _); [injection H as <-; eexists; split; [reflexivity|]; cbn [mag symbol]; repeat (split; [reflexivity|]); apply Same; reflexivity|].
  assert (ffin (mag rem) = true) as Fr by (rewrite (remaining_next_Ok _ _ R); apply sane_sub; assumption).
  assert (ffin (total_mag v) = true) as Ft by (apply sane_add; assumption).
  destruct (v_funding v); injection H as <-; (eexists; split; [reflexivity|]); cbn [mag symbol]; (split; [reflexivity|]); (split; [reflexivity|]); [split; [reflexivity|]; split; [reflexivity|]; apply Same; reflexivity|..];
    match goal with |- context [fmax (fmax (fmin (fmin ?m (mag x)) _) _) _] => destruct (limit_val m (mag rem) (total_mag v) Fr Ft) as (c & d & D & V) end;
    destruct (V (mag x) Nx) as [Fa Va]; destruct (V (mag y) Ny) as [Fb Vb]; (split; [exact Fa|]); (split; [exact Fb|]).
  all: split; [rewrite Va, Vb; apply limited_mono, L|].
  all: destruct (limited_cases c d _ _ L) as [Q|[Q1 Q2]].
  all: try (apply Rle_trans with 0%R; [apply fsub_below|apply fsub_above]; try assumption; rewrite <- fval_fin, ?Va, ?Vb by assumption; assumption).
  all: rewrite <- Va, <- Vb, !fval_fin in Q by assumption.
  all: match goal with |- (fval (fsub _ ?f) <= fval (fsub _ ?g))%R => assert (Z1 := fsub_mono f Fa _ _ Nx Ny L); apply Rle_trans with (1 := Z1) end.
  all: match goal with |- (fval (fsub ?y ?f) <= fval (fsub ?y ?g))%R => destruct (fsub_val y f Fa Ny) as [_ [[F1 ->]|[F1 ->]]]; destruct (fsub_val y g Fb Ny) as [_ [[F2 ->]|[F2 ->]]]; try congruence; rewrite ?Q; apply Rle_refl end.
Qed.

(** ** One account *)
Definition below (p q : pool) : Prop :=
  forall sym, fis_nan (mag (pool_only p sym)) = false /\ fis_nan (mag (pool_only q sym)) = false /\ (fval (mag (pool_only p sym)) <= fval (mag (pool_only q sym)))%R.
Lemma only_sub p a sym : ffin (mag a) = true -> fis_nan (mag (pool_only p sym)) = false ->
  fis_nan (mag (pool_only (pool_sub p a) sym)) = false /\
  fval (mag (pool_only (pool_sub p a) sym)) = if sym_dec (symbol a) sym then fval (fsub (mag (pool_only p sym)) (mag a)) else fval (mag (pool_only p sym)).
Proof.
  intros F N. rewrite pool_only_sub, pool_only_find in *. destruct (sym_dec (symbol a) sym) as [E|E]; [|auto]. destruct (pool_find sym p) as [b|]; cbn [mag] in *.
  - split; [|reflexivity]. apply fsub_val; assumption.
  - rewrite fis_nan_fneg. split; [apply ffin_not_nan, F|]. rewrite fval_fneg. change (mag amount_zero) with fzero.
    destruct (fsub_val fzero (mag a) F eq_refl) as [_ [[_ ->]|[K _]]]; [|discriminate K]. replace (fR fzero) with 0%R by (symmetry; apply fval_zero).
    rewrite Rminus_0_l, rnd_opp, rnd_format by apply fR_format. rewrite clamp_small by (rewrite Rabs_Ropp; apply fR_bound). rewrite (fval_fin _ F). reflexivity.
Qed.
Lemma below_sub p q a b : below p q -> symbol b = symbol a -> ffin (mag a) = true -> ffin (mag b) = true ->
  (fval (fsub (mag (pool_only p (symbol a))) (mag a)) <= fval (fsub (mag (pool_only q (symbol a))) (mag b)))%R -> below (pool_sub p a) (pool_sub q b).
Proof.
  intros B E Fa Fb L sym. destruct (B sym) as (Np & Nq & Le). destruct (only_sub p a sym Fa Np) as [-> ->]. destruct (only_sub q b sym Fb Nq) as [-> ->].
  split; [reflexivity|]. split; [reflexivity|]. rewrite E. destruct (sym_dec (symbol a) sym) as [<-|_]; assumption.
Qed.
Lemma fillings_more today p vs ps p' : fillings today p vs ps p' -> forall q, below p q -> (forall v, In v vs -> sane_envelope v /\ knows p (symbol (v_amount v)) /\ knows q (symbol (v_amount v))) ->
  exists qs q', fillings today q vs qs q' /\ Forall2 no_less_moved ps qs /\ below p' q'.
Proof.
  induction 1 as [p|p v a vs ps p' E F IH]; intros q B K; [exists [], q; split; [constructor|]; split; [constructor|exact B]|].
  destruct (K v (or_introl eq_refl)) as (Sv & Kp & Kq). destruct (B (symbol (v_amount v))) as (Np & Nq & L).
  destruct (filled_more today v _ (pool_only q (symbol (v_amount v))) a Sv Np Nq) as (b & E' & Sa & Sb & Fa & Fb & Le & Ls); [rewrite !knows_only by assumption; reflexivity|exact L|exact E|].
  destruct (IH (pool_sub q b)) as (qs & q' & Fq & R & B').
  - apply below_sub; [exact B|congruence|exact Fa|exact Fb|]. rewrite Sa. exact Ls.
  - intros w I. destruct (K w (or_intror I)) as (Sw & Kp' & Kq'). split; [exact Sw|]. rewrite !pool_sub_add. split; apply knows_add; auto.
  - exists (EnvPosting (mkEnvPosting (v_account v) (v_name v) b) :: qs), q'. split; [econstructor; eassumption|]. split; [|exact B']. constructor; [|exact R].
    exists (v_account v), (v_name v), (mag a), (mag b), (symbol (v_amount v)). split; [rewrite <- Sa; destruct a; reflexivity|]. split; [rewrite <- Sb; destruct b; reflexivity|].
    apply fleb_R. split; [apply ffin_not_nan, Fa|]. split; [apply ffin_not_nan, Fb|exact Le].
Qed.
Lemma available_more vs : (forall v, In v vs -> sane_envelope v) -> forall p q, below p q -> below (fold_left run_op (set_aside vs) p) (fold_left run_op (set_aside vs) q).
Proof.
  induction vs as [|v vs IH]; intros K p q B; [exact B|]. cbn [set_aside flat_map app fold_left]. apply IH; [intros w I; apply K; right; exact I|].
  destruct (K v (or_introl eq_refl)) as (_ & Sn & Sw). apply sane_fin in Sn as [Fn _]. apply sane_fin in Sw as [Fw _]. cbn [run_op].
  assert (forall p q a, below p q -> ffin (mag a) = true -> below (pool_sub p a) (pool_sub q a)) as St.
  { intros p0 q0 a B0 F. apply below_sub; [exact B0|reflexivity|exact F|exact F|]. destruct (B0 (symbol a)) as (N1 & N2 & L). apply fsub_mono; assumption. }
  apply St; [apply St|]; assumption.
Qed.
Theorem C131_more : forall today a b ps, grown today a -> grown today b -> richer a b -> (forall v, In v (all_envelopes a) -> sane_envelope v) ->
  filling_postings today a = Ok ps ->
  exists qs, filling_postings today b = Ok qs /\ Forall2 no_less_moved ps qs
  /\ forall sym, no_more (mag (pool_only (left_over a ps) sym)) (mag (pool_only (left_over b qs) sym)).
Proof.
  intros today a b ps Ga Gb (E1 & E2 & R) K H. apply filling_postings_iff in H as (p' & F).
  assert (all_envelopes b = all_envelopes a) as E by (unfold all_envelopes; rewrite E1, E2; reflexivity).
  assert (below (available_value a) (available_value b)) as B.
  { unfold available_value. rewrite !available_as_ops, E. apply available_more; [exact K|]. intro sym. specialize (R sym). apply fleb_R in R. exact R. }
  destruct (grown_sound _ _ Ga) as (Fa & _). destruct (grown_sound _ _ Gb) as (Fb & _).
  destruct (fillings_more _ _ _ _ _ F _ B) as (qs & q' & Fq & Q & B').
  { intros v I. apply in_rev in I. split; [apply K, I|]. split; apply available_knows; rewrite ?E; try exact I; [apply Fa|apply Fb; rewrite E]; exact I. }
  exists qs. split; [apply filling_postings_iff; exists q'; rewrite E; exact Fq|]. split; [exact Q|]. intro sym. apply fleb_R.
  apply fillings_run in F, Fq. unfold left_over. fold (posting_amounts ps) (posting_amounts qs). change pool_sub with (fun p a => pool_sub p a). rewrite <- F, <- Fq. apply B'.
Qed.
Print Assumptions C131_more.
(** With $30, $90 and $270 in the account: the rent is saved first, then food. *)
Definition noon : date := mkDate 2024 3 20 eq_refl.
Definition paid (n : string) : entry := entry_of ["2024/03/01 * job [pay]"; ("  assets:checking  $" ++ n)%string; "  income:job"]%string.
Definition saved (n : string) : list amount := posting_amounts (the (filling_postings noon (after noon checking [paid n])) []).
Example C131_case : saved "30" = [dollars 0; dollars 30; dollars 0] /\ saved "90" = [dollars 0; dollars 50; dollars 40] /\ saved "270" = [dollars 0; dollars 50; dollars 200]
  /\ grown noon (after noon checking [paid "30"]) /\ grown noon (after noon checking [paid "90"]) /\ richer (after noon checking [paid "30"]) (after noon checking [paid "90"])
  /\ forall v, In v (all_envelopes (after noon checking [paid "30"])) -> sane_envelope v.
Proof.
  assert (forall n a, parse_account checking_text (chr ".") default_format = Ok checking -> acc_process noon checking (paid n) = Ok a -> after noon checking [paid n] = a /\ grown noon a) as G.
  { intros n a P H. split; [unfold after; cbn [fold_res]; rewrite H; reflexivity|]. apply grown_entry with (a := checking) (e := paid n); [|exact H]. exact (grown_parsed _ _ _ _ _ P). }
  split; [vm_compute; reflexivity|]. split; [vm_compute; reflexivity|]. split; [vm_compute; reflexivity|].
  destruct (acc_process noon checking (paid "30")) as [a| | |] eqn:A; [|vm_compute in A; discriminate..].
  destruct (acc_process noon checking (paid "90")) as [b| | |] eqn:B; [|vm_compute in B; discriminate..].
  destruct (G "30"%string a) as [Ea Ga]; [vm_compute; reflexivity|exact A|]. destruct (G "90"%string b) as [Eb Gb]; [vm_compute; reflexivity|exact B|].
  rewrite Ea, Eb. split; [exact Ga|]. split; [exact Gb|]. rewrite <- Ea, <- Eb. split.
  - split; [vm_compute; reflexivity|]. split; [vm_compute; reflexivity|]. intro sym.
    replace (a_real (after noon checking [paid "30"])) with [dollars 30] by (vm_compute; reflexivity). replace (a_real (after noon checking [paid "90"])) with [dollars 90] by (vm_compute; reflexivity).
    rewrite !pool_only_find. cbn [pool_find List.find]. unfold pool_find. cbn [List.find]. change (symbol (dollars 90)) with (symbol (dollars 30)). destruct (ostr_eqb _ _); vm_compute; reflexivity.
  - intros v I. assert (forall n, Z.abs n <= 1000 -> sane (fofZ n)) as Sn.
    { intros n L. exists (IZR n). split; [apply f64_is_int, fofZ_int; lia|]. rewrite <- abs_IZR. apply IZR_le. apply Z.le_trans with (1 := L). apply Z.leb_le. vm_compute. reflexivity. }
    assert (exists n, mag (v_amount v) = fofZ n /\ Z.abs n <= 1000 /\ mag (v_next v) = fofZ 0 /\ mag (v_now v) = fofZ 0) as (n & E1 & L & E2 & E3).
    { vm_compute in I. destruct I as [<-|[<-|[<-|[]]]]; [exists 200|exists 600|exists 1000]; vm_compute; repeat split; discriminate. }
    unfold sane_envelope. rewrite E1, E2, E3. repeat split; apply Sn; lia.
Qed.
