(** Filling amounts, due dates and progress bars of envelopes. *)
From Coq Require Import ZArith NArith List Bool String Reals Lra Lia.
From Coq Require Import Floats.SpecFloat.
From Flocq Require Import Core IEEE754.BinarySingleNaN.
From Verif Require Import Base Str F64 Date Amount Posting Entry Envelope Account
  SpecAmount SpecDate SpecEntry SpecEnvelope StrFacts F64Facts AmountFacts PostingFacts EntryFacts
  DateFormat DateFacts FreqFacts EnvelopeFacts.
Import ListNotations.
Local Open Scope Z_scope.

Opaque dayn of_dayn first_dayn last_dayn.

(** ** Minimum and maximum *)
Lemma fmax_zero x : fis_nan (fmax x fzero) = false /\ fltb (fmax x fzero) fzero = false.
Proof.
  destruct (fis_nan x) eqn:N.
  - unfold fmax. rewrite N. split; reflexivity.
  - destruct (fmax_val x fzero N eq_refl) as [A C]. split; [exact A|].
    destruct (fltb (fmax x fzero) fzero) eqn:E; [|reflexivity]. apply fltb_R in E. destruct E as (_ & _ & E).
    rewrite C, fval_zero in E. assert (K := Rmax_r (fval x) 0). lra.
Qed.
Lemma fmax_pos_l x y : fltb fzero (fmax x y) = true -> fltb fzero y = false -> fmax x y = x.
Proof.
  unfold fmax. destruct (fis_nan x); [congruence|]. destruct (fis_nan y); [reflexivity|]. destruct (fltb x y); congruence.
Qed.
Lemma fmin_not_above x y : fltb x (fmin x y) = false /\ fltb y (fmin x y) = false.
Proof.
  unfold fmin. destruct (fis_nan x) eqn:A; [|destruct (fis_nan y) eqn:C; [|destruct (fltb y x) eqn:L]].
  - split; apply not_true_is_false; intro H; apply fltb_R in H; [destruct H; congruence|lra].
  - split; apply not_true_is_false; intro H; apply fltb_R in H; [lra|destruct H; congruence].
  - apply fltb_R in L. split; apply not_true_is_false; intro H; apply fltb_R in H; lra.
  - assert (K := fltb_false_R y x C A L). split; apply not_true_is_false; intro H; apply fltb_R in H; [lra|destruct H as (_ & _ & H)].
    lra.
Qed.
Lemma fltb_cotrans x y z : fltb x y = true -> fis_nan z = false -> fltb x z = true \/ fltb z y = true.
Proof.
  intros H N. apply fltb_R in H. destruct H as (A & C & H). destruct (Rlt_le_dec (fval x) (fval z)) as [L|L].
  - left. apply fltb_R. auto.
  - right. apply fltb_R. repeat split; try assumption. lra.
Qed.
Lemma fmin_keeps x y z : fis_nan x = false -> fltb z x = false -> fltb z (fmin x y) = false.
Proof.
  intros A H. apply not_true_is_false. intro K. destruct (fltb_cotrans _ _ x K A) as [L|L]; [congruence|].
  rewrite (proj1 (fmin_not_above x y)) in L. discriminate.
Qed.
(** The three bounds of the limit. *)
Lemma limit_bounds m av rem total : fltb total fzero = false ->
  let x := fmax (fmax (fmin (fmin m av) rem) (fneg total)) fzero in
  at_most x av /\ at_most x rem /\ at_most x m.
Proof.
  intros T x. assert (fltb fzero x = true -> x = fmin (fmin m av) rem) as E.
  { intro P. unfold x in *. assert (E1 := fmax_pos_l _ fzero P eq_refl). rewrite E1 in P |- *.
    apply (fmax_pos_l _ _ P). apply fneg_nonpos, T. }
  unfold at_most.
  assert (forall z, z = m \/ z = av -> fltb z (fmin (fmin m av) rem) = false) as G.
  { intros z Z. apply not_true_is_false. intro K.
    destruct (fis_nan (fmin m av)) eqn:Nn.
    - assert (fis_nan m = true /\ fis_nan av = true) as [A C].
      { unfold fmin in Nn. destruct (fis_nan m) eqn:A; [auto|]. destruct (fis_nan av) eqn:C; [congruence|]. destruct (fltb av m); congruence. }
      apply fltb_R in K. destruct Z as [->| ->]; destruct K; congruence.
    - rewrite fmin_keeps in K; [discriminate|exact Nn|]. destruct Z as [->| ->]; apply fmin_not_above. }
  repeat split; intro P; rewrite (E P).
  - apply G. auto.
  - apply fmin_not_above.
  - apply G. auto.
Qed.

(** ** The filling amount *)
Lemma filling_amount_safe today v av a : filling_amount today v av = Ok a ->
  fis_nan (mag a) = false /\ fltb (mag a) fzero = false /\ symbol a = symbol (v_amount v).
Proof.
  unfold filling_amount. destruct (negb _); [discriminate|]. intro H. apply bind_Ok in H. destruct H as (next & _ & H).
  destruct next as [due|]; [|injection H as <-; auto]. apply bind_Ok in H. destruct H as (rem & _ & H).
  destruct (date_eqb (v_last v) today); [injection H as <-; auto|].
  destruct (v_funding v); injection H as <-; cbn [mag symbol]; [auto|..]; match goal with |- context [fmax ?x fzero] => destruct (fmax_zero x) end; auto.
Qed.
Lemma remaining_next_Ok v rem : remaining_next v = Ok rem ->
  mag rem = fsub (mag (v_amount v)) (mag (v_next v)).
Proof.
  unfold remaining_next. destruct (amount_sub_spec (v_amount v) (v_next v)) as [A C].
  destruct (sym_dec (symbol (v_amount v)) (symbol (v_next v))) as [E|E].
  - rewrite (A E). intros [= <-]. reflexivity.
  - rewrite (C E). discriminate.
Qed.
Lemma filling_amount_limits today v av a : filling_amount today v av = Ok a -> not_owing v ->
  at_most (mag a) (mag av) /\ at_most (mag a) (fsub (mag (v_amount v)) (mag (v_next v)))
  /\ (v_funding v = Aggressive -> at_most (mag a) (mag (v_amount v))).
Proof.
  assert (forall y, at_most fzero y) as Zr by (intros y H; discriminate H).
  unfold filling_amount, not_owing. destruct (negb _); [discriminate|]. intros H T. apply bind_Ok in H. destruct H as (next & _ & H).
  destruct next as [due|]; [|injection H as <-; cbn [mag]; auto]. apply bind_Ok in H. destruct H as (rem & R & H).
  rewrite <- (remaining_next_Ok _ _ R).
  destruct (date_eqb (v_last v) today); [injection H as <-; cbn [mag]; auto|].
  destruct (v_funding v); injection H as <-; cbn [mag]; [auto|..]; 
    match goal with |- context [fmax (fmax (fmin (fmin ?m ?a) ?r) _) _] => destruct (limit_bounds m a r (total_mag v) T) as (A & C & D) end.
  - repeat split; [exact A|exact C|discriminate].
  - repeat split; [exact A|exact C|intros _; exact D].
Qed.
Lemma filling_amount_zero today v av a : filling_amount today v av = Ok a ->
  v_funding v = Manual \/ env_next_due today v = Ok None \/ v_last v = today ->
  mag a = fzero.
Proof.
  unfold filling_amount. destruct (negb _); [discriminate|]. intros H Q. apply bind_Ok in H. destruct H as (next & N & H).
  destruct next as [due|]; [|injection H as <-; auto]. apply bind_Ok in H. destruct H as (rem & R & H).
  destruct (date_eqb (v_last v) today) eqn:L; [injection H as <-; auto|].
  destruct Q as [Q|[Q|Q]].
  - rewrite Q in H. injection H as <-. reflexivity.
  - congruence.
  - apply date_eqb_iff in Q. congruence.
Qed.

(** ** Due dates exist *)
Lemma freq_next_total today f : year today < max_year -> exists o, freq_next today f = Ok o.
Proof.
  intro H. destruct f as [|d|w|start|n|start|start].
  - eexists; reflexivity.
  - eexists; reflexivity.
  - destruct (weekly_next today w H) as (d & E & _). eauto.
  - apply far_from_end in H. cbn [freq_next]. unfold days_since.
    assert (exists q, Z.quot (Z.quot (dayn today - dayn start) 7) 2 = q /\ dayn today - 27 < dayn start + 14 * (q + 1) - 27 <= dayn today) as (q & -> & Q).
    { eexists. split; [reflexivity|].
      destruct (Z_lt_le_dec (dayn today) (dayn start)) as [L|L].
      - set (k := dayn start - dayn today). replace (dayn today - dayn start) with (- k) by (unfold k; ring).
        rewrite Z.quot_opp_l, Z.quot_opp_l by lia. rewrite (Z.quot_div_nonneg k 7) by lia.
        assert (0 <= k / 7) by (apply Z.div_pos; lia).
        rewrite Z.quot_div_nonneg by lia. rewrite Z.div_div by lia. change (7 * 2) with 14.
        assert (A := Z.div_mod k 14). assert (C := Z.mod_pos_bound k 14). lia.
      - set (k := dayn today - dayn start). rewrite (Z.quot_div_nonneg k 7) by lia.
        assert (0 <= k / 7) by (apply Z.div_pos; lia).
        rewrite Z.quot_div_nonneg by lia. rewrite Z.div_div by lia. change (7 * 2) with 14.
        assert (A := Z.div_mod k 14). assert (C := Z.mod_pos_bound k 14). lia. }
    assert (B := dayn_bounds today). destruct (add_days_total start (7 * ((q + 1) * 2))) as (d & ->); [lia|].
    eexists; reflexivity.
  - destruct (monthly_next today n H) as (d & E & _). cbn [freq_next]. rewrite E. eexists; reflexivity.
  - destruct (bimonthly_next today start H) as (k & d & E & _). eauto.
  - cbn [freq_next]. destruct (date_ltb today start); eexists; reflexivity.
Qed.
Lemma env_next_due_total today v : year today < max_year -> exists o, env_next_due today v = Ok o.
Proof.
  intro H. unfold env_next_due. destruct (freq_next_total today (v_freq v) H) as (o & ->). cbn [bind].
  destruct (v_starting v); eexists; reflexivity.
Qed.
Lemma filling_amount_total today v av : year today < max_year -> in_currency v ->
  symbol av = symbol (v_amount v) -> exists a, filling_amount today v av = Ok a.
Proof.
  intros H [C _] E. unfold filling_amount. rewrite E, ostr_eqb_refl. cbn [negb].
  destruct (env_next_due_total today v H) as ([due|] & ->); cbn [bind]; [|eexists; reflexivity].
  unfold remaining_next. destruct (amount_sub_spec (v_amount v) (v_next v)) as [A _]. rewrite A by congruence. cbn [bind].
  destruct (date_eqb _ _); [eexists; reflexivity|]. destruct (v_funding v); eexists; reflexivity.
Qed.

(** ** Order by due date *)
Lemma env_cmp_spec today v w a b : env_next_due today v = Ok a -> env_next_due today w = Ok b ->
  exists c, env_cmp today v w = Ok c /\ env_cmp today w v = Ok (CompOpp c)
    /\ (c <> Gt <-> due_le a b) /\ (c = Eq <-> a = b).
Proof.
  intros A C. unfold env_cmp. rewrite A, C. cbn [bind]. eexists. split; [reflexivity|].
  destruct a as [x|], b as [y|]; cbn [due_le].
  - rewrite !date_compare_spec, <- Z.compare_antisym, not_later_dayn. split; [reflexivity|]. split.
    + rewrite Z.compare_ngt_iff. lia.
    + rewrite Z.compare_eq_iff. split; [intro E; f_equal; apply dayn_inj, E|congruence].
  - repeat split; try discriminate; easy.
  - repeat split; try discriminate; try easy; intro H; exfalso; apply H; reflexivity.
  - repeat split; easy.
Qed.
Lemma due_le_trans a b c : due_le a b -> due_le b c -> due_le a c.
Proof. destruct a, b, c; cbn; try tauto. apply not_later_trans. Qed.

(** ** The progress bar *)
Lemma IZR_pow2 e : 0 <= e -> IZR (2 ^ e) = bpow radix2 e.
Proof. exact (IZR_Zpower radix2 e). Qed.
Lemma fto_usize_le x n : 0 <= n -> fis_nan x = false -> (fval x <= IZR n)%R -> 0 <= fto_usize x <= n.
Proof.
  intros N Nn H. unfold fto_usize. unfold fval, fis_nan in *. rewrite fR_SF in H.
  destruct (sf x) as [s|s| |s m e]; [lia| |discriminate|].
  - destruct s; [lia|]. assert (2 ^ 1024 <= n); [|assert (2 ^ 64 - 1 <= 2 ^ 1024) by (vm_compute; discriminate); split; [vm_compute; discriminate|lia]].
    apply le_IZR. rewrite IZR_pow2 by lia. exact H.
  - destruct s; [lia|]. cbn [SF2R] in H.
    enough (0 <= (if 0 <=? e then Zpos m * 2 ^ e else Zpos m / 2 ^ (- e)) <= n) by lia.
    unfold F2R in H. cbn [Fnum Fexp cond_Zopp] in H. destruct (Z.leb_spec 0 e) as [E|E].
    + split; [lia|]. apply le_IZR. rewrite mult_IZR. rewrite IZR_pow2 by lia. exact H.
    + assert (0 < 2 ^ (- e)) as P by lia. split; [apply Z.div_pos; lia|].
      apply Z.div_le_upper_bound; [exact P|]. apply le_IZR. rewrite mult_IZR, IZR_pow2 by lia.
      assert (bpow radix2 e * bpow radix2 (- e) = 1)%R as K by (rewrite <- bpow_plus, Z.add_opp_diag_r; reflexivity).
      assert (0 < bpow radix2 (- e))%R as Q by apply bpow_gt_0.
      apply (Rmult_le_compat_r _ _ _ (Rlt_le _ _ Q)) in H. rewrite Rmult_assoc, K, Rmult_1_r in H. lra.
Qed.
Lemma make_bar_shape v m width : Z.of_nat width <= 2 ^ 53 ->
  exists p, (p <= width)%nat
    /\ make_bar v m width = Ok (chr "|" :: repeat bar_char p ++ spaces (width - p) ++ [chr "|"]).
Proof.
  intro W. unfold make_bar. set (wf := fofZ (Z.of_nat width)). set (q := fdiv _ _).
  destruct (fofZ_int (Z.of_nat width)) as [Fw Rw]; [lia|]. fold wf in Fw, Rw.
  assert (Nw := ffin_not_nan _ Fw). assert (Vw := fval_fin _ Fw).
  assert (0 <= fval wf)%R as P0 by (rewrite Vw, Rw; apply IZR_le; lia).
  assert (fis_nan (fmin q wf) = false /\ (fval (fmin q wf) <= fval wf)%R) as [Nm Lm].
  { destruct (fis_nan q) eqn:Nq.
    - unfold fmin. rewrite Nq. split; [exact Nw|lra].
    - destruct (fmin_val q wf Nq Nw) as [A C]. split; [exact A|]. rewrite C. apply Rmin_r. }
  destruct (fmax_val (fmin q wf) fzero Nm eq_refl) as [A C].
  assert (K := fto_usize_le (fmax (fmin q wf) fzero) (Z.of_nat width) ltac:(lia) A).
  destruct K as [K0 K1]; [rewrite C, fval_zero, <- Rw, <- Vw; apply Rmax_lub; assumption|].
  set (p := fto_usize _) in *. exists (Z.to_nat p). split; [lia|].
  destruct (Z.ltb_spec (Z.of_nat width) p); [lia|]. reflexivity.
Qed.
