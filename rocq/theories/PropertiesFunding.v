(** Properties C90-C92: the two methods of saving money (README.md, "Methods
    of saving money"). *)
From Coq Require Import ZArith NArith List Bool String Reals Lra Lia.
From Flocq Require Import Core.
From Verif Require Import Base Str F64 Date Amount Posting Entry Envelope Account World Ledger
  SpecAmount SpecDate SpecEntry SpecEnvelope SpecFunding StrFacts F64Facts AmountFacts EntryFacts
  DateFacts FreqFacts EnvelopeFacts FillFacts AccountFacts BarFacts FundingFacts
  Importer Cli PropertiesLedger PropertiesEnvelope.
Import ListNotations.
Local Open Scope Z_scope.

Local Notation D y m d := (mkDate y m d eq_refl).

(** ** C90: aggressive saving moves as much as possible *)
Theorem C90_most : forall today v av a due x,
  filling_amount today v av = Ok a -> v_funding v = Aggressive -> ready today v due ->
  fleb x (mag av) = true -> fleb x (mag (v_amount v)) = true -> fleb x (missing v) = true ->
  fleb x (mag a) = true.
Proof.
  intros today v av a due x H Fu Re A C M. rewrite (ready_amount _ _ _ _ _ H Re), Fu. apply limit_ge; assumption.
Qed.
Print Assumptions C90_most.

(** If an aggressive envelope gets less than its target and less than what is
    missing, then nothing of its currency is left in the account. *)
Theorem C90_account : forall today a ps i v ep due,
  filling_postings today a = Ok ps ->
  nth_error (rev (all_envelopes a)) i = Some v -> nth_error ps i = Some (EnvPosting ep) ->
  v_funding v = Aggressive -> ready today v due ->
  fltb (mag (ep_amount ep)) (mag (v_amount v)) = true -> fltb (mag (ep_amount ep)) (missing v) = true ->
  ~ positive (pool_only
       (fold_left pool_sub
          (flat_map (fun p => match get_amount p with Some x => [x] | None => [] end) ps)
          (available_value a)) (symbol (v_amount v))).
Proof.
  intros today a ps i v ep due H V P Fu Re L M. apply filling_postings_iff in H. destruct H as (q & F).
  assert (q = fold_left pool_sub (flat_map (fun p => match get_amount p with Some x => [x] | None => [] end) ps) (available_value a)) as E
    by exact (fillings_run _ _ _ _ _ F).
  rewrite <- E. clear E. revert F i V P. generalize (available_value a). generalize (rev (all_envelopes a)).
  intros vs p F. induction F as [|p v0 b vs ps q E F IH]; intros i V P; [destruct i; discriminate|].
  destruct i as [|i]; [|exact (IH i V P)]. clear IH. injection V as ->. injection P as <-. cbn [ep_amount] in *.
  apply (left_nonpos _ _ _ _ _ _ F). unfold positive. apply not_true_iff_false.
  destruct (filling_amount_safe _ _ _ _ E) as (An & Ap & As).
  rewrite pool_only_sub. destruct (sym_dec (symbol b) (symbol (v_amount v))) as [Es|Es]; [|contradiction].
  set (av := pool_only p (symbol (v_amount v))) in *.
  assert (fis_nan (mag av) = true \/ fltb (mag b) (mag av) = false) as Q.
  { destruct (fis_nan (mag av)) eqn:Na; [auto|]. right. apply not_true_is_false. intro K.
    apply fltb_R in K. apply fltb_R in L. apply fltb_R in M. destruct K as (_ & _ & K), L as (_ & Ln & L), M as (_ & Mn & M).
    set (x := fmin (fmin (mag av) (mag (v_amount v))) (missing v)).
    destruct (fmin_val (mag av) (mag (v_amount v)) Na Ln) as [N1 V1]. destruct (fmin_val _ (missing v) N1 Mn) as [N2 V2]. fold x in N2, V2.
    assert (fleb x (mag b) = true) as G.
    { apply (C90_most _ _ _ _ due x E Fu Re); apply fleb_R; (split; [exact N2|]; split; [assumption|]); rewrite V2, V1.
      - apply Rle_trans with (1 := Rmin_l _ _), Rmin_l.
      - apply Rle_trans with (1 := Rmin_l _ _), Rmin_r.
      - apply Rmin_r. }
    apply fleb_R in G. destruct G as (_ & _ & G). rewrite V2, V1 in G. revert G. unfold Rmin.
    repeat destruct (Rle_dec _ _); lra. }
  unfold av in Q. rewrite pool_only_find in Q. destruct (pool_find (symbol (v_amount v)) p) as [c|]; cbn [mag] in *.
  - destruct Q as [Q|Q]; [apply fsub_nan_l, Q|]. destruct (fis_nan (mag c)) eqn:Nc; [apply fsub_nan_l, Nc|]. apply fsub_nonpos; assumption.
  - apply fneg_nonpos, Ap.
Qed.
Print Assumptions C90_account.

Definition quick_text : str := text
  ["account assets:checking"; "  expense food due every 15th"; "    amount $200"; "    funding aggressive";
   "  expense rent due every 1st"; "    amount $600"; "    funding aggressive"]%string.
Definition quick : account := the (parse_account quick_text (chr ".") default_format) no_account.
(** With $1000 both envelopes are filled at once, and nothing more is missing;
    with $500 the first to come due takes all that there is. *)
Example C90_case :
  let amounts (pounds : string) := map (fun p => option_map mag (get_amount p))
    (the (filling_postings (D 2024 3 20) (after (D 2024 3 20) quick
       [entry_of ["2024/03/01 * job [pay]"; "  assets:checking  " ++ pounds; "  income:job"]%string])) []) in
  amounts "$1000"%string = [Some (fofZ 600); Some (fofZ 200)]
  /\ amounts "$500"%string = [Some (fofZ 500); Some (fofZ 0)].
Proof. vm_compute. repeat split. Qed.

(** ** C91: conservative saving is spread over the days until the due date *)
(** Never more than what is missing, divided by the days left. *)
Theorem C91_share : forall today v av a due k,
  filling_amount today v av = Ok a -> v_funding v = Conservative -> ready today v due ->
  days_later k today due -> (1 <= k)%nat -> not_owing v -> in_range v ->
  (real_of (mag a) <= nearest (real_of (missing v) / INR k))%R.
Proof.
  intros today v av a due k H Fu Re Da K T I. assert (E := ready_amount _ _ _ _ _ H Re). rewrite Fu in E.
  destruct (days_small _ _ _ Da) as [Ds Dl]. rewrite Ds in E.
  destruct (quotient_correct v (Z.of_nat k) I) as (Qf & Qr & Ql & Qh); [lia|exact Dl|].
  destruct (filling_amount_safe _ _ _ _ H) as (An & Ap & _).
  destruct (limit_bounds (fdiv (missing v) (fofZ (Z.of_nat k))) (mag av) (missing v) (total_mag v) T) as (_ & _ & L).
  rewrite <- E in L. unfold at_most in L. unfold real_of. rewrite <- !fR_SF, INR_IZR_INZ.
  change (fR (mag a) <= rnd (fR (missing v) / IZR (Z.of_nat k)))%R. rewrite <- Qr.
  assert (fval (mag a) <= fval (fdiv (missing v) (fofZ (Z.of_nat k))))%R as V.
  { destruct (fltb fzero (mag a)) eqn:P.
    - apply (fltb_false_R _ _ (ffin_not_nan _ Qf) An), L. reflexivity.
    - apply (fltb_false_R fzero _ eq_refl An) in P. rewrite fval_zero in P. rewrite (fval_fin _ Qf). lra. }
  rewrite (fval_fin _ Qf) in V. destruct (finite_or_inf _ An) as [F|[[S _]|[S W]]].
  - rewrite (fval_fin _ F) in V. exact V.
  - rewrite fR_SF, S. exact Ql.
  - rewrite fR_SF, S. exact Ql.
Qed.
Print Assumptions C91_share.
(** Exactly that, if it can be paid. *)
Theorem C91_daily : forall today v av a due k,
  filling_amount today v av = Ok a -> v_funding v = Conservative -> ready today v due ->
  days_later k today due -> (1 <= k)%nat -> not_owing v -> in_range v ->
  finite (mag av) -> (nearest (real_of (missing v) / INR k) <= real_of (mag av))%R ->
  f64_is (mag a) (nearest (real_of (missing v) / INR k)).
Proof.
  intros today v av a due k H Fu Re Da K T I Fa Af. unfold f64_is, finite, real_of in *. rewrite <- !fR_SF, <- !ffin_SF in *.
  destruct (days_small _ _ _ Da) as [Ds Dl].
  destruct (quotient_correct v (Z.of_nat k) I) as (Qf & Qr & Ql & Qh); [lia|exact Dl|].
  apply (conservative_amount today v av a due k); auto. apply fleb_R.
  split; [apply ffin_not_nan, Qf|]. split; [apply ffin_not_nan, Fa|].
  rewrite (fval_fin _ Qf), (fval_fin _ Fa), Qr, <- INR_IZR_INZ. exact Af.
Qed.
Print Assumptions C91_daily.
(** Filled every day, the envelope holds its target when the due date comes. *)
Theorem C91_just_in_time : forall today v due w k,
  saving_run due today v w -> days_later k today due -> (1 <= k)%nat ->
  v_funding v = Conservative -> in_range v ->
  (real_of (mag (v_amount v)) <= bpow radix2 1023)%R ->
  finite (mag (v_next w))
  /\ (Rabs (real_of (mag (v_next w)) - real_of (mag (v_amount v)))
      <= bpow radix2 (-51) * real_of (mag (v_amount v)))%R.
Proof.
  intros today v due w k R Da K Fu I Ta. unfold finite, real_of in *. rewrite <- !fR_SF, <- !ffin_SF in *.
  destruct (run_target _ _ _ _ R k Da K Fu I Ta) as (_ & A & C). auto.
Qed.
Print Assumptions C91_just_in_time.

Definition slow_text : str := text
  ["account assets:checking"; "  expense rent due every 1st"; "    amount $100"; "    funding conservative"]%string.
Definition slow : account := the (parse_account slow_text (chr ".") default_format) no_account.
(** The fillings of the last days of March 2024, three days of them. *)
Definition fill_day (today : date) (a : account) : account :=
  the (acc_process today a (new_entry today Cleared (lit "fill") None
         (the (filling_postings today a) []) None)) no_account.
Definition rent_of (a : account) : envelope :=
  match all_envelopes a with v :: _ => v | [] => mkEnvelope [] (dollars 0) Goal [] Never Manual None (dollars 0) (dollars 0) [] epoch end.
Example C91_case :
  let day1 := fill_day (D 2024 3 29) (after (D 2024 3 29) slow [pay]) in
  let day2 := fill_day (D 2024 3 30) day1 in
  let day3 := fill_day (D 2024 3 31) day2 in
  mag (v_next (rent_of day1)) = fdiv (fofZ 100) (fofZ 3)
  /\ mag (v_next (rent_of day3)) = fofZ 100
  /\ env_next_due (D 2024 3 31) (rent_of day2) = Ok (Some (D 2024 4 1)).
Proof. vm_compute. repeat split. Qed.
(** The fillings of the last two days are a run in the sense of the theorem. *)
Lemma slow_past t v : v_freq v = Monthly 1 -> (exists l, freq_last t (Monthly 1) = Ok (Some l) /\ dayn l <= dayn t) -> last_is_past t v.
Proof. intros F (l & E & L) l' E'. rewrite F, E in E'. injection E' as <-. apply not_later_dayn, L. Qed.
Example C91_run :
  let a := after (D 2024 3 30) slow [pay] in
  let w := rent_of (fill_day (D 2024 3 31) (fill_day (D 2024 3 30) a)) in
  saving_run (D 2024 4 1) (D 2024 3 30) (rent_of a) w.
Proof.
  cbv zeta. set (a := after (D 2024 3 30) slow [pay]).
  set (amount t b := the (filling_amount t (rent_of b) (dollars 1000)) (dollars 0)).
  set (entry_at t b := new_entry t Cleared (lit "fill") None (the (filling_postings t b) []) None).
  assert (forall t b nd w,
    env_next_due t (rent_of b) = Ok (Some (D 2024 4 1)) -> v_last (rent_of b) <> t -> not_owing (rent_of b) ->
    v_freq (rent_of b) = Monthly 1 -> (exists l, freq_last t (Monthly 1) = Ok (Some l) /\ dayn l <= dayn t) ->
    fleb (mag (v_amount (rent_of b))) (mag (dollars 1000)) = true ->
    filling_amount t (rent_of b) (dollars 1000) = Ok (amount t b) -> positive (amount t b) ->
    posted_to (rent_of b) (e_postings (entry_at t b)) = [amount t b] ->
    env_process t (rent_of b) (entry_at t b) = Ok (rent_of (fill_day t b)) ->
    tomorrow t nd -> saving_run (D 2024 4 1) nd (rent_of (fill_day t b)) w ->
    saving_run (D 2024 4 1) t (rent_of b) w) as Step.
  { intros t b nd w Du La Ow Fr Pa Af Fi Po Ps Pr To R.
    apply (run_day (D 2024 4 1) t nd (rent_of b) (dollars 1000) (amount t b) (rent_of (fill_day t b)) w); auto.
    - split; assumption.
    - apply slow_past; assumption.
    - left. split; [exact Po|]. exists (entry_at t b). auto. }
  apply (Step (D 2024 3 30) a (D 2024 3 31)).
  - vm_compute. reflexivity.
  - vm_compute. discriminate.
  - vm_compute. reflexivity.
  - vm_compute. reflexivity.
  - exists (D 2024 3 1). split; vm_compute; congruence.
  - vm_compute. reflexivity.
  - vm_compute. reflexivity.
  - vm_compute. reflexivity.
  - vm_compute. reflexivity.
  - vm_compute. reflexivity.
  - left. vm_compute. repeat split.
  - apply (Step (D 2024 3 31) (fill_day (D 2024 3 30) a) (D 2024 4 1)).
    + vm_compute. reflexivity.
    + vm_compute. discriminate.
    + vm_compute. reflexivity.
    + vm_compute. reflexivity.
    + exists (D 2024 3 1). split; vm_compute; congruence.
    + vm_compute. reflexivity.
    + vm_compute. reflexivity.
    + vm_compute. reflexivity.
    + vm_compute. reflexivity.
    + vm_compute. reflexivity.
    + right. left. vm_compute. repeat split.
    + apply run_due.
Qed.

(** ** C92: no more than the target *)
Definition on (t : date) : context :=
  mkContext t true (fun _ => None) (fun s => s) (fun l => l) (fun _ => []) 5.
Definition fee_text : str := text
  ["account a"; "  expense fee due every year starting 2026/06/01"; "    amount $200"; "    funding aggressive";
   "account b"; "2024/01/01 * pay"; "  a $1000"; "  b"]%string.
Definition fee_world (t : str) : world := world_of [([lit "j"], t)] [[]] [].
Definition run_on (t : date) (w : world) : world := o_world (main (on t) (map lit ["e"; "-f"; "/j"]%string) w).
Definition fee_move (t : string) : str := text
  ["" ; t ++ " ~ move to envelopes // automatically generated by silverfox";
   "    envelope a fee                                     $ 200"; ""]%string.
(** An envelope with a start date more than a year ahead gets its whole target
    every day, until the account is empty. *)
Theorem C92_refuted : exists w,
  files w [lit "j"] = Some fee_text
  /\ files (run_on (D 2024 3 22) (run_on (D 2024 3 21) (run_on (D 2024 3 20) w))) [lit "j"]
     = Some (fee_text ++ fee_move "2024/03/20" ++ fee_move "2024/03/21" ++ fee_move "2024/03/22").
Proof. exists (fee_world fee_text). split; vm_compute; reflexivity. Qed.
Print Assumptions C92_refuted.

(** It does not happen while no later date is taken for the last due date:
    the savings stay within the target, but for the rounding. *)
Theorem C92_partial : forall today v av a e w,
  filling_amount today v av = Ok a -> not_owing v -> in_range v -> last_is_past today v ->
  (real_of (mag (v_amount v)) <= bpow radix2 1023)%R ->
  positive a -> e_date e = today -> posted_to v (e_postings e) = [a] -> env_process today v e = Ok w ->
  finite (mag (v_next w))
  /\ (real_of (mag (v_next w)) <= (1 + bpow radix2 (-51)) * real_of (mag (v_amount v)))%R
  /\ ((real_of (missing v) = real_of (mag (v_amount v)) - real_of (mag (v_next v)))%R ->
      (real_of (mag (v_next w)) <= real_of (mag (v_amount v)))%R).
Proof.
  intros today v av a e w H T I L Ta P De Po Pr.
  destruct (filling_amount_safe _ _ _ _ H) as (An & Ap & As).
  destruct (day_moves today v a w P L As) as [Sd E]; [exists e; auto|].
  destruct (filling_amount_limits _ _ _ _ H T) as (_ & M & _). unfold at_most in M. specialize (M P). fold (missing v) in M.
  destruct (missing_correct v I) as (Mf & Mr & Ml & Mh).
  destruct I as (Fa & Fn & Lo & Hi). unfold finite, real_of in *. rewrite <- !fR_SF, <- !ffin_SF in *.
  rewrite E. set (t := mag (v_amount v)) in *. set (n := mag (v_next v)) in *. clear E.
  apply (fltb_false_R _ _ (ffin_not_nan _ Mf) An) in M. rewrite (fval_fin _ Mf) in M.
  unfold positive in P. apply fltb_R in P. destruct P as (_ & _ & P). rewrite fval_zero in P.
  assert (Bt := fR_bound (missing v)). apply Rabs_lt_inv in Bt. fold top in Bt.
  assert (Tp := top_pos).
  assert (ffin (mag a) = true) as Af.
  { destruct (finite_or_inf _ An) as [F|[[_ V]|[_ V]]]; [exact F|lra|lra]. }
  rewrite (fval_fin _ Af) in M, P.
  assert (K := last_step (fR t) (fR n) (fR_format t) (fR_format n) (conj Lo Hi)). rewrite <- Mr in K. apply Rabs_le_inv in K.
  assert (rnd (fR n + fR (mag a)) <= rnd (fR n + fR (missing v)))%R as Mo by (apply rnd_le; lra).
  assert (0 <= rnd (fR n + fR (mag a)))%R as P0 by (apply rnd_nonneg; lra).
  assert (bpow radix2 1024 = 2 * bpow radix2 1023)%R as B2.
  { change 2%R with (bpow radix2 1). rewrite <- bpow_plus. reflexivity. }
  assert (0 < bpow radix2 1023)%R as B0 by apply bpow_gt_0.
  assert (bpow radix2 (-51) <= /2)%R as B51.
  { change (/2)%R with (bpow radix2 (-1)). apply bpow_le. lia. }
  assert (0 < bpow radix2 (-51))%R as B51' by apply bpow_gt_0.
  destruct (fadd_correct n (mag a) Fn Af) as [Sr Sf]; [rewrite Rabs_pos_eq by exact P0; nra|].
  rewrite Sr. split; [exact Sf|]. split; [lra|]. intro Ex.
  rewrite <- (rnd_format (fR t) (fR_format t)). apply rnd_le. lra.
Qed.
Print Assumptions C92_partial.
(** The second filling of the envelope [food] finds nothing missing. *)
Example C92_case :
  let day1 := fill_day (D 2024 3 20) (after (D 2024 3 20) checking [pay]) in
  let day2 := fill_day (D 2024 3 21) day1 in
  option_map (fun v => mag (v_next v)) (env_of "food" day1) = Some (fofZ 200)
  /\ option_map (fun v => mag (v_next v)) (env_of "food" day2) = Some (fofZ 200).
Proof. vm_compute. repeat split. Qed.
