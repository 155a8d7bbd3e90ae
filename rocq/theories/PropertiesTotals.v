(** Properties C94-C95: decimals are shown as written, and their totals
    exactly. *)
From Coq Require Import ZArith NArith List Bool String Reals Lra Lia.
From Coq Require Import Floats.SpecFloat.
From Flocq Require Import Core IEEE754.BinarySingleNaN.
From Verif Require Import Base Str F64 Date Amount Posting Entry Envelope Account World Register Ledger
  SpecAmount SpecDate SpecEntry SpecEnvelope SpecLedger SpecRegister SpecFunding SpecTotals
  StrFacts F64Facts AmountFacts AmountParse EntryFacts LedgerFacts DecimalFacts PropertiesAmount PropertiesEntry PropertiesLedger.
Import ListNotations.
Local Open Scope Z_scope.

(** ** C94: an amount is shown as it was written *)
Lemma nearest_units a neg v z : nearest_f64 (mag a) neg v -> v = (IZR z / 100000000)%R -> Z.abs z < 2 ^ 51 ->
  units (mag a) z /\ sign_SF (sf (mag a)) = neg.
Proof.
  intros [H _] -> Hz. apply H. change (Rabs (rnd (IZR z / 100000000)) < bpow radix2 1024)%R.
  assert (N := unit_near z Hz). apply Rabs_lt_inv in N. eapply Rle_lt_trans; [|apply pow53_lt_1024].
  change (IZR (2 ^ 53)) with 9007199254740992%R.
  assert (Rabs (IZR z) < 2251799813685248)%R as HN' by (rewrite <- abs_IZR; apply IZR_lt; exact Hz).
  apply Rabs_le. apply Rabs_lt_inv in HN'. lra.
Qed.
Theorem C94_as_written : forall dsym t neg ip fp z,
  proper_dsym dsym -> spells dsym t neg ip fp ->
  decimal_value neg ip fp = (IZR z / 100000000)%R -> Z.abs z < 2 ^ 51 ->
  exists m, parse_amount t dsym = Ok (mkAmount m None)
  /\ forall sym, total_shown (show_amount (mkAmount m sym)) z sym
     /\ (neg = false -> amount_shown (show_amount (mkAmount m sym)) z sym).
Proof.
  intros dsym t neg ip fp z P Sp V Hz. destruct (C05_nearest dsym t neg ip fp P Sp) as (m & E & N).
  exists m. split; [exact E|]. intro sym. destruct (nearest_units (mkAmount m None) neg _ z N V Hz) as [U Sg]. cbn [mag] in U, Sg.
  assert (total_shown (show_amount (mkAmount m sym)) z sym) as T.
  { eapply show_within; [apply units_within, U|lia|exact Hz]. }
  split; [exact T|]. intros ->. destruct T as [T|[-> _]]; [exact T|].
  assert (m = fzero) as ->.
  { destruct U as [F R]. unfold nearest, Rdiv in R. rewrite Rmult_0_l, round_0 in R by apply valid_rnd_N.
    apply f64_eq. destruct (sf m) as [s|s| |s x y]; try discriminate; [cbn in Sg; rewrite Sg; reflexivity|].
    apply eq_0_F2R in R. destruct s; discriminate. }
  exists [48%N]. split.
  - exists false, [48%N], []. split; [reflexivity|]. split; [repeat constructor; easy|]. split; [constructor|].
    split; [left; reflexivity|]. split; [left; reflexivity|]. split; [discriminate|]. unfold decimal_value. cbn. lra.
  - destruct sym; reflexivity.
Qed.
Print Assumptions C94_as_written.
Example C94_case :
  match parse_amount (lit "-1234567.10000001") 46%N, parse_amount (lit "00.070") 46%N, parse_amount (lit "0.00000001") 46%N with
  | Ok a, Ok b, Ok c =>
      map show_amount [a; b; c; mkAmount (mag a) (Some (lit "EUR")); mkAmount (mag b) (Some (lit "$"))]
      = map lit ["-1234567.10000001"; " 0.07"; " 0.00000001"; "-1234567.10000001 EUR"; "$ 0.07"]%string
  | _, _, _ => False
  end.
Proof. vm_compute. reflexivity. Qed.

(** ** C95: totals are shown exactly *)
(** The whole statement does not hold: zero can be shown with a minus sign, and
    with large amounts the last decimals are wrong. *)
Theorem C95_refuted : exists ls,
  show_balance (loaded ls) = Ok (text [
    "a                                      -0";
    "b                                       0.09999999";
    "c                                      -0.09999999"; ""]%string)
  /\ real_text "a" (loaded ls) = Some (lit "-0")
  /\ real_text "b" (loaded ls) = Some (lit " 0.09999999").
Proof.
  exists ["account a"; "account b"; "account c";
    "2024/02/03 * one"; " a 0.3"; " c -0.3";
    "2024/02/03 * two"; " a -0.1"; " c 0.1";
    "2024/02/03 * three"; " a -0.2"; " c 0.2";
    "2024/02/03 * four"; " b 90000000.1"; " c -90000000.1";
    "2024/02/03 * five"; " c 90000000"; " b -90000000"]%string.
  vm_compute. repeat split; reflexivity.
Qed.
Print Assumptions C95_refuted.

(** What holds.  The inferred amount of an entry: *)
Theorem C95_inferred_partial : forall e p m sym zs,
  In p (e_postings e) -> blank p -> written (e_postings e) <> [] ->
  Forall (fun a => symbol a = sym) (written (e_postings e)) ->
  Forall2 (fun a z => units (mag a) z) (written (e_postings e)) zs ->
  0 < m -> sums_within m zs -> Z.of_nat (List.length zs) * m <= 2 ^ 48 ->
  exists b, get_blank_amount e = Ok (Some b) /\ symbol b = sym /\ total_shown (show_amount b) (- Zsum zs) sym.
Proof.
  intros e p m sym zs I Bl N Sy U M P C. eexists. split; [apply (blank_amount_one e sym (ex_intro _ p (conj I Bl)) N Sy)|].
  split; [reflexivity|]. assert (W := written_within _ zs m ltac:(lia) U P C).
  eapply show_within; [exact W|lia|]. destruct (sums_bound m zs ltac:(lia) 0 ltac:(lia) P) as [_ B].
  change (0 + Zsum zs) with (Zsum zs) in B. rewrite Z.abs_opp.
  destruct (written (e_postings e)); [contradiction|]. inversion U; subst. cbn [List.length] in C. rewrite Nat2Z.inj_succ in C. nia.
Qed.
Print Assumptions C95_inferred_partial.

(** The real value of an account: the postings since its definition, with
    their inferred amounts. *)
Lemma sum_up_only sym xs : contributions sym (map PAdd xs) <> [] ->
  pool_only (sum_up xs) sym = mkAmount (left_sum (contributions sym (map PAdd xs))) sym.
Proof. unfold sum_up. rewrite pool_sum. destruct (contributions _ _); [contradiction|reflexivity]. Qed.
Lemma exact_some m sym ps zs k xs : exact_worths m sym ps zs k -> worths ps xs -> zs <> [] ->
  contributions sym (map PAdd xs) <> [].
Proof.
  intros E. revert xs. induction E as [|e p ps z zs n k H E IH|e p ps b zs k Wb Nb E IH]; intros xs W N; [contradiction| |].
  - inversion W as [|? a ? xs' Wa W']; subst. cbn [fst snd] in Wa. unfold contributions. cbn [map flat_map contribution].
    assert (symbol a = sym) as ->.
    { destruct H as [c z G _|sym zs' Bl I Nw Sy _ _]; [destruct Wa as [Wa|[Wa _]]; congruence|].
      destruct Wa as [Wa|[_ Wa]]; [congruence|]. rewrite (blank_amount_one e sym (ex_intro _ p (conj I Bl)) Nw Sy) in Wa. injection Wa as <-. reflexivity. }
    destruct (sym_dec sym sym); [discriminate|contradiction].
  - inversion W as [|? a ? xs' Wa W']; subst. unfold contributions. cbn [map flat_map]. intro Q. apply app_eq_nil in Q.
    exact (IH xs' W' N (proj2 Q)).
Qed.
Lemma total_only m sym ps zs k xs : 0 < m -> exact_worths m sym ps zs k -> worths ps xs -> sums_within m zs -> zs <> [] ->
  Z.of_nat k * m <= 2 ^ 47 -> total_shown (show_amount (pool_only (sum_up xs) sym)) (Zsum zs) sym.
Proof.
  intros M E W P N C. rewrite sum_up_only by (eapply exact_some; eassumption). eapply total_within; eassumption.
Qed.
Theorem C95_account_partial : forall today l es name a,
  built today l es -> map_get name (l_accounts l) = Some a ->
  exists before since, es = before ++ since
  /\ forall m sym zs k,
     exact_worths m sym (filter (to_classic name) (postings since)) zs k -> zs <> [] ->
     0 < m -> sums_within m zs -> Z.of_nat k * m <= 2 ^ 47 ->
     total_shown (show_amount (pool_only (a_real a) sym)) (Zsum zs) sym.
Proof.
  intros td l es name a B G. destruct (built_real td l es name a B G) as (e1 & e2 & xs & E & W & R).
  exists e1, e2. split; [exact E|]. intros m sym zs k H N M P C. rewrite R.
  exact (total_only m sym _ zs k xs M H W P N C).
Qed.
Print Assumptions C95_account_partial.

(** The balance report, for accounts without envelope postings whose first
    posting has an amount (see C23). *)
Theorem C95_balance_partial : forall l tot name x rest, get_totals l = Ok tot ->
  filter (to_account name) (postings (l_entries l)) = x :: rest -> get_amount (snd x) <> None ->
  (forall e ep, In (e, EnvPosting ep) (x :: rest) -> False) ->
  exists pool, map_get name tot = Some pool
  /\ forall m sym zs k,
     exact_worths m sym (filter (to_classic name) (postings (l_entries l))) zs k -> zs <> [] ->
     0 < m -> sums_within m zs -> Z.of_nat k * m <= 2 ^ 47 ->
     total_shown (show_amount (pool_only pool sym)) (Zsum zs) sym.
Proof.
  intros l tot name x rest H F A N. destruct (C23_right_partial l tot name x rest H F A N) as (xs & W & G & _).
  exists (sum_up xs). split; [exact G|]. intros m sym zs k E Nz M P C. exact (total_only m sym _ zs k xs M E W P Nz C).
Qed.
Print Assumptions C95_balance_partial.

(** The running total of the register after rows with the worths [xs]. *)
Theorem C95_running_partial : forall ps xs m sym zs k, worths ps xs -> exact_worths m sym ps zs k ->
  0 < m -> sums_within m zs -> Z.of_nat k * m <= 2 ^ 47 ->
  total_shown (show_amount (total_in sym xs)) (Zsum zs) sym.
Proof. intros ps xs m sym zs k W E M P C. exact (total_within m sym ps zs k xs M E W P C). Qed.
Print Assumptions C95_running_partial.

(** 0.1 + 0.2 is not 0.3, but it is shown so. *)
Example C95_case :
  let l := loaded ["account a"; "account b"; "account c";
    "2024/02/03 * one"; " a 0.1"; " c";
    "2024/02/04 * two"; " b 0.2"; " a -70000.7"; " c";
    "2024/02/05 * three"; " a 70000.7"; " b 0.1"; " c"]%string in
  show_balance l = Ok (text [
    "a                                       0.1";
    "b                                       0.3";
    "c                                      -0.3"; ""]%string)
  /\ map (fun n => real_text n l) ["a"; "b"; "c"]%string = map (fun s => Some (lit s)) [" 0.1"; " 0.3"; "-0.4"]%string
  /\ fadd (fofdec false 1 1) (fofdec false 2 1) <> fofdec false 3 1.
Proof. vm_compute. repeat split; [reflexivity..|]. intro H. apply (f_equal sf) in H. discriminate. Qed.

(** The assumptions of C95 on the third posting of such an entry. *)
Lemma fofdec_units n : 0 <= n < 2 ^ 51 -> units (fofdec false n 8) n.
Proof.
  intro H. assert (C := fofdec_correct false n 8 ltac:(lia)). unfold fin_or_inf in C. rewrite Rmult_1_l in C.
  change (IZR (10 ^ Z.of_nat 8)) with 100000000%R in C.
  assert (N := unit_near n ltac:(lia)). apply Rabs_lt_inv in N.
  assert (0 <= IZR n <= 2251799813685248)%R as Nr by (split; apply IZR_le; lia).
  rewrite Rlt_bool_true in C.
  - destruct C as (R & F & _). split; [rewrite <- ffin_SF; exact F|rewrite <- fR_SF; exact R].
  - eapply Rle_lt_trans; [|apply pow53_lt_1024]. change (IZR (2 ^ 53)) with 9007199254740992%R. apply Rabs_le. lra.
Qed.
Example C95_applies :
  let e := entry_of [classic_p "a" (Some (mkAmount (fofdec false 1 1) None)); classic_p "b" (Some (mkAmount (fofdec false 2 1) None));
                     classic_p "c" None] in
  exact_worths 60000000 None (filter (to_classic (lit "c")) (postings [e; e])) [-30000000; -30000000] 4
  /\ sums_within 60000000 [-30000000; -30000000] /\ 4 * 60000000 <= 2 ^ 47.
Proof.
  cbv zeta. set (e := entry_of _).
  assert (exact_worth 60000000 e (classic_p "c" None) None (- Zsum [10000000; 20000000]) 2) as W.
  { apply exact_inferred.
    - reflexivity.
    - cbn. auto.
    - discriminate.
    - repeat constructor.
    - repeat constructor; cbn [mag].
      + replace (fofdec false 1 1) with (fofdec false 10000000 8) by (apply f64_eq; vm_compute; reflexivity). apply fofdec_units. lia.
      + replace (fofdec false 2 1) with (fofdec false 20000000 8) by (apply f64_eq; vm_compute; reflexivity). apply fofdec_units. lia.
    - repeat constructor; cbn; lia. }
  split.
  - apply (worths_in _ _ _ _ _ _ _ 2 2 W). apply (worths_in _ _ _ _ _ _ _ 2 0 W). constructor.
  - split; [repeat constructor; cbn; lia|]. vm_compute. discriminate.
Qed.

(** ** C17 again: for amounts of any kind *)
(** The inferred amount is exactly the f64 sum of the written amounts, with the
    other sign, so that adding it gives zero. *)
Theorem C17_any_partial : forall chunk fmt dsym accounts e sym,
  parse_entry chunk fmt dsym accounts = Ok e ->
  (exists p, In p (e_postings e) /\ blank p) -> written (e_postings e) <> [] ->
  Forall (fun a => symbol a = sym) (written (e_postings e)) ->
  let s := left_sum (map mag (written (e_postings e))) in
  finite s ->
  exists b, get_blank_amount e = Ok (Some b) /\ symbol b = sym
  /\ f64_is (mag b) (- real_of s) /\ f64_is (fadd s (mag b)) 0.
Proof.
  intros chunk fmt dsym accounts e sym _ Bl N Sy s F. unfold finite in F. rewrite <- ffin_SF in F.
  eexists. split; [apply (blank_amount_one e sym Bl N Sy)|]. split; [reflexivity|]. cbn [mag].
  destruct (left_sum_opp (map mag (written (e_postings e))) F) as [F' R'].
  rewrite map_map in F', R'. set (b := left_sum (map (fun a => fneg (mag a)) (written (e_postings e)))) in *. unfold f64_is, real_of.
  rewrite <- (ffin_SF b), <- (fR_SF b), <- (fR_SF s), <- (ffin_SF (fadd s b)), <- (fR_SF (fadd s b)).
  split; [split; assumption|]. fold s in R'.
  assert (rnd (fR s + fR b) = 0)%R as Z. { rewrite R'. replace (fR s + - fR s)%R with 0%R by ring. apply rnd_0. }
  destruct (fadd_correct s b F F') as [Ra Fa].
  - rewrite Z, Rabs_R0. apply bpow_gt_0.
  - split; [exact Fa|]. rewrite Ra. exact Z.
Qed.
Print Assumptions C17_any_partial.
Example C17_any_case :
  match parse_entry (lit "2020-01-02 * a" ++ [10%N] ++ lit " a 0.1" ++ [10%N] ++ lit " b 0.2" ++ [10%N] ++ lit " c")
          (lit "%Y-%m-%d") 46%N [lit "a"; lit "b"; lit "c"] with
  | Ok e => match get_blank_amount e with
            | Ok (Some b) => show_f64 (mag b) = lit "-0.30000000000000004"
                /\ fadd (left_sum (map mag (written (e_postings e)))) (mag b) = fzero
            | _ => False
            end
  | _ => False
  end.
Proof. vm_compute. split; reflexivity. Qed.
