(** Facts about printing decimals with up to eight digits after the point, and
    about adding such decimals. *)
From Coq Require Import ZArith NArith List Bool String Reals Lia Lra Psatz.
From Coq Require Import Floats.SpecFloat.
From Flocq Require Import Core IEEE754.BinarySingleNaN.
From Verif Require Import Base Str StrFacts F64 F64Facts F64Text F64Round Amount AmountFacts AmountParse Posting Entry
  EntryFacts SpecAmount SpecEntry SpecEnvelope SpecLedger SpecFunding FundingFacts SpecTotals.
Import ListNotations.
Local Open Scope Z_scope.

(** ** Multiples of 10^-8 *)
Lemma unit_rel N : N <> 0 ->
  (Rabs (rnd (IZR N / 100000000) - IZR N / 100000000) <= bpow radix2 (-53) * (Rabs (IZR N) / 100000000))%R.
Proof.
  intro Z. assert (Rabs (IZR N / 100000000) = Rabs (IZR N) / 100000000)%R as A.
  { unfold Rdiv. rewrite Rabs_mult, (Rabs_pos_eq (/ 100000000)) by lra. reflexivity. }
  rewrite <- A. apply rnd_rel. eapply Rle_trans; [apply bpow_m1022_small|]. rewrite A.
  assert (1 <= Rabs (IZR N))%R; [|lra]. rewrite <- abs_IZR. apply IZR_le. lia.
Qed.
Lemma unit_abs N :
  (Rabs (rnd (IZR N / 100000000) * 100000000 - IZR N) <= bpow radix2 (-53) * Rabs (IZR N))%R.
Proof.
  destruct (Z.eq_dec N 0) as [->|Z].
  - unfold Rdiv. rewrite Rmult_0_l, rnd_0, Rmult_0_l, Rminus_0_r, Rabs_R0. lra.
  - assert (K := unit_rel N Z).
    replace (rnd (IZR N / 100000000) * 100000000 - IZR N)%R
      with ((rnd (IZR N / 100000000) - IZR N / 100000000) * 100000000)%R by field.
    rewrite Rabs_mult, (Rabs_pos_eq 100000000) by lra. lra.
Qed.
Lemma bpow_m53 : bpow radix2 (-53) = (/ 9007199254740992)%R.
Proof. change (bpow radix2 (-53)) with (/ IZR (Z.pow_pos 2 53))%R. reflexivity. Qed.
Lemma unit_near N : Z.abs N < 2 ^ 51 -> (Rabs (rnd (IZR N / 100000000) * 100000000 - IZR N) < / 4)%R.
Proof.
  intro H. eapply Rle_lt_trans; [apply unit_abs|]. rewrite bpow_m53, <- abs_IZR.
  assert (IZR (Z.abs N) < 2251799813685248)%R by (apply IZR_lt; exact H). lra.
Qed.
Lemma unit_inj N N' : Z.abs N < 2 ^ 51 -> rnd (IZR N / 100000000) = rnd (IZR N' / 100000000) -> N = N'.
Proof.
  intros H E. assert (A := unit_near N H). assert (C := unit_abs N'). rewrite <- E in C.
  set (v := (rnd (IZR N / 100000000) * 100000000)%R) in *. rewrite bpow_m53 in C.
  assert (Rabs (IZR N) <= 2251799813685248)%R as Hn.
  { rewrite <- abs_IZR. apply IZR_le. change 2251799813685248 with (2 ^ 51). lia. }
  assert (Rabs (IZR N') <= Rabs (IZR N) + Rabs (v - IZR N) + Rabs (v - IZR N'))%R as T.
  { assert (IZR N' = IZR N + (v - IZR N) + - (v - IZR N'))%R as Q by ring. rewrite Q at 1. eapply Rle_trans; [apply Rabs_triang|]. rewrite Rabs_Ropp.
    apply Rplus_le_compat_r, Rabs_triang. }
  assert (Rabs (v - IZR N') < / 2)%R as D by lra.
  apply Rabs_lt_inv in A. apply Rabs_lt_inv in D.
  assert (IZR N - 1 < IZR N' < IZR N + 1)%R as [L U] by lra.
  rewrite <- minus_IZR in L. rewrite <- plus_IZR in U. apply lt_IZR in L. apply lt_IZR in U. lia.
Qed.

(** ** The shortest text *)
Lemma pow10_pos n : 0 <= n -> 0 < 10 ^ n.
Proof. intro H. apply Z.pow_pos_nonneg; lia. Qed.
Lemma fofdec_fin x n k : 0 <= n -> ffin x = true -> fofdec false n k = x -> fR x = rnd (IZR n / IZR (10 ^ Z.of_nat k)).
Proof.
  intros H F E. generalize (fofdec_correct false n k H). rewrite E. unfold fin_or_inf. rewrite Rmult_1_l.
  destruct (Rlt_bool _ _); [intros (A & _); exact A|]. intro A. rewrite ffin_SF, A in F. discriminate.
Qed.
Lemma scaled_dec q p : 0 <= q -> -8 <= p ->
  exists n k, 0 <= n /\ show_scaled q p = show_dec n k /\ n * 10 ^ 8 = q * 10 ^ (p + 8) * 10 ^ Z.of_nat k.
Proof.
  intros Q P. unfold show_scaled. destruct (0 <=? p) eqn:E.
  - apply Z.leb_le in E. exists (q * 10 ^ p), 0%nat. assert (K := pow10_pos p E). split; [nia|]. split; [reflexivity|].
    rewrite Z.pow_add_r by lia. change (10 ^ Z.of_nat 0) with 1. ring.
  - apply Z.leb_gt in E. exists q, (Z.to_nat (- p)). split; [exact Q|]. split; [reflexivity|].
    rewrite Z2Nat.id by lia. rewrite <- Z.mul_assoc, <- Z.pow_add_r by lia. f_equal. f_equal. lia.
Qed.
Lemma same_ratio n k N : n * 10 ^ 8 = N * 10 ^ Z.of_nat k -> (IZR n / IZR (10 ^ Z.of_nat k) = IZR N / 100000000)%R.
Proof.
  intro H. apply (f_equal IZR) in H. rewrite !mult_IZR in H. change (IZR (10 ^ 8)) with 100000000%R in H.
  assert (0 < IZR (10 ^ Z.of_nat k))%R by (apply IZR_lt, pow10_pos; lia).
  apply Rmult_eq_reg_r with (IZR (10 ^ Z.of_nat k) * 100000000)%R; [|nra].
  replace (IZR n / IZR (10 ^ Z.of_nat k) * (IZR (10 ^ Z.of_nat k) * 100000000))%R with (IZR n * 100000000)%R by (field; lra).
  rewrite H. field.
Qed.
Section Shortest.
  Context (m : BinNums.positive) (e : Z) (V : valid_binary prec emax (S754_finite false m e) = true) (d k l z : Z).
  Local Notation x := (mkF64 (S754_finite false m e) V).
  Context (Hk : 0 <= k) (Dl : 10 ^ (l - 1) <= d < 10 ^ l) (Vx : (IZR d / IZR (10 ^ k) = fR x)%R)
    (Hz : 0 < z < 2 ^ 51) (Zx : fR x = rnd (IZR z / 100000000)).

  Lemma unit_text q p s : 0 <= q -> -8 <= p -> s = show_scaled q p -> parse_unsigned false s = Some x ->
    exists n r, 0 <= n /\ s = show_dec n r /\ n * 10 ^ 8 = z * 10 ^ Z.of_nat r.
  Proof.
    intros Q P -> H. destruct (scaled_dec q p Q P) as (n & r & N & E & W). exists n, r. split; [exact N|]. split; [exact E|].
    rewrite E, parse_show_dec in H by exact N. injection H as H. apply fofdec_fin in H; [|exact N|reflexivity].
    rewrite (same_ratio _ _ _ W), Zx in H. apply unit_inj in H; [|lia]. rewrite H. exact W.
  Qed.
  Lemma digits_pos : 1 <= l.
  Proof. destruct (Z_lt_ge_dec l 1) as [L|L]; [|lia]. assert (10 ^ l <= 1 /\ 0 <= 10 ^ (l - 1)) as [A B'].
    { split; [|apply Z.pow_nonneg; lia]. destruct (Z.eq_dec l 0) as [->|N]; [reflexivity|]. rewrite Z.pow_neg_r; lia. }
    assert (10 ^ (l - 1) = 0) as P by (apply Z.pow_neg_r; lia).
    assert (d = 0) as D0 by lia. exfalso. rewrite D0 in Vx. unfold Rdiv in Vx. rewrite Rmult_0_l in Vx.
    rewrite fR_SF in Vx. cbn [sf] in Vx. rewrite SF2R_pos in Vx.
    assert (0 < IZR (Z.pos m) * bpow radix2 e)%R by (apply Rmult_lt_0_compat; [apply IZR_lt; lia|apply bpow_gt_0]). lra.
  Qed.
  Lemma whole_text : l <= l - k + 8 ->
    exists n r, 0 <= n /\ show_dec d (Z.to_nat k) = show_dec n r /\ n * 10 ^ 8 = z * 10 ^ Z.of_nat r.
  Proof.
    intro K. exists d, (Z.to_nat k). assert (L1 := digits_pos). assert (0 <= 10 ^ (l - 1)) by (apply Z.pow_nonneg; lia).
    split; [lia|]. split; [reflexivity|]. rewrite Z2Nat.id by exact Hk.
    assert (fR x = rnd (IZR (d * 10 ^ (8 - k)) / 100000000)) as E.
    { rewrite <- (rnd_format _ (fR_format x)) at 1. rewrite <- Vx. f_equal. rewrite mult_IZR.
      assert (0 < IZR (10 ^ k))%R as P by (apply IZR_lt, pow10_pos, Hk).
      assert (IZR (10 ^ (8 - k)) * IZR (10 ^ k) = 100000000)%R as W.
      { rewrite <- mult_IZR, <- Z.pow_add_r by lia. replace (8 - k + k) with 8 by lia. reflexivity. }
      rewrite <- W. field. split; [lra|]. intro Q. rewrite Q in W. lra. }
    rewrite Zx in E. apply unit_inj in E; [|lia]. rewrite E, <- Z.mul_assoc, <- Z.pow_add_r by lia. do 2 f_equal. lia.
  Qed.
  Lemma shortest_value : forall fuel n, 1 <= n <= l - k + 8 -> l - k + 8 < n + Z.of_nat fuel ->
    exists q r, 0 <= q /\ shortest (S754_finite false m e) d k l fuel n = show_dec q r /\ q * 10 ^ 8 = z * 10 ^ Z.of_nat r.
  Proof.
    assert (0 <= d) as Hd. { assert (0 <= 10 ^ (l - 1)) by (apply Z.pow_nonneg; lia). lia. }
    induction fuel as [|fuel IH]; intros n Hn Hf; [lia|]. cbn [shortest].
    destruct (l <=? n) eqn:Ln; [apply whole_text; apply Z.leb_le in Ln; lia|]. apply Z.leb_gt in Ln.
    destruct (List.find _ _) as [s|] eqn:F.
    - apply find_some in F. destruct F as [I R]. apply (reads_as_eq m e V) in R.
      assert (0 <= d / 10 ^ (l - n)) as Q by (apply Z.div_pos; [exact Hd|apply pow10_pos; lia]).
      unfold candidates in I. cbv zeta in I.
      assert (s = show_scaled (d / 10 ^ (l - n)) (l - n - k) \/ s = show_scaled (d / 10 ^ (l - n) + 1) (l - n - k)) as [E|E].
      { destruct (_ <? _); destruct I as [<-|[<-|[]]]; auto. }
      + apply (unit_text (d / 10 ^ (l - n)) (l - n - k)); auto; lia.
      + apply (unit_text (d / 10 ^ (l - n) + 1) (l - n - k)); auto; lia.
    - destruct (Z.eq_dec n (l - k + 8)) as [->|Nn]; [exfalso|apply IH; lia].
      replace (l - (l - k + 8)) with (k - 8) in Ln by lia.
      set (q := d / 10 ^ (k - 8)). assert (0 < 10 ^ (k - 8)) as P by (apply pow10_pos; lia).
      assert (z = q \/ z = q + 1) as Zq.
      { assert (A := unit_near z ltac:(lia)). rewrite <- Zx, <- Vx in A.
        assert (D1 := Z.div_mod d (10 ^ (k - 8)) ltac:(lia)). fold q in D1.
        assert (M := Z.mod_pos_bound d (10 ^ (k - 8)) P). set (r := d mod 10 ^ (k - 8)) in *.
        assert (IZR (10 ^ k) = 100000000 * IZR (10 ^ (k - 8)))%R as W.
        { rewrite <- (mult_IZR 100000000). change 100000000 with (10 ^ 8). rewrite <- Z.pow_add_r by lia. f_equal. f_equal. lia. }
        assert (0 < IZR (10 ^ (k - 8)))%R as P' by (apply IZR_lt, P). rewrite W in A.
        replace (IZR d / (100000000 * IZR (10 ^ (k - 8))) * 100000000)%R with (IZR d / IZR (10 ^ (k - 8)))%R in A by (field; lra).
        assert (IZR q <= IZR d / IZR (10 ^ (k - 8)) < IZR q + 1)%R as [L U].
        { rewrite D1 at 1 2. rewrite plus_IZR, mult_IZR.
          assert (0 <= IZR r)%R by (apply IZR_le; lia). assert (IZR r < IZR (10 ^ (k - 8)))%R by (apply IZR_lt; lia).
          replace ((IZR (10 ^ (k - 8)) * IZR q + IZR r) / IZR (10 ^ (k - 8)))%R with (IZR q + IZR r / IZR (10 ^ (k - 8)))%R by (field; lra).
          assert (0 <= IZR r / IZR (10 ^ (k - 8)) < 1)%R; [|lra]. split.
          - apply Rmult_le_pos; [lra|]. left. apply Rinv_0_lt_compat, P'.
          - apply Rmult_lt_reg_r with (IZR (10 ^ (k - 8))); [exact P'|]. unfold Rdiv. rewrite Rmult_assoc, Rinv_l by lra. lra. }
        apply Rabs_lt_inv in A. assert (IZR q - 1 < IZR z < IZR q + 2)%R as [L' U'] by lra.
        rewrite <- minus_IZR in L'. rewrite <- plus_IZR in U'. apply lt_IZR in L'. apply lt_IZR in U'. lia. }
      assert (reads_as (S754_finite false m e) (show_scaled z (-8)) = true) as R.
      { unfold reads_as, show_scaled. cbn [Z.leb]. change (0 <=? -8) with false. cbv iota. rewrite parse_show_dec by lia.
        change (Z.to_nat (- -8)) with 8%nat.
        assert (fofdec false z 8 = x) as ->.
        { apply (fin_or_inf_unique _ _ false (IZR z / 100000000)).
          - generalize (fofdec_correct false z 8 ltac:(lia)). rewrite Rmult_1_l. auto.
          - unfold fin_or_inf. rewrite <- Zx. rewrite Rlt_bool_true by apply fR_bound. repeat split. }
        cbn [sf]. change (feqb x x = true). apply feqb_R. repeat split. }
      assert (In (show_scaled z (-8)) (candidates d k l (l - k + 8))) as I.
      { unfold candidates. cbv zeta. replace (l - (l - k + 8)) with (k - 8) by lia. fold q.
        replace (k - 8 - k) with (-8) by lia. destruct Zq as [->| ->]; destruct (_ <? _); cbn; auto. }
      apply (find_none _ _ F) in I. congruence.
  Qed.
End Shortest.

(** ** Written out without superfluous zeros *)
Lemma digits_aux_lead f : forall n acc, 0 < n < 10 ^ Z.of_nat (S f) ->
  exists c ds, digits_aux (S f) n acc = c :: ds ++ acc /\ c <> 48%N.
Proof.
  induction f as [|f IH]; intros n acc H.
  - cbn [digits_aux]. change (10 ^ Z.of_nat 1) with 10 in H. rewrite Z.mod_small by lia.
    exists (Z.to_N (48 + n)), []. destruct (n <? 10) eqn:E; [|apply Z.ltb_ge in E; lia]. split; [reflexivity|lia].
  - remember (S f) as g. cbn [digits_aux]. destruct (n <? 10) eqn:E.
    + apply Z.ltb_lt in E. rewrite Z.mod_small by lia. exists (Z.to_N (48 + n)), []. split; [reflexivity|lia].
    + apply Z.ltb_ge in E. subst g. destruct (IH (n / 10) (Z.to_N (48 + n mod 10) :: acc)) as (c & ds & E1 & Nc).
      { rewrite (Nat2Z.inj_succ (S f)), Z.pow_succ_r in H by lia. split; [apply Z.div_str_pos; lia|].
        apply Z.div_lt_upper_bound; lia. }
      exists c, (ds ++ [Z.to_N (48 + n mod 10)]). split; [|exact Nc]. rewrite E1, <- app_assoc. reflexivity.
Qed.
Lemma digits_lead n : 0 < n -> exists c ds, digits n = c :: ds /\ c <> 48%N.
Proof.
  intro H. unfold digits. destruct (digits_aux_lead (Z.to_nat (Z.log2 n)) n []) as (c & ds & E & N).
  - split; [exact H|apply digits_fuel; lia].
  - exists c, ds. rewrite E, app_nil_r. auto.
Qed.
Lemma digits_range n : 0 < n -> let l := Z.of_nat (List.length (digits n)) in 10 ^ (l - 1) <= n < 10 ^ l.
Proof.
  intros H. cbv zeta. destruct (digits_spec n ltac:(lia)) as (A & _ & V). assert (U := digits_val_bound _ A). rewrite V in U.
  split; [|lia]. destruct (digits_lead n H) as (c & ds & E & N). rewrite E in *. rewrite <- V, digits_val_cons.
  apply andb_true_iff in A. destruct A as [Ac As]. assert (0 <= digits_val ds) by (apply digits_val_nonneg, As).
  assert (1 <= digit_val c) as D. { assert (R := digit_val_range c Ac). unfold digit_val in *. lia. }
  cbn [List.length]. rewrite Nat2Z.inj_succ. replace (Z.succ (Z.of_nat (List.length ds)) - 1) with (Z.of_nat (List.length ds)) by lia.
  assert (0 < 10 ^ Z.of_nat (List.length ds)) by (apply pow10_pos; lia). nia.
Qed.
Lemma strip_zeros_last s : strip_zeros s = [] \/ last (strip_zeros s) 48%N <> 48%N.
Proof.
  induction s as [|c s IH]; [left; reflexivity|]. cbn [strip_zeros]. destruct (strip_zeros s) as [|c' t] eqn:E.
  - destruct (N.eqb c 48) eqn:Ec; [left; reflexivity|]. right. apply N.eqb_neq in Ec. exact Ec.
  - right. destruct IH as [IH|IH]; [discriminate|]. exact IH.
Qed.
Lemma show_dec_plain n k : 0 <= n ->
  exists ip fp, show_dec n k = ip ++ match fp with [] => [] | _ => 46%N :: fp end
    /\ all_digits ip /\ all_digits fp
    /\ (ip = [48%N] \/ exists c r, ip = c :: r /\ c <> 48%N) /\ (fp = [] \/ last fp 48%N <> 48%N)
    /\ digits_val (ip ++ fp) * 10 ^ Z.of_nat k = n * 10 ^ Z.of_nat (List.length fp).
Proof.
  intro H. destruct (digits_spec n H) as (A & N & V).
  unfold show_dec. cbv zeta.
  set (ds := repeat 48%N (S k - List.length (digits n)) ++ digits n).
  assert (all_digits ds) as Ad.
  { apply all_digits_app. split; [apply all_digits_zeros|exact A]. }
  assert (digits_val ds = n) as Vd.
  { unfold ds. rewrite digits_val_app, digits_val_zeros, V. lia. }
  assert (S k <= List.length ds)%nat as L.
  { unfold ds. rewrite app_length, repeat_length. lia. }
  set (i := (List.length ds - k)%nat).
  destruct (firstn_skipn_digits i ds Ad) as [A1 A2].
  assert (List.length (skipn i ds) = k) as Lk by (rewrite skipn_length; unfold i; lia).
  destruct (strip_zeros_spec (skipn i ds)) as [j Hj].
  assert (S0 := strip_zeros_last (skipn i ds)).
  set (fp := strip_zeros (skipn i ds)) in *.
  assert (all_digits fp) as Af. { assert (all_digits (fp ++ repeat 48%N j)) as A3 by (rewrite <- Hj; exact A2).
    apply all_digits_app in A3. tauto. }
  exists (firstn i ds), fp. split; [destruct fp; [rewrite app_nil_r|]; reflexivity|]. split; [exact A1|]. split; [exact Af|].
  split; [|split; [exact S0|]].
  - destruct (le_lt_dec (List.length (digits n)) k) as [Le|Gt].
    + left. assert (i = 1%nat) as ->. { unfold i, ds. rewrite app_length, repeat_length. lia. }
      unfold ds. destruct (S k - List.length (digits n))%nat eqn:E; [lia|]. reflexivity.
    + assert (ds = digits n) as Q. { unfold ds. replace (S k - List.length (digits n))%nat with 0%nat by lia. reflexivity. }
      assert (1 <= i)%nat as I1 by (unfold i; lia). destruct i as [|i']; [lia|].
      destruct (Z.eq_dec n 0) as [->|Nz].
      * left. rewrite Q. change (digits 0) with [48%N]. destruct i'; reflexivity.
      * right. destruct (digits_lead n ltac:(lia)) as (c & r & E & Nc). rewrite Q, E. exists c, (firstn i' r). auto.
  - assert (n = digits_val (firstn i ds ++ fp) * 10 ^ Z.of_nat j) as E.
    { rewrite <- Vd at 1. rewrite <- (firstn_skipn i ds) at 1. rewrite Hj.
      rewrite app_assoc, digits_val_app, digits_val_zeros, repeat_length. lia. }
    rewrite E, <- Z.mul_assoc, <- Z.pow_add_r by lia. f_equal. f_equal.
    apply (f_equal (@List.length _)) in Hj. rewrite app_length, repeat_length, Lk in Hj. lia.
Qed.

(** The text of a positive number of units. *)
Lemma show_pos_units m e (V : valid_binary prec emax (S754_finite false m e) = true) z :
  0 < z < 2 ^ 51 -> fR (mkF64 (S754_finite false m e) V) = rnd (IZR z / 100000000) ->
  exists n r, 0 <= n /\ show_pos m e = show_dec n r /\ n * 10 ^ 8 = z * 10 ^ Z.of_nat r.
Proof.
  intros Hz Zx. set (x := mkF64 _ V) in *. destruct (Z.eq_dec z 1) as [->|N1].
  { assert (x = fofdec false 1 8) as E.
    { symmetry. apply (fin_or_inf_unique _ _ false (IZR 1 / 100000000)).
      - generalize (fofdec_correct false 1 8 ltac:(lia)). rewrite Rmult_1_l. auto.
      - unfold fin_or_inf. rewrite <- Zx. rewrite Rlt_bool_true by apply fR_bound. repeat split. }
    exists 1, 8%nat. split; [lia|]. split; [|reflexivity].
    assert (show_f64 x = show_f64 (fofdec false 1 8)) as W by (rewrite E; reflexivity).
    change (show_f64 x) with (show_pos m e) in W. rewrite W. vm_compute. reflexivity. }
  assert (Near := unit_near z ltac:(lia)). rewrite <- Zx in Near. apply Rabs_lt_inv in Near.
  unfold show_pos. destruct (if 0 <=? e then _ else _) as [d k] eqn:E.
  destruct (exact_expansion _ _ _ _ E) as (Hd & Hk & R). rewrite Z2Nat.id in R by exact Hk.
  assert (fR x = IZR (Z.pos m) * bpow radix2 e)%R as Vx by (rewrite fR_SF; reflexivity).
  rewrite <- Vx in R.
  assert (0 < IZR (10 ^ k))%R as Pk by (apply IZR_lt, pow10_pos, Hk).
  assert (IZR d = fR x * IZR (10 ^ k))%R as D by (rewrite <- R; field; lra).
  assert (IZR 2 <= IZR z)%R as Z2 by (apply IZR_le; lia). assert (IZR z <= IZR (2 ^ 51))%R as Zu by (apply IZR_le; lia).
  change (IZR (2 ^ 51)) with 2251799813685248%R in Zu.
  assert (0 < d) as Pd.
  { apply lt_IZR. rewrite D. apply Rmult_lt_0_compat; lra. }
  assert (Dl := digits_range d Pd). cbv zeta in Dl. set (l := Z.of_nat (List.length (digits d))) in *.
  apply (shortest_value m e V d k l z Hk Dl R Hz Zx).
  - split; [lia|]. destruct (Z_le_gt_dec (l - k) (-8)) as [G|G]; [exfalso|lia].
    assert (d < 10 ^ (k - 8)) as U by (eapply Z.lt_le_trans; [apply Dl|apply Z.pow_le_mono_r; lia]).
    apply IZR_lt in U. rewrite D in U.
    assert (0 <= l) by (unfold l; lia).
    assert (IZR (10 ^ k) = 100000000 * IZR (10 ^ (k - 8)))%R as W.
    { rewrite <- (mult_IZR 100000000). change 100000000 with (10 ^ 8). rewrite <- Z.pow_add_r by lia. f_equal. f_equal. lia. }
    assert (0 < IZR (10 ^ (k - 8)))%R by (apply IZR_lt, pow10_pos; lia). rewrite W in U. nra.
  - change (Z.of_nat 17) with 17. destruct (Z_le_gt_dec (l - k) 9) as [G|G]; [lia|exfalso].
    assert (10 ^ (k + 9) <= d) as U by (eapply Z.le_trans; [apply Z.pow_le_mono_r|apply Dl]; lia).
    apply IZR_le in U. rewrite Z.pow_add_r, mult_IZR, D in U by lia. change (IZR (10 ^ 9)) with 1000000000%R in U. nra.
Qed.

Lemma all_digits_chars s : all_digits s -> Forall digit_char s.
Proof. unfold all_digits. rewrite forallb_forall, Forall_forall. intros H c I. apply is_digit_range, H, I. Qed.
Lemma units_sign x z : units x z -> Z.abs z < 2 ^ 51 -> z <> 0 ->
  exists m e V, x = mkF64 (S754_finite (z <? 0) m e) V.
Proof.
  intros (F & R) Hz Nz. change (nearest (IZR z / 100000000)) with (rnd (IZR z / 100000000)) in R.
  assert (Near := unit_near z Hz). rewrite <- R in Near. apply Rabs_lt_inv in Near.
  assert (z <= -1 \/ 1 <= z) as Q by lia.
  destruct x as [[s|s| |s m e] V]; try discriminate; cbn [sf] in *.
  - change (SF2R radix2 (S754_zero s)) with 0%R in Near. destruct Q as [Q|Q]; apply IZR_le in Q; lra.
  - assert (s = (z <? 0)) as Es; [|subst s; exists m, e, V; reflexivity].
    change (SF2R radix2 (S754_finite s m e)) with (IZR (cond_Zopp s (Z.pos m)) * bpow radix2 e)%R in Near.
    assert (0 < bpow radix2 e)%R as P by apply bpow_gt_0. assert (0 < IZR (Z.pos m))%R as Pm by (apply IZR_lt; lia).
    destruct s; cbn [cond_Zopp] in Near; symmetry; [apply Z.ltb_lt|apply Z.ltb_ge]; destruct Q as [Q|Q]; try lia; exfalso; apply IZR_le in Q.
    + rewrite opp_IZR in Near. nra.
    + nra.
Qed.
Lemma show_units x z : units x z -> Z.abs z < 2 ^ 51 -> z <> 0 -> plain_decimal (show_f64 x) (IZR z / 100000000).
Proof.
  intros U Hz Nz. destruct (units_sign x z U Hz Nz) as (m & e & V & ->). destruct U as [_ R].
  change (nearest (IZR z / 100000000)) with (rnd (IZR z / 100000000)) in R. cbn [sf] in R.
  assert (exists n r, 0 <= n /\ show_pos m e = show_dec n r /\ n * 10 ^ 8 = Z.abs z * 10 ^ Z.of_nat r) as (n & r & N & E & W).
  { apply (show_pos_units m e V); [lia|]. rewrite fR_SF. cbn [sf]. destruct (z <? 0) eqn:Ez.
    - apply Z.ltb_lt in Ez. replace (Z.abs z) with (- z) by lia. rewrite opp_IZR. unfold Rdiv in *.
      replace (- IZR z * / 100000000)%R with (- (IZR z * / 100000000))%R by ring. rewrite rnd_opp, <- R.
      change (SF2R radix2 (S754_finite false m e)) with (IZR (Z.pos m) * bpow radix2 e)%R.
      change (SF2R radix2 (S754_finite true m e)) with (IZR (- Z.pos m) * bpow radix2 e)%R. rewrite opp_IZR. ring.
    - apply Z.ltb_ge in Ez. replace (Z.abs z) with z by lia. exact R. }
  destruct (show_dec_plain n r N) as (ip & fp & T & A1 & A2 & Ld & Tr & Vl).
  exists (z <? 0), ip, fp. split; [|split; [apply all_digits_chars, A1|split; [apply all_digits_chars, A2|split; [exact Ld|split; [exact Tr|split]]]]].
  - rewrite <- T, <- E. unfold show_f64. cbn [sf]. destruct (z <? 0); reflexivity.
  - intro L. apply Z.ltb_lt, IZR_lt in L. lra.
  - unfold decimal_value. rewrite number_of_digits.
    assert (0 < IZR (10 ^ Z.of_nat (List.length fp)))%R as P1 by (apply IZR_lt, pow10_pos; lia).
    assert (0 < IZR (10 ^ Z.of_nat r))%R as P2 by (apply IZR_lt, pow10_pos; lia).
    assert (IZR (digits_val (ip ++ fp)) / IZR (10 ^ Z.of_nat (List.length fp)) = IZR n / IZR (10 ^ Z.of_nat r))%R as ->.
    { apply (f_equal IZR) in Vl. rewrite !mult_IZR in Vl.
      apply Rmult_eq_reg_r with (IZR (10 ^ Z.of_nat (List.length fp)) * IZR (10 ^ Z.of_nat r))%R; [|nra].
      replace (IZR (digits_val (ip ++ fp)) / IZR (10 ^ Z.of_nat (List.length fp))
               * (IZR (10 ^ Z.of_nat (List.length fp)) * IZR (10 ^ Z.of_nat r)))%R
        with (IZR (digits_val (ip ++ fp)) * IZR (10 ^ Z.of_nat r))%R by (field; lra).
      rewrite Vl. field. lra. }
    rewrite (same_ratio _ _ _ W). destruct (z <? 0) eqn:Ez.
    + apply Z.ltb_lt in Ez. replace (Z.abs z) with (- z) by lia. rewrite opp_IZR. field.
    + apply Z.ltb_ge in Ez. replace (Z.abs z) with z by lia. field.
Qed.

(** ** Rounding a sum that is close to a number of units *)
Lemma rounded_units x z : ffin x = true -> Z.abs z < 2 ^ 51 -> (Rabs (fR x * 100000000 - IZR z) <= / 4)%R ->
  units (fdiv (fround (fmul x f1e8)) f1e8) z.
Proof.
  intros F Hz D. destruct fofZ_1e8 as [F8 R8].
  assert (Rabs (IZR z) < 2251799813685248)%R as HN' by (rewrite <- abs_IZR; apply IZR_lt; exact Hz).
  assert (fR x * 100000000 <= IZR (4 * z + 1) / 4)%R as U.
  { rewrite plus_IZR, mult_IZR. apply Rabs_le_inv in D. lra. }
  assert (IZR (4 * z - 1) / 4 <= fR x * 100000000)%R as L.
  { rewrite minus_IZR, mult_IZR. apply Rabs_le_inv in D. lra. }
  apply rnd_le in U. apply rnd_le in L.
  rewrite (rnd_format (IZR (4 * z + 1) / 4)) in U by (apply format_quarter; lia).
  rewrite (rnd_format (IZR (4 * z - 1) / 4)) in L by (apply format_quarter; lia).
  set (p := rnd (fR x * 100000000)) in *.
  assert (Rabs (p - IZR z) <= / 4)%R as D2.
  { apply Rabs_le. rewrite plus_IZR, mult_IZR in U. rewrite minus_IZR, mult_IZR in L. lra. }
  assert (Rabs p < bpow radix2 1024)%R as Bp.
  { apply Rle_lt_trans with (2251799813685248 + 1)%R.
    - replace p with (IZR z + (p - IZR z))%R by ring. eapply Rle_trans; [apply Rabs_triang|]. lra.
    - eapply Rle_lt_trans; [|apply pow53_lt_1024]. rewrite <- (plus_IZR 2251799813685248 1). apply IZR_le. lia. }
  destruct (fmul_correct x f1e8 F F8) as [Rm Fm].
  { rewrite R8. exact Bp. }
  rewrite R8 in Rm. fold p in Rm.
  destruct (fround_spec (fmul x f1e8) Fm) as (n & Near & Post).
  assert (n = z) as ->.
  { rewrite Rm in Near. apply Rabs_le_inv in Near. apply Rabs_le_inv in D2.
    assert (IZR n - 1 < IZR z < IZR n + 1)%R as [H1 H2] by lra.
    rewrite <- minus_IZR in H1. rewrite <- plus_IZR in H2.
    apply lt_IZR in H1. apply lt_IZR in H2. lia. }
  destruct Post as (Fr & Rr & _); [lia|].
  destruct (fdiv_correct (fround (fmul x f1e8)) f1e8 Fr) as [Rd Fd].
  - rewrite R8. lra.
  - rewrite Rr, R8. assert (N := unit_near z Hz). apply Rabs_lt_inv in N. eapply Rle_lt_trans; [|apply pow53_lt_1024].
    apply Rabs_le. change (IZR (2 ^ 53)) with 9007199254740992%R. apply Rabs_lt_inv in HN'. lra.
  - unfold units, f64_is. rewrite <- ffin_SF, <- fR_SF. split; [exact Fd|]. rewrite Rd, Rr, R8. reflexivity.
Qed.

(** ** Adding *)
Definition within (x : f64) (z w : Z) : Prop :=
  ffin x = true /\ (Rabs (fR x * 100000000 - IZR z) <= / 9007199254740992 * IZR w)%R.
Definition zsum (l : list (f64 * Z * Z)) : Z := Zsum (map (fun r => snd (fst r)) l).
Definition wsum (l : list (f64 * Z * Z)) : Z := Zsum (map snd l).
Definition fine (r : f64 * Z * Z) : Prop := within (fst (fst r)) (snd (fst r)) (snd r) /\ 0 <= snd r.
Lemma wsum_nonneg l : Forall fine l -> 0 <= wsum l.
Proof. induction 1 as [|r l [_ H] _ IH]; [easy|]. unfold wsum in *. cbn [map]. change (0 <= snd r + Zsum (map snd l)). lia. Qed.
Lemma fadd_within m x a e y z w : within x a e -> within y z w -> 1 <= m -> Z.abs (a + z) <= m ->
  0 <= e <= 2 ^ 51 -> 0 <= w <= 2 ^ 51 -> m <= 2 ^ 51 -> within (fadd x y) (a + z) (e + 2 * w + 2 * m).
Proof.
  intros [Fx Dx] [Fy Dy] M A E W Mu.
  assert (Rabs (IZR (a + z)) <= IZR m)%R as Am. { rewrite <- abs_IZR. apply IZR_le. exact A. }
  rewrite plus_IZR in Am. apply Rabs_le_inv in Am.
  assert (1 <= IZR m <= 2251799813685248)%R as Mr by (split; apply IZR_le; lia).
  assert (0 <= IZR e <= 2251799813685248)%R as Er' by (split; apply IZR_le; lia).
  assert (0 <= IZR w <= 2251799813685248)%R as Wr by (split; apply IZR_le; lia).
  assert (Er := sum_error (fR x) (fR y) (fR_format x) (fR_format y)). rewrite bpow_m53 in Er.
  set (t := (fR x + fR y)%R) in *.
  assert (Rabs (t * 100000000 - (IZR a + IZR z)) <= / 9007199254740992 * (IZR e + IZR w))%R as Dt.
  { replace (t * 100000000 - (IZR a + IZR z))%R with ((fR x * 100000000 - IZR a) + (fR y * 100000000 - IZR z))%R by (unfold t; ring).
    eapply Rle_trans; [apply Rabs_triang|]. lra. }
  assert (Rabs t * 100000000 <= IZR m + / 9007199254740992 * (IZR e + IZR w))%R as Bt.
  { rewrite <- (Rabs_pos_eq 100000000) by lra. rewrite <- Rabs_mult.
    apply Rabs_le_inv in Dt. apply Rabs_le. lra. }
  assert (Rabs (rnd t * 100000000 - (IZR a + IZR z)) <= / 9007199254740992 * (IZR e + 2 * IZR w + 2 * IZR m))%R as Dr.
  { replace (rnd t * 100000000 - (IZR a + IZR z))%R with ((rnd t - t) * 100000000 + (t * 100000000 - (IZR a + IZR z)))%R by ring.
    eapply Rle_trans; [apply Rabs_triang|]. rewrite Rabs_mult, (Rabs_pos_eq 100000000) by lra.
    assert (Rabs (rnd t - t) * 100000000 <= / 9007199254740992 * (Rabs t * 100000000))%R as E1 by lra. lra. }
  destruct (fadd_correct x y Fx Fy) as [Rr Ff].
  { fold t. eapply Rle_lt_trans; [|apply pow53_lt_1024]. change (IZR (2 ^ 53)) with 9007199254740992%R.
    apply Rabs_le_inv in Dr. apply Rabs_le. lra. }
  fold t in Rr. split; [exact Ff|]. rewrite Rr, !plus_IZR, !mult_IZR. exact Dr.
Qed.
Lemma fold_within m l : 1 <= m -> forall x a k w,
  Forall fine l -> within x a (2 * (w + k * m)) -> 0 <= k -> 0 <= w ->
  Forall (fun s => Z.abs s <= m) (partial_sums a (map (fun r => snd (fst r)) l)) ->
  2 * (w + wsum l + (k + Z.of_nat (List.length l)) * m) <= 2 ^ 51 ->
  within (fold_left fadd (map (fun r => fst (fst r)) l) x) (a + zsum l) (2 * (w + wsum l + (k + Z.of_nat (List.length l)) * m)).
Proof.
  intro M. induction l as [|r l IH]; intros x a k w H X K W P C.
  - cbn. rewrite !Z.add_0_r. exact X.
  - inversion H as [|? ? [Hr Wr] Hl]; subst. assert (Wl := wsum_nonneg l Hl).
    cbn [map fold_left partial_sums] in *. inversion P as [|s ss P1 P2]; subst.
    change (zsum (r :: l)) with (snd (fst r) + zsum l). change (wsum (r :: l)) with (snd r + wsum l) in *.
    cbn [List.length] in *. rewrite Nat2Z.inj_succ in *. set (n := Z.of_nat (List.length l)) in *. assert (0 <= n) by lia.
    rewrite Z.add_assoc.
    replace (w + (snd r + wsum l) + (k + Z.succ n) * m) with (w + snd r + wsum l + (k + 1 + n) * m) in * by lia.
    apply IH; try assumption; try lia.
    replace (2 * (w + snd r + (k + 1) * m)) with (2 * (w + k * m) + 2 * snd r + 2 * m) by lia.
    assert (0 <= k * m) by nia. assert (0 <= n * m) by nia.
    apply fadd_within; try assumption; lia.
Qed.
Lemma sum_within m l : 1 <= m -> Forall fine l ->
  Forall (fun s => Z.abs s <= m) (partial_sums 0 (map (fun r => snd (fst r)) l)) ->
  2 * (wsum l + Z.of_nat (List.length l) * m) <= 2 ^ 51 ->
  within (left_sum (map (fun r => fst (fst r)) l)) (zsum l) (2 * (wsum l + Z.of_nat (List.length l) * m)).
Proof.
  intros M H P C. destruct l as [|r l].
  - split; [reflexivity|]. change (fR (left_sum (map (fun r => fst (fst r)) []))) with 0%R. cbn.
    rewrite Rmult_0_l, Rminus_0_r, Rabs_R0, Rmult_0_r. lra.
  - inversion H as [|? ? [[Fr Dr] Wr] Hl]; subst. assert (Wl := wsum_nonneg l Hl).
    cbn [map left_sum partial_sums] in *. inversion P as [|s ss P1 P2]; subst.
    change (zsum (r :: l)) with (snd (fst r) + zsum l). change (wsum (r :: l)) with (snd r + wsum l) in *.
    cbn [List.length] in *. rewrite Nat2Z.inj_succ in *. set (n := Z.of_nat (List.length l)) in *. assert (0 <= n) by lia.
    change (0 + snd (fst r)) with (snd (fst r)) in *.
    replace (snd r + wsum l + Z.succ n * m) with (snd r + wsum l + (1 + n) * m) in * by lia.
    apply fold_within; try assumption; try lia. split; [exact Fr|]. eapply Rle_trans; [exact Dr|].
    apply Rmult_le_compat_l; [lra|]. apply IZR_le. lia.
Qed.
Lemma units_within x z : units x z -> within x z (Z.abs z).
Proof.
  intros [F R]. rewrite <- ffin_SF in F. rewrite <- fR_SF in R. split; [exact F|].
  change (nearest (IZR z / 100000000)) with (rnd (IZR z / 100000000)) in R.
  rewrite R, <- bpow_m53, abs_IZR. apply unit_abs.
Qed.
Lemma within_neg x z w : within x z w -> within (fneg x) (- z) w.
Proof.
  intros [F D]. destruct (fneg_correct x) as [R Fn]. split; [congruence|]. rewrite R, opp_IZR.
  replace (- fR x * 100000000 - - IZR z)%R with (- (fR x * 100000000 - IZR z))%R by ring. rewrite Rabs_Ropp. exact D.
Qed.
Lemma within_le x z w w' : within x z w -> w <= w' -> within x z w'.
Proof. intros [F D] L. split; [exact F|]. eapply Rle_trans; [exact D|]. apply Rmult_le_compat_l; [lra|]. apply IZR_le, L. Qed.

(** ** Printing a number that is close to a number of units *)
Lemma within_rounded x z w sym : within x z w -> w <= 2 ^ 51 -> Z.abs z < 2 ^ 51 -> units (rounded_mag (mkAmount x sym)) z.
Proof.
  intros [F D] L Hz. apply rounded_units; [exact F|exact Hz|]. eapply Rle_trans; [exact D|].
  assert (IZR w <= 2251799813685248)%R by (apply IZR_le; exact L). cbn [mag]. lra.
Qed.
Lemma show_within x z w sym : within x z w -> w <= 2 ^ 51 -> Z.abs z < 2 ^ 51 -> total_shown (show_amount (mkAmount x sym)) z sym.
Proof.
  intros H L Hz. assert (U := within_rounded x z w sym H L Hz). destruct H as [F D].
  assert (Rabs (fR x * 100000000 - IZR z) <= / 4)%R as D'.
  { eapply Rle_trans; [exact D|]. assert (IZR w <= 2251799813685248)%R by (apply IZR_le; exact L). lra. }
  apply Rabs_le_inv in D'. unfold total_shown, show_amount. cbn [mag symbol].
  set (n := show_f64 (rounded_mag (mkAmount x sym))) in *.
  destruct (Z.eq_dec z 0) as [->|Nz].
  - right. split; [reflexivity|]. exists n. split.
    + destruct U as [Fu Ru]. unfold n, show_f64. unfold nearest, Rdiv in Ru. rewrite Rmult_0_l, round_0 in Ru by apply valid_rnd_N.
      destruct (rounded_mag (mkAmount x sym)) as [[s|s| |s m e] V]; try discriminate.
      * destruct s; [right|left]; reflexivity.
      * cbn [sf] in Ru. apply eq_0_F2R in Ru. destruct s; discriminate.
    + destruct (fltb x fzero); [left|right]; reflexivity.
  - left. exists n. split; [apply show_units; assumption|].
    assert (fltb x fzero = (z <? 0)) as ->; [|reflexivity].
    destruct (z <? 0) eqn:Ez.
    + apply Z.ltb_lt in Ez. assert (z <= -1) as Q by lia. apply IZR_le in Q. apply fltb_R. rewrite fval_zero, (fval_fin x F).
      split; [apply ffin_not_nan, F|]. split; [reflexivity|]. lra.
    + apply Z.ltb_ge in Ez. assert (1 <= z) as Q by lia. apply IZR_le in Q.
      destruct (fltb x fzero) eqn:Lt; [|reflexivity]. apply fltb_R in Lt. rewrite fval_zero, (fval_fin x F) in Lt. lra.
Qed.

(** ** Written and inferred amounts *)
Lemma sums_bound m zs : 0 <= m -> forall a, Z.abs a <= m -> Forall (fun s => Z.abs s <= m) (partial_sums a zs) ->
  Forall (fun z => Z.abs z <= 2 * m) zs /\ Z.abs (a + Zsum zs) <= m.
Proof.
  intro M. induction zs as [|z zs IH]; intros a A F; [cbn; split; [constructor|lia]|].
  cbn [partial_sums] in F. inversion F as [|? ? F1 F2]; subst. destruct (IH (a + z) F1 F2) as [I1 I2].
  split; [constructor; [lia|exact I1]|]. change (Zsum (z :: zs)) with (z + Zsum zs). rewrite Z.add_assoc. exact I2.
Qed.
Definition triple (x : f64) (z w : Z) : f64 * Z * Z := (x, z, w).
Lemma written_within (l : list amount) zs m : 1 <= m -> Forall2 (fun a z => units (mag a) z) l zs -> sums_within m zs ->
  Z.of_nat (List.length zs) * m <= 2 ^ 48 ->
  within (left_sum (map (fun a => fneg (mag a)) l)) (- Zsum zs) (6 * (Z.of_nat (List.length zs) * m)).
Proof.
  intros M H P C. destruct (sums_bound m zs ltac:(lia) 0 ltac:(lia) P) as [B _].
  assert (exists t, Forall fine t /\ map (fun r => fst (fst r)) t = map (fun a => fneg (mag a)) l
    /\ map (fun r => snd (fst r)) t = map Z.opp zs /\ wsum t <= Z.of_nat (List.length zs) * (2 * m)) as (t & T1 & T2 & T3 & T4).
  { clear P C. induction H as [|a z l zs Ha H IH]; [exists []; split; [constructor|]; repeat split; change (wsum []) with 0; cbn [List.length]; lia|].
    inversion B as [|? ? B1 B2]; subst. destruct (IH B2) as (t & T1 & T2 & T3 & T4).
    exists (triple (fneg (mag a)) (- z) (Z.abs z) :: t). split.
    - constructor; [|exact T1]. split; [|cbn; lia]. cbn. apply within_neg, units_within, Ha.
    - cbn [map triple fst snd]. rewrite T2, T3. split; [reflexivity|]. split; [reflexivity|].
      unfold wsum in *. cbn [map triple snd List.length]. change (Zsum (Z.abs z :: map snd t)) with (Z.abs z + Zsum (map snd t)).
      rewrite Nat2Z.inj_succ. lia. }
  assert (List.length t = List.length zs) as L.
  { rewrite <- (map_length Z.opp zs), <- T3, map_length. reflexivity. }
  rewrite <- T2, <- Zsum_opp, <- T3. assert (K := sum_within m t M T1). rewrite L, T3 in K.
  eapply within_le; [apply K|lia].
  - rewrite <- (Z.opp_0). rewrite partial_sums_opp, Forall_map. eapply Forall_impl; [|exact P]. intros x Hx. cbv beta. rewrite Z.abs_opp. exact Hx.
  - lia.
Qed.
Lemma worth_within m e p sym z k a : 1 <= m -> exact_worth m e p sym z k -> worth e p a ->
  Z.of_nat k * m <= 2 ^ 48 -> Z.abs z <= 2 * m ->
  symbol a = sym /\ within (mag a) z (6 * (Z.of_nat k * m)) /\ (1 <= k)%nat.
Proof.
  intros M E W C Z. destruct E as [b z G U|sym zs Bl I N Sy U P].
  - assert (a = b) as ->. { destruct W as [W|[W _]]; congruence. }
    split; [reflexivity|]. split; [|lia]. eapply within_le; [apply units_within, U|]. lia.
  - destruct W as [W|[_ W]]; [congruence|].
    rewrite (blank_amount_one e sym (ex_intro _ p (conj I Bl)) N Sy) in W. injection W as <-.
    split; [reflexivity|]. split; [apply written_within; assumption|].
    destruct (written (e_postings e)); [contradiction|]. inversion U; subst. cbn. lia.
Qed.
Lemma worths_within m sym ps zs k xs : 1 <= m -> exact_worths m sym ps zs k -> worths ps xs ->
  Z.of_nat k * m <= 2 ^ 48 -> Forall (fun z => Z.abs z <= 2 * m) zs ->
  exists t, Forall fine t /\ map (fun r => fst (fst r)) t = contributions sym (map PAdd xs)
    /\ map (fun r => snd (fst r)) t = zs /\ wsum t <= 6 * (Z.of_nat k * m) /\ (List.length t <= k)%nat.
Proof.
  intros M E. revert xs. induction E as [|e p ps z zs n k H E IH|e p ps b zs k Wb Nb E IH]; intros xs W C B.
  - inversion W; subst. exists []. split; [constructor|]. repeat split; [|cbn; lia]. change (wsum []) with 0. lia.
  - inversion W as [|? a ? xs' Wa W']; subst. cbn [fst snd] in Wa. inversion B as [|? ? B1 B2]; subst.
    destruct (worth_within m e p sym z n a M H Wa ltac:(nia) B1) as (Sa & Ia & N1).
    destruct (IH xs' W' ltac:(nia) B2) as (t & T1 & T2 & T3 & T4 & T5).
    exists (triple (mag a) z (6 * (Z.of_nat n * m)) :: t). split.
    + constructor; [|exact T1]. split; [exact Ia|]. cbn [triple snd]. nia.
    + unfold contributions. cbn [map flat_map contribution triple fst snd]. destruct (sym_dec (symbol a) sym) as [_|Q]; [|contradiction].
      cbn [app]. fold (contributions sym (map PAdd xs')). rewrite T2, T3. repeat split.
      * unfold wsum in *. cbn [map triple snd]. change (Zsum (6 * (Z.of_nat n * m) :: map snd t)) with (6 * (Z.of_nat n * m) + Zsum (map snd t)). nia.
      * cbn [List.length]. lia.
  - inversion W as [|? a ? xs' Wa W']; subst. cbn [fst snd] in Wa.
    assert (a = b) as ->. { destruct Wa as [?|[? ?]], Wb as [?|[? ?]]; congruence. }
    destruct (IH xs' W' C B) as (t & T1 & T2 & T3 & T4 & T5). exists t. split; [exact T1|]. split; [|auto].
    unfold contributions. cbn [map flat_map contribution]. destruct (sym_dec (symbol b) sym) as [Q|_]; [contradiction|].
    exact T2.
Qed.
Lemma total_within m sym ps zs k xs : 0 < m -> exact_worths m sym ps zs k -> worths ps xs -> sums_within m zs ->
  Z.of_nat k * m <= 2 ^ 47 -> total_shown (show_amount (mkAmount (left_sum (contributions sym (map PAdd xs))) sym)) (Zsum zs) sym.
Proof.
  intros M E W P C. destruct (sums_bound m zs ltac:(lia) 0 ltac:(lia) P) as [B S].
  destruct (worths_within m sym ps zs k xs ltac:(lia) E W ltac:(lia) B) as (t & T1 & T2 & T3 & T4 & T5).
  assert (Z.of_nat (List.length t) * m <= Z.of_nat k * m) by (apply Z.mul_le_mono_nonneg_r; lia).
  assert (K := sum_within m t ltac:(lia) T1). unfold zsum in K. rewrite T2, T3 in K.
  eapply show_within; [apply K|lia|]; [exact P|lia|].
  destruct zs as [|z zs]; [reflexivity|]. inversion E as [|e p ps' z' zs' n k' E1 E2|]; subst.
  - assert (1 <= Z.of_nat (n + k')) as N1.
    { destruct E1 as [|s' zs' _ _ N _ U _]; [lia|]. destruct (written (e_postings e)); [contradiction|]. inversion U; subst. cbn [List.length]. lia. }
    nia.
  - destruct t as [|r t]; [discriminate|]. cbn [List.length] in T5. nia.
Qed.

(** ** Sums of any size *)
Lemma fadd_fin x y : ffin (fadd x y) = true -> ffin x = true /\ ffin y = true /\ fR (fadd x y) = rnd (fR x + fR y)
  /\ (Rabs (rnd (fR x + fR y)) < bpow radix2 1024)%R.
Proof.
  intro F. assert (ffin x = true /\ ffin y = true) as [Fx Fy].
  { rewrite ffin_SF in *. rewrite (ffin_SF y). unfold fadd in F.
    destruct (sf x) as [s|s| |s m e], (sf y) as [s'|s'| |s' m' e']; cbn in F; try discriminate; auto;
      repeat match goal with b : bool |- _ => destruct b end; discriminate. }
  split; [exact Fx|]. split; [exact Fy|].
  destruct (Rlt_dec (Rabs (rnd (fR x + fR y))) (bpow radix2 1024)) as [L|L].
  - split; [apply fadd_correct; assumption|exact L].
  - exfalso. unfold ffin in F. rewrite B_fadd in F.
    generalize (Bplus_correct prec emax F64Facts.Hprec F64Facts.Hmax mode_NE (B x) (B y) Fx Fy).
    rewrite Rlt_bool_false by (apply Rnot_lt_le; exact L). intros (A & _).
    rewrite <- is_finite_SF_B2SF, A in F. discriminate.
Qed.
Lemma fold_opp l : forall x x', ffin x' = ffin x -> fR x' = (- fR x)%R -> ffin (fold_left fadd l x) = true ->
  ffin (fold_left fadd (map fneg l) x') = true /\ fR (fold_left fadd (map fneg l) x') = (- fR (fold_left fadd l x))%R.
Proof.
  induction l as [|y l IH]; intros x x' Fx Rx F; [cbn in *; split; congruence|]. cbn [map fold_left] in *.
  assert (ffin (fadd x y) = true) as Fa.
  { clear IH Fx Rx x'. revert F. generalize (fadd x y). clear x y. induction l as [|y l IH]; intros x F; [exact F|].
    cbn [fold_left] in F. apply IH in F. apply fadd_fin in F. tauto. }
  destruct (fadd_fin x y Fa) as (F1 & F2 & R & L). destruct (fneg_correct y) as [Ry Fy].
  destruct (fadd_correct x' (fneg y)) as [R' F']; [congruence..| |].
  - rewrite Rx, Ry. replace (- fR x + - fR y)%R with (- (fR x + fR y))%R by ring. rewrite rnd_opp, Rabs_Ropp. exact L.
  - apply IH; [congruence| |exact F]. rewrite R', R, Rx, Ry. replace (- fR x + - fR y)%R with (- (fR x + fR y))%R by ring. apply rnd_opp.
Qed.
Lemma left_sum_opp l : ffin (left_sum l) = true ->
  ffin (left_sum (map fneg l)) = true /\ fR (left_sum (map fneg l)) = (- fR (left_sum l))%R.
Proof.
  destruct l as [|x l].
  - intros _. split; [reflexivity|]. change (fR (left_sum [])) with 0%R. cbn [map]. change (fR (left_sum [])) with 0%R. ring.
  - cbn [map left_sum]. destruct (fneg_correct x) as [R F]. apply fold_opp; assumption.
Qed.
