(** Sums of decimals in any order. *)
From Coq Require Import ZArith NArith List Bool Reals Lra Lia Permutation.
From Coq Require Import Floats.SpecFloat.
From Flocq Require Import Core IEEE754.BinarySingleNaN.
From Verif Require Import Base Str F64 Date Amount Posting Entry Envelope Account Ledger
  SpecAmount SpecDate SpecEntry SpecEnvelope SpecFunding SpecHistory SpecLedger SpecTotals SpecConserve SpecDecimals
  StrFacts F64Facts AmountFacts EntryFacts EnvelopeFacts AccountFacts LedgerFacts DecimalFacts PropertiesHistory OrderFacts PropertiesTotals.
Import ListNotations.
Local Open Scope Z_scope.

Lemma zero_within w : 0 <= w -> within fzero 0 w.
Proof.
  intro W. split; [reflexivity|]. change (fR fzero) with 0%R. rewrite Rmult_0_l, Rminus_0_r, Rabs_R0.
  apply IZR_le in W. lra.
Qed.
Lemma Zsum_abs l : Z.abs (Zsum l) <= Zsum (map Z.abs l).
Proof. unfold Zsum. induction l; cbn; lia. Qed.
Lemma abs_nonneg l : 0 <= Zsum (map Z.abs l).
Proof. assert (H := Zsum_abs l). lia. Qed.
(** Sums that start with zero. *)
Lemma units_sum m xs zs : Forall2 units xs zs -> small m (List.length zs) zs ->
  within (fold_left fadd xs fzero) (Zsum zs) (2 ^ 51) /\ Z.abs (Zsum zs) < 2 ^ 51.
Proof.
  intros F (M & S & C). set (t := map (fun x => triple (fst x) (snd x) (Z.abs (snd x))) (combine xs zs)).
  assert (map (fun r => fst (fst r)) t = xs /\ map (fun r => snd (fst r)) t = zs /\ map snd t = map Z.abs zs /\ Forall fine t
    /\ List.length t = List.length zs) as (T1 & T2 & T3 & T4 & T5).
  { unfold t. clear t S C. induction F as [|x z xs zs U _ (I1 & I2 & I3 & I4 & I5)]; [repeat split; constructor|].
    cbn [combine map triple fst snd List.length]. rewrite I1, I2, I3, I5. repeat split. constructor; [|exact I4]. split; cbn [triple fst snd]; [apply units_within, U|apply Z.abs_nonneg]. }
  assert (P : Forall (fun s => Z.abs s <= m) (partial_sums 0 (map (fun r => snd (fst r)) t))) by (rewrite T2; apply partial_bound; cbn; lia).
  assert (wsum t <= m) as W by (unfold wsum; rewrite T3; exact S).
  destruct zs as [|z zs].
  { assert (xs = []) as -> by (inversion F; reflexivity). split; [apply zero_within; lia|cbn; lia]. }
  assert (1 <= Z.of_nat (List.length (z :: zs))) as L by (cbn [List.length]; lia).
  set (k := Z.of_nat (List.length (z :: zs))) in *. assert (m <= 2 ^ 47) as Mb by (apply Z.le_trans with (k * m); [nia|exact C]).
  split; [|eapply Z.le_lt_trans; [apply Zsum_abs|lia]].
  assert (K := fold_within m t ltac:(lia) fzero 0 0 0 T4 (zero_within (2 * (0 + 0 * m)) ltac:(lia)) ltac:(lia) ltac:(lia) P). rewrite T5 in K. fold k in K.
  eapply within_le; [rewrite <- T1; unfold zsum in K; rewrite T2 in K; apply K|]; lia.
Qed.

Lemma units_same x y z : units x z -> units y z -> Z.abs z < 2 ^ 51 -> z <> 0 -> x = y.
Proof.
  intros U V Hz Nz. apply f64_ext_R; [rewrite ffin_SF; apply U|rewrite ffin_SF; apply V|rewrite !fR_SF; destruct U as [_ U], V as [_ V]; congruence|].
  rewrite fR_SF.
  intro Z. destruct (units_sign x z U Hz Nz) as (m & e & Vm & ->). cbn in Z. apply eq_0_F2R in Z. destruct (z <? 0); discriminate.
Qed.
Lemma within_same x y z sym w : within x z w -> within y z w -> w <= 2 ^ 51 -> Z.abs z < 2 ^ 51 ->
  same_shown (mkAmount x sym) (mkAmount y sym) z.
Proof.
  intros X Y W Hz. assert (Tx := show_within x z w sym X W Hz). assert (Ty := show_within y z w sym Y W Hz).
  split; [reflexivity|]. split; [exact Tx|]. split; [exact Ty|]. intro Nz.
  assert (Ux := within_rounded x z w sym X W Hz). assert (Uy := within_rounded y z w sym Y W Hz).
  assert (E := units_same _ _ _ Ux Uy Hz Nz).
  assert (forall x, within x z w -> fltb x fzero = (z <? 0)) as Sg.
  { clear - W Hz Nz. intros x [F D].
    assert (Rabs (fR x * 100000000 - IZR z) <= / 4)%R as D'.
    { eapply Rle_trans; [exact D|]. assert (IZR w <= 2251799813685248)%R by (apply IZR_le; exact W). lra. }
    apply Rabs_le_inv in D'. destruct (z <? 0) eqn:Ez.
    - apply Z.ltb_lt in Ez. assert (z <= -1) as Q by lia. apply IZR_le in Q. apply fltb_R. rewrite fval_zero, (fval_fin x F).
      split; [apply ffin_not_nan, F|]. split; [reflexivity|]. lra.
    - apply Z.ltb_ge in Ez. assert (1 <= z) as Q by lia. apply IZR_le in Q.
      destruct (fltb x fzero) eqn:Lt; [|reflexivity]. apply fltb_R in Lt. rewrite fval_zero, (fval_fin x F) in Lt. lra. }
  unfold show_amount. cbn [mag symbol]. rewrite (Sg x X), (Sg y Y), E. reflexivity.
Qed.

(** ** The envelopes *)
Lemma part_small p (h : list (date * amount)) : forall zs m, Forall2 (fun x z => units (mag (snd x)) z) h zs -> small m (List.length zs) zs ->
  exists zs', Forall2 (fun x z => units (mag (snd x)) z) (filter p h) zs' /\ small m (List.length zs') zs'.
Proof.
  intros zs m F (M & S & C).
  assert (exists zs', Forall2 (fun x z => units (mag (snd x)) z) (filter p h) zs' /\ Zsum (map Z.abs zs') <= Zsum (map Z.abs zs)
    /\ (List.length zs' <= List.length zs)%nat) as (zs' & F' & A & L).
  { clear S C. induction F as [|x z h zs U _ (zs' & F' & A & L)]; [exists []; repeat split; [constructor|cbn; lia..]|]. cbn [filter map].
    change (Zsum (?a :: ?m)) with (a + Zsum m). destruct (p x).
    - exists (z :: zs'). split; [constructor; assumption|]. cbn [map List.length]. change (Zsum (?a :: ?m)) with (a + Zsum m). lia.
    - exists zs'. split; [exact F'|]. cbn [List.length]. lia. }
  exists zs'. split; [exact F'|]. split; [exact M|]. split; [lia|]. nia.
Qed.
Lemma parts_shown p h h' zs m : Permutation h h' -> Forall2 (fun x z => units (mag (snd x)) z) h zs -> small m (List.length zs) zs ->
  exists n, Z.abs n < 2 ^ 51 /\ within (sum_of p h fzero) n (2 ^ 51) /\ within (sum_of p h' fzero) n (2 ^ 51).
Proof.
  intros P F S. destruct (part_small p h zs m F S) as (zs1 & F1 & S1).
  destruct (Forall2_perm _ _ _ (filter_perm p _ _ P) _ F1) as (zs2 & Pz & F2).
  assert (small m (List.length zs2) zs2) as S2.
  { destruct S1 as (M & A & C). rewrite (Zsum_perm _ _ (Permutation_map Z.abs Pz)) in A. rewrite (Permutation_length Pz) in C. repeat split; assumption. }
  assert (forall h zs, Forall2 (fun x z => units (mag (snd x)) z) h zs -> Forall2 units (map (fun x : date * amount => mag (snd x)) h) zs) as Mp
    by (clear; induction 1; constructor; auto).
  exists (Zsum zs1). destruct (units_sum m _ _ (Mp _ _ F1) S1) as [W1 B]. destruct (units_sum m _ _ (Mp _ _ F2) S2) as [W2 _].
  rewrite <- (Zsum_perm _ _ Pz) in W2. split; [exact B|]. split; assumption.
Qed.
Lemma shown_parts a b x y n : mag a = x -> mag b = y -> symbol b = symbol a -> Z.abs n < 2 ^ 51 ->
  within x n (2 ^ 51) -> within y n (2 ^ 51) -> same_shown a b n.
Proof. intros <- <- E B X Y. destruct a as [x s], b as [y s']. cbn in *. subst s'. eapply within_same; try eassumption. apply Z.le_refl. Qed.
Definition envelope_texts (es : list entry) (v w : envelope) : Prop :=
  same_definition v w
  /\ forall h m zs, moves_of_all v es h -> Forall2 (fun x z => units (mag (snd x)) z) h zs -> small m (List.length zs) zs ->
     (exists n, same_shown (v_now v) (v_now w) n) /\ (exists n, same_shown (v_next v) (v_next w) n).
Lemma envelope_decimals today v es es' w : in_currency v -> empty v -> Permutation es es' ->
  fold_res (env_process today) es v = Ok w ->
  exists w', fold_res (env_process today) es' v = Ok w' /\ envelope_texts es w w'.
Proof.
  intros C Em Pe H. destruct (envelope_order today v es es' w C Em Pe H) as (w' & H' & S & _). exists w'. split; [exact H'|]. split; [exact S|].
  intros h0 m zs Mh F Sm. destruct Em as [En Ex].
  apply history_walked in H as (h & P & W). apply history_walked in H' as (h' & P' & W').
  destruct (plans_perm _ _ _ Pe _ P) as (h2 & Ph & P2).
  assert (h2 = h') as -> by (exact (moves_fun v es' h' (plans_moves _ _ _ P') h2 P2)).
  assert (Sw := walked_same _ _ _ _ W). assert (Sw' := walked_same _ _ _ _ W').
  assert (h = h0) as -> by (exact (moves_fun w es h0 Mh h (plans_same v w _ _ Sw P))).
  destruct (walked_currency _ _ _ _ W C) as [C1 C2]. destruct (walked_currency _ _ _ _ W' C) as [C1' C2'].
  assert (v_amount w = v_amount v /\ v_amount w' = v_amount v) as [A A'] by (split; [apply Sw|apply Sw']).
  rewrite A in C1, C2. rewrite A' in C1', C2'.
  assert (forall p, exists n, Z.abs n < 2 ^ 51 /\ within (sum_of p h0 fzero) n (2 ^ 51) /\ within (sum_of p h' fzero) n (2 ^ 51)) as K
    by (intro p; exact (parts_shown p h0 h' zs m Ph F Sm)).
  assert (within fzero 0 (2 ^ 51)) as Z0 by (apply zero_within; discriminate).
  destruct (freq_last today (v_freq v)) as [l| | |] eqn:Fr;
    [|destruct (walked_stuck _ _ _ _ W) as [X Y]; [congruence|]; destruct (walked_stuck _ _ _ _ W') as [X' Y']; [congruence|];
      rewrite En in X, X'; destruct (K (fun x => fltb (mag (snd x)) fzero)) as (n & B & N1 & N2);
      split; [exists n|exists 0]; eapply shown_parts; try eassumption; try congruence; rewrite ?Y, ?Y', ?Ex; try reflexivity; assumption..].
  destruct (walked_sums _ _ _ _ _ W Fr) as [X Y]. destruct (walked_sums _ _ _ _ _ W' Fr) as [X' Y'].
  rewrite En in X, X'. rewrite Ex in Y, Y'.
  destruct (K (to_now l)) as (n1 & B1 & M1 & N1). destruct (K (to_next l)) as (n2 & B2 & M2 & N2).
  split; [exists n1|exists n2]; eapply shown_parts; try eassumption; congruence.
Qed.

(** ** The accounts *)
Lemma exact_perm m sym ps ps' : Permutation ps ps' -> forall zs k, exact_worths m sym ps zs k ->
  exists zs', Permutation zs zs' /\ exact_worths m sym ps' zs' k.
Proof.
  induction 1 as [|[e p] l l' _ IH|[e p] [f q] l|l l' l'' _ IH _ IH']; intros zs k E.
  - exists zs. split; [apply Permutation_refl|exact E].
  - inversion E as [|? ? ? z zs1 n k1 X Y|? ? ? a zs1 k1 X N Y]; subst; destruct (IH _ _ Y) as (zs' & P & E').
    + exists (z :: zs'). split; [constructor; exact P|]. constructor; assumption.
    + exists zs'. split; [exact P|]. econstructor; eassumption.
  - inversion E as [|? ? ? z zs1 n k1 X Y|? ? ? a zs1 k1 X N Y]; subst;
      inversion Y as [|? ? ? z' zs2 n' k2 X' Y'|? ? ? a' zs2 k2 X' N' Y']; subst.
    + exists (z' :: z :: zs2). split; [constructor|]. rewrite (Nat.add_comm n), <- Nat.add_assoc. constructor; [exact X'|].
      rewrite Nat.add_comm. constructor; assumption.
    + exists (z :: zs1). split; [apply Permutation_refl|]. eapply worths_out; eauto. constructor; assumption.
    + exists (z' :: zs2). split; [apply Permutation_refl|]. constructor; [exact X'|]. econstructor; eassumption.
    + exists zs. split; [apply Permutation_refl|]. eapply worths_out; eauto. eapply worths_out; eauto.
  - destruct (IH _ _ E) as (z1 & P1 & E1). destruct (IH' _ _ E1) as (z2 & P2 & E2). exists z2. split; [exact (perm_trans P1 P2)|exact E2].
Qed.
Lemma exact_size m sym ps zs k : exact_worths m sym ps zs k -> (List.length zs <= k)%nat.
Proof.
  induction 1 as [|e p ps z zs n k H E IH|e p ps b zs k Wb Nb E IH]; cbn [List.length]; [lia| |exact IH].
  enough (1 <= n)%nat by lia. destruct H as [|s' zs' _ _ N _ U _]; [lia|]. destruct (written (e_postings e)); [contradiction|].
  inversion U; subst. cbn [List.length]. lia.
Qed.
Lemma held_near m sym ps zs k xs : exact_worths m sym ps zs k -> worths ps xs -> small m k zs ->
  within (left_sum (contributions sym (map PAdd xs))) (Zsum zs) (2 ^ 51) /\ Z.abs (Zsum zs) < 2 ^ 51.
Proof.
  intros E W (M & S & C). assert (sums_within m zs) as P by (apply partial_bound; cbn; lia).
  destruct (sums_bound m zs ltac:(lia) 0 ltac:(lia) P) as [B Sz].
  destruct (worths_within m sym ps zs k xs ltac:(lia) E W ltac:(lia) B) as (t & T1 & T2 & T3 & T4 & T5).
  assert (Z.of_nat (List.length t) * m <= Z.of_nat k * m) by (apply Z.mul_le_mono_nonneg_r; lia).
  assert (K := sum_within m t ltac:(lia) T1). unfold zsum in K. rewrite T2, T3 in K. split.
  - eapply within_le; [apply K|]; [exact P|lia|lia].
  - assert (L := exact_size _ _ _ _ _ E). assert (A := Zsum_abs zs). destruct zs as [|z zs]; [reflexivity|].
    cbn [List.length] in L. assert (1 <= Z.of_nat k) by lia. assert (m <= 2 ^ 47) by (apply Z.le_trans with (Z.of_nat k * m); [nia|exact C]). lia.
Qed.
Lemma real_decimals name es es' r r' : Permutation es es' -> real_fold name es [] = Ok r -> real_fold name es' [] = Ok r' ->
  forall m sym zs k, exact_worths m sym (filter (to_classic name) (postings es)) zs k -> small m k zs ->
  same_shown (mkAmount (mag (pool_only r sym)) sym) (mkAmount (mag (pool_only r' sym)) sym) (Zsum zs).
Proof.
  intros P H H' m sym zs k E S. apply real_fold_iff in H as (xs & W & ->). apply real_fold_iff in H' as (ys & W' & ->).
  destruct (exact_perm m sym _ _ (filter_perm (to_classic name) _ _ (postings_perm _ _ P)) _ _ E) as (zs' & Pz & E').
  rewrite <- !sum_up_fold. unfold sum_up. rewrite !pool_only_mag.
  destruct (held_near _ _ _ _ _ _ E W S) as [N B].
  assert (small m k zs') as S' by (destruct S as (M & A & C); rewrite (Zsum_perm _ _ (Permutation_map Z.abs Pz)) in A; repeat split; assumption).
  destruct (held_near _ _ _ _ _ _ E' W' S') as [N' _]. rewrite <- (Zsum_perm _ _ Pz) in N'.
  eapply within_same; try eassumption. apply Z.le_refl.
Qed.
Lemma account_decimals today es es' a b : starting a -> Permutation es es' -> fold_res (acc_process today) es a = Ok b ->
  exists b', fold_res (acc_process today) es' a = Ok b' /\ same_texts es b b'.
Proof.
  intros [St Re] P H. apply acc_fold_iff in H as (N & Ex & Go & R). rewrite Re in R.
  assert (forall vs ws, (forall v, In v vs -> In v (all_envelopes a)) -> Forall2 (fun v w => fold_res (env_process today) es v = Ok w) vs ws ->
    exists ws', Forall2 (fun v w => fold_res (env_process today) es' v = Ok w) vs ws' /\ Forall2 (envelope_texts es) ws ws') as K.
  { intros vs ws I F. induction F as [|v w vs ws E F IH]; [exists []; split; constructor|].
    destruct IH as (ws' & F1 & F2); [intros; apply I; right; assumption|]. destruct (St v (I v (or_introl eq_refl))) as [C Em].
    destruct (envelope_decimals today v es es' w C Em P E) as (w' & E' & M). exists (w' :: ws'). split; constructor; auto. }
  destruct (K _ _ (fun v i => in_or_app _ _ _ (or_introl i)) Ex) as (ex' & Ex' & Mx).
  destruct (K _ _ (fun v i => in_or_app _ _ _ (or_intror i)) Go) as (go' & Go' & Mg).
  destruct (real_order _ _ _ _ P R) as (r' & R' & _).
  exists (mkAccount (a_name a) ex' go' r'). split.
  - apply acc_fold_iff. cbn [a_name a_expenses a_goals a_real]. rewrite Re. auto.
  - split; [symmetry; exact N|]. split; [unfold all_envelopes; cbn [a_expenses a_goals]; apply Forall2_app; assumption|].
    unfold held. cbn [a_real]. rewrite N. exact (real_decimals _ _ _ _ _ P R R').
Qed.
