(** C135: from the typed journal to the printed register. *)
From Coq Require Import ZArith NArith List Bool Ascii String Reals Lia Lra Permutation Sorted.
From Verif Require Import Base Str F64 Date World Amount Posting Entry Envelope Account Register Ledger Importer Cli
  SpecAmount SpecDate SpecEntry SpecEnvelope SpecLedger SpecRegister SpecReport SpecTotals SpecCli SpecRun SpecTyped SpecRows
  StrFacts F64Facts AmountFacts DateFormat EntryFacts LedgerFacts OrderFacts DecimalFacts TypedFacts
  PropertiesLedger PropertiesRegister PropertiesReport PropertiesTotals PropertiesCli PropertiesRun PropertiesFrame PropertiesTyped.
Import ListNotations.
Local Open Scope Z_scope.

Definition to_assets (x : entry * posting) : bool := asset (get_account (snd x)).
Lemma exact_assets m sym t e : like_entry t e -> complete (snd t) -> Zsum (map Z.abs (of_assets basis sym t)) <= m ->
  exact_worths m sym (filter to_assets (map (pair e) (e_postings e)))
    (change sym t) (List.length (of_assets basis sym t)).
Proof.
  intros L C. pose proof L as (_ & F). pose proof (like_given _ _ F) as G. unfold change, of_assets.
  assert (forall ps qs, Forall2 like ps qs -> (forall p, In p ps -> In p (snd t)) -> (forall q, In q qs -> In q (e_postings e)) ->
    Zsum (map Z.abs (flat_map (basis (snd t)) (filter (on_assets sym (snd t)) ps))) <= m ->
    exact_worths m sym (filter to_assets (map (pair e) qs))
      (flat_map (fun p => [fst (moved (snd t) p)]) (filter (on_assets sym (snd t)) ps))
      (List.length (flat_map (basis (snd t)) (filter (on_assets sym (snd t)) ps)))) as K; [|intro M; apply K; auto].
  induction 1 as [|p q ps qs Lp _ IH]; intros Ip Iq M; [constructor|].
  pose proof Lp as (_ & Ea & A). assert (In p (snd t)) as Ip0 by (apply Ip; left; reflexivity). assert (In q (e_postings e)) as Iq0 by (apply Iq; left; reflexivity).
  cbn [map filter] in *. unfold to_assets at 1. cbn [snd]. rewrite Ea.
  assert (on_assets sym (snd t) p = if asset (t_account p) then if sym_dec (snd (moved (snd t) p)) sym then true else false else false) as Em by reflexivity.
  rewrite Em in M |- *. clear Em.
  assert (forall p, In p ps -> In p (snd t)) as Ip' by (intros; apply Ip; right; assumption).
  assert (forall q, In q qs -> In q (e_postings e)) as Iq' by (intros; apply Iq; right; assumption).
  destruct (asset (t_account p)) eqn:En; [|apply IH; assumption].
  destruct (sym_dec (snd (moved (snd t) p)) sym) as [Es|Ns].
  - cbn [flat_map] in *. rewrite map_app, Zsum_split in M. rewrite app_length. cbn [app].
    pose proof (abs_nonneg (basis (snd t) p)) as P1. pose proof (abs_nonneg (flat_map (basis (snd t)) (filter (on_assets sym (snd t)) ps))) as P2.
    apply worths_in; [|apply IH; [assumption..|lia]].
    unfold moved, basis in *. destruct (t_amount p) as [(z & s)|] eqn:Ep, (get_amount q) as [a|] eqn:Eq; try contradiction.
    + cbn [fst snd] in *. destruct A as [Sa U]. cbn [List.length]. rewrite <- Es, <- Sa. apply exact_written; assumption.
    + destruct (like_inferred t e q L C Iq0 Eq) as (Nw & sm & Sm & Hm). specialize (Hm p Ip0 Ep). unfold moved in Hm. rewrite Ep in Hm.
      cbn [fst snd] in *. rewrite Es in Hm. subst sm. apply exact_inferred; [exact Eq|exact Iq0|exact Nw|exact Sm| |apply abs_within; lia].
      clear - G. induction G as [|x a g w (_ & U) _ IH]; [constructor|]. cbn [map]. constructor; assumption.
  - destruct (like_worth t e q L C Iq0) as (a & Wa). apply (worths_out _ _ _ _ _ a); [exact Wa| |apply IH; assumption].
    intro Sa. apply Ns. unfold moved in *. destruct (t_amount p) as [(z & s)|] eqn:Ep, (get_amount q) as [b|] eqn:Eq; try contradiction.
    + destruct Wa as [Wa|[Wa _]]; [|congruence]. cbn [snd]. destruct A as [A _]. congruence.
    + destruct (like_inferred t e q L C Iq0 Eq) as (Nw & sm & Sm & Hm). specialize (Hm p Ip0 Ep). unfold moved in Hm. rewrite Ep in Hm. rewrite Hm.
      destruct Wa as [Wa|[_ Wa]]; [congruence|]. rewrite (blank_amount_one e sm (ex_intro _ q (conj Iq0 Eq)) Nw Sm) in Wa. injection Wa as <-. exact Sa.
Qed.

Lemma change_abs sym t : Zsum (map Z.abs (change sym t)) <= Zsum (map Z.abs (of_assets basis sym t)).
Proof.
  unfold change, of_assets. induction (filter (on_assets sym (snd t)) (snd t)) as [|p l IH]; [reflexivity|]. cbn [flat_map app map].
  rewrite map_app, Zsum_split. pose proof (moved_basis (snd t) p). unfold Zsum in *. cbn [fold_right]. lia.
Qed.

(** The amounts of a row. *)
Lemma weighed_worths x ws : weighed x ws -> worths (filter to_assets (map (pair x) (e_postings x))) (map snd (filter (fun w => in_focus None (fst w)) ws)).
Proof.
  unfold weighed, worths. induction 1 as [|p v ps ws (E & W) _ IH]; [constructor|]. cbn [map filter]. unfold to_assets at 1. cbn [snd].
  rewrite E. change (in_focus None (get_account p)) with (asset (get_account p)). destruct (asset (get_account p)); [cbn [map]; constructor; [exact W|exact IH]|exact IH].
Qed.
Lemma row_cells m K t x ws : like_entry t x -> complete (snd t) -> weighed x ws ->
  (forall sym, 1 <= m sym /\ Zsum (map Z.abs (of_assets basis sym t)) <= m sym /\ Z.of_nat (List.length (of_assets basis sym t)) <= K sym /\ K sym * m sym <= 2 ^ 46) ->
  NoDup (map symbol (focus None ws)) /\ (forall sym, In sym (map symbol (focus None ws)) <-> change sym t <> [])
  /\ Forall (fun a => within (mag a) (Zsum (change (symbol a) t)) (14 * (Z.of_nat (List.length (of_assets basis (symbol a) t)) * m (symbol a)))
       /\ (1 <= List.length (of_assets basis (symbol a) t))%nat) (focus None ws).
Proof.
  intros L C W B. pose proof (weighed_worths x ws W) as Ws. unfold focus. set (xs := map snd _) in *.
  assert (NoDup (map symbol (sum_up xs))) as Nd by (rewrite sum_up_symbols; apply nub_NoDup).
  assert (forall sym, exact_worths (m sym) sym (filter to_assets (map (pair x) (e_postings x))) (change sym t) (List.length (of_assets basis sym t))) as E
    by (intro sym; apply exact_assets; [exact L|exact C|apply B]).
  assert (forall sym, In sym (map symbol (sum_up xs)) <-> change sym t <> []) as Sy
    by (intro sym; rewrite sum_up_symbols, nub_In; exact (exact_currency _ _ _ _ _ _ (E sym) Ws)).
  split; [exact Nd|]. split; [exact Sy|]. apply Forall_forall. intros a I.
  assert (change (symbol a) t <> []) as N by (apply Sy, in_map, I).
  pose proof (pool_find_NoDup _ Nd a I) as Pf. pose proof (pool_only_find (sum_up xs) (symbol a)) as Po. rewrite Pf in Po.
  rewrite sum_up_only in Po by (eapply exact_some; [apply E|exact Ws|exact N]). rewrite <- Po at 1. cbn [mag].
  destruct (B (symbol a)) as (B1 & B2 & B3 & B4). set (n := List.length (of_assets basis (symbol a) t)) in *.
  assert (sums_within (m (symbol a)) (change (symbol a) t)) as Sw by (apply abs_within; pose proof (change_abs (symbol a) t); lia).
  destruct (sums_bound (m (symbol a)) (change (symbol a) t) ltac:(lia) 0 ltac:(lia) Sw) as [Bz _].
  assert (Z.of_nat n * m (symbol a) <= 2 ^ 48) as Cn by (assert (Z.of_nat n * m (symbol a) <= K (symbol a) * m (symbol a)) by (apply Z.mul_le_mono_nonneg_r; lia); lia).
  destruct (worths_within _ _ _ _ _ _ B1 (E (symbol a)) Ws Cn Bz) as (l & T1 & T2 & T3 & T4 & T5). fold n in T4, T5.
  assert (1 <= Z.of_nat (List.length l)) as Nl. { destruct l as [|r l]; [cbn in T3; congruence|cbn [List.length]; lia]. }
  split; [|lia].
  pose proof (sum_within (m (symbol a)) l B1 T1) as S. rewrite T2, T3 in S. unfold zsum in S. rewrite T3 in S.
  assert (Z.of_nat n * m (symbol a) <= K (symbol a) * m (symbol a)) by (apply Z.mul_le_mono_nonneg_r; lia).
  assert (Z.of_nat (List.length l) * m (symbol a) <= Z.of_nat n * m (symbol a)) by (apply Z.mul_le_mono_nonneg_r; lia).
  eapply within_le; [apply S; [exact Sw|lia]|]. lia.
Qed.

(** What has been shown so far. *)
Definition numbers (sym : option str) (es : list typed_entry) : list Z := flat_map (of_assets basis sym) es.
Definition state (m : option str -> Z) (past : list typed_entry) (seen : list amount) : Prop :=
  forall sym, exists l, Forall fine l /\ map (fun r => fst (fst r)) l = contributions sym (map PAdd seen)
  /\ Zsum (map (fun r => snd (fst r)) l) = Zsum (flat_map (change sym) past)
  /\ Zsum (map Z.abs (map (fun r => snd (fst r)) l)) <= Zsum (map Z.abs (numbers sym past))
  /\ wsum l <= 14 * (Z.of_nat (List.length (numbers sym past)) * m sym)
  /\ (List.length l <= List.length (numbers sym past))%nat.
Lemma contributions_pool sym (p : list amount) : NoDup (map symbol p) ->
  (exists a, In a p /\ symbol a = sym /\ contributions sym (map PAdd p) = [mag a]) \/ (~ In sym (map symbol p) /\ contributions sym (map PAdd p) = []).
Proof.
  unfold contributions. induction p as [|a p IH]; intro D; [right; split; [intros []|reflexivity]|]. inversion_clear D as [|? ? N D']. cbn [map flat_map contribution].
  destruct (sym_dec (symbol a) sym) as [E|E].
  - left. exists a. split; [left; reflexivity|]. split; [exact E|]. destruct (IH D') as [(b & I & Sb & _)|[_ ->]]; [|reflexivity].
    exfalso. apply N. rewrite E, <- Sb. apply in_map, I.
  - destruct (IH D') as [(b & I & Sb & ->)|[I ->]]; [left; exists b; split; [right; exact I|auto]|right]. split; [|reflexivity]. cbn [In]. tauto.
Qed.
Lemma numbers_snoc sym past t : numbers sym (past ++ [t]) = numbers sym past ++ of_assets basis sym t.
Proof. unfold numbers. rewrite flat_map_app. cbn [flat_map]. rewrite app_nil_r. reflexivity. Qed.
Lemma changes_snoc sym past t : flat_map (change sym) (past ++ [t]) = flat_map (change sym) past ++ change sym t.
Proof. rewrite flat_map_app. cbn [flat_map]. rewrite app_nil_r. reflexivity. Qed.
Lemma state_skip m past seen t : (forall sym, 1 <= m sym) -> (forall sym, Zsum (change sym t) = 0) -> state m past seen -> state m (past ++ [t]) seen.
Proof.
  intros M Z S sym. destruct (S sym) as (l & A & B & C & D & E & F). exists l. rewrite numbers_snoc, changes_snoc, map_app, !Zsum_split, app_length, Z.
  pose proof (abs_nonneg (of_assets basis sym t)). specialize (M sym). repeat split; try assumption; try lia; nia.
Qed.
Lemma state_row m past seen t pl : (forall sym, 1 <= m sym) -> NoDup (map symbol pl) -> (forall sym, In sym (map symbol pl) <-> change sym t <> []) ->
  Forall (fun a => within (mag a) (Zsum (change (symbol a) t)) (14 * (Z.of_nat (List.length (of_assets basis (symbol a) t)) * m (symbol a)))
       /\ (1 <= List.length (of_assets basis (symbol a) t))%nat) pl ->
  state m past seen -> state m (past ++ [t]) (seen ++ pl).
Proof.
  intros M D I F S sym. destruct (S sym) as (l & A & B & C & G & E & H). specialize (M sym). pose proof (abs_nonneg (of_assets basis sym t)) as Nn.
  rewrite numbers_snoc, changes_snoc, !map_app, !Zsum_split, app_length, contributions_app.
  destruct (contributions_pool sym pl D) as [(a & Ia & Sa & ->)|[N ->]].
  - rewrite Forall_forall in F. destruct (F a Ia) as [W L1]. rewrite Sa in W, L1. set (n := List.length (of_assets basis sym t)) in *.
    exists (l ++ [triple (mag a) (Zsum (change sym t)) (14 * (Z.of_nat n * m sym))]). split; [apply Forall_app; split; [exact A|constructor; [split; [exact W|cbn [triple snd]; nia]|constructor]]|].
    unfold wsum. rewrite !map_app, !Zsum_split, app_length. cbn [map triple fst snd List.length]. rewrite B, C. split; [reflexivity|].
    unfold wsum in E. set (wl := Zsum (map snd l)) in *. pose proof (abs_sum (change sym t)). pose proof (change_abs sym t).
    change (Zsum [Zsum (change sym t)]) with (Zsum (change sym t) + 0). change (Zsum [Z.abs (Zsum (change sym t))]) with (Z.abs (Zsum (change sym t)) + 0).
    change (Zsum [14 * (Z.of_nat n * m sym)]) with (14 * (Z.of_nat n * m sym) + 0). repeat split; lia.
  - exists l. rewrite app_nil_r. split; [exact A|]. split; [exact B|]. assert (change sym t = []) as ->. { destruct (change sym t) eqn:Q; [reflexivity|]. exfalso. apply N, I. rewrite Q. discriminate. }
    change (Zsum []) with 0. repeat split; try lia; nia.
Qed.
Lemma state_total m past seen sym : 1 <= m sym -> state m past seen -> Zsum (map Z.abs (numbers sym past)) <= m sym ->
  Z.of_nat (List.length (numbers sym past)) * m sym <= 2 ^ 46 -> (1 <= List.length (numbers sym past))%nat ->
  total_shown (show_amount (total_in sym seen)) (Zsum (flat_map (change sym) past)) sym.
Proof.
  intros M S B C N. destruct (S sym) as (l & T1 & T2 & T3 & T4 & T5 & T6). unfold total_in.
  assert (Z.of_nat (List.length l) * m sym <= Z.of_nat (List.length (numbers sym past)) * m sym) by (apply Z.mul_le_mono_nonneg_r; lia).
  assert (m sym <= Z.of_nat (List.length (numbers sym past)) * m sym) by nia.
  pose proof (sum_within (m sym) l M T1) as K. unfold zsum in K. rewrite T2, T3 in K. pose proof (abs_sum (map (fun r => snd (fst r)) l)) as As. rewrite T3 in As.
  eapply show_within; [apply K|lia|lia]; [|lia]. apply abs_within. lia.
Qed.

Lemma zero_within x z w : within x z w -> w <= 2 ^ 51 -> feqb x fzero = true -> z = 0.
Proof.
  intros [Fx D] W E. assert (fR x = 0)%R as R by (apply feqb_R in E; destruct E as (_ & _ & E); rewrite (fval_fin x Fx), fval_zero in E; exact E).
  rewrite R, Rmult_0_l, Rminus_0_l, Rabs_Ropp in D. apply IZR_le in W. rewrite <- abs_IZR in D.
  assert (IZR (Z.abs z) < 1)%R as K. { eapply Rle_lt_trans; [exact D|]. change (2 ^ 51) with 2251799813685248 in W. lra. }
  apply lt_IZR in K. lia.
Qed.
Lemma blanks_first n (r : str) : lit " " ++ repeat 32%N n ++ r = repeat 32%N n ++ lit " " ++ r.
Proof. induction n as [|n IH]; [reflexivity|]. cbn [repeat app] in *. rewrite <- IH. reflexivity. Qed.
Lemma Forall2_head {A B} (R : A -> B -> Prop) x l y m : Forall2 R (x :: l) (y :: m) -> R x y.
Proof. inversion 1. assumption. Qed.
Lemma amount_lines wd seen (more : list amount) ts pre : Forall2 (amount_line wd seen) more ts ->
  Forall2 line_of (map (fun a => (symbol a, show_amount a, show_amount (total_in (symbol a) seen))) more) (map (fun u => pre ++ u) ts).
Proof.
  induction 1 as [|a t more ts (c & c' & (-> & _) & (-> & _) & ->) _ IH]; cbn [map]; constructor; [|exact IH].
  eexists (pre ++ repeat 32%N _), _. cbn [fst snd]. rewrite <- !app_assoc. reflexivity.
Qed.
Lemma rows_hold wd m es rs : (forall sym, 1 <= m sym) -> listed None None None es rs ->
  forall ts past seen text, Forall2 like_entry ts es -> Forall (fun t => complete (snd t)) ts -> Forall (fun t => 0 <= year (fst t) < 10000) ts ->
  page wd default_format None seen rs text -> state m past seen ->
  (forall sym, Zsum (map Z.abs (numbers sym (past ++ ts))) <= m sym /\ Z.of_nat (List.length (numbers sym (past ++ ts))) * m sym <= 2 ^ 46) ->
  exists rows texts, right_rows past ts rows /\ text = List.concat texts /\ Forall2 row_of rows texts.
Proof.
  intros M L. induction L as [|x xs rs N L IH|x xs rs ws Sx W Z L IH|x xs rs ws Sx W Z L IH]; intros ts past seen text F C Y P S B.
  - inversion F; subst. inversion P; subst. exists [], []. split; [constructor|]. split; [reflexivity|constructor].
  - inversion F as [|t ? ts' ? Lt F']; subst. inversion_clear C as [|? ? Ct C']. inversion_clear Y as [|? ? Yt Y'].
    assert (forall sym, Zsum (change sym t) = 0) as Z.
    { intro sym. unfold change, of_assets. rewrite filter_none; [reflexivity|]. intros p I. unfold on_assets. destruct (asset (t_account p)) eqn:Ea; [|reflexivity]. exfalso. apply N. split; [split; exact Logic.I|].
      destruct Lt as [_ Lt]. destruct (AccountFacts.Forall2_In_l _ _ _ p Lt I) as (q & Iq & (_ & Eq & _)). exists q. split; [exact Iq|]. rewrite Eq. exact Ea. }
    destruct (IH ts' (past ++ [t]) seen text F' C' Y' P (state_skip m past seen t M Z S)) as (rows & texts & R & E & Fr); [rewrite <- app_assoc; exact B|].
    exists rows, texts. split; [apply rows_without; assumption|auto].
  - inversion F as [|t ? ts' ? Lt F']; subst. inversion_clear C as [|? ? Ct C']. inversion_clear Y as [|? ? Yt Y'].
    assert (forall sym, Zsum (map Z.abs (of_assets basis sym t)) <= m sym /\ Z.of_nat (List.length (of_assets basis sym t)) <= Z.of_nat (List.length (numbers sym (past ++ t :: ts')))) as B0.
    { intro sym. destruct (B sym) as [B1 _]. unfold numbers in *. rewrite flat_map_app in *. cbn [flat_map] in *. rewrite !map_app, !Zsum_split in B1. rewrite !app_length.
      pose proof (abs_nonneg (flat_map (of_assets basis sym) past)). pose proof (abs_nonneg (flat_map (of_assets basis sym) ts')). lia. }
    destruct (row_cells m (fun sym => Z.of_nat (List.length (numbers sym (past ++ t :: ts')))) t x ws Lt Ct W) as (Nd & Sy & Fa);
      [intro sym; repeat split; [apply M|apply B0|apply B0|apply B]|].
    assert (forall a, In a (focus None ws) -> let sym := symbol a in Z.of_nat (List.length (of_assets basis sym t)) * m sym <= 2 ^ 46
      /\ Z.abs (Zsum (change sym t)) <= m sym /\ m sym <= 2 ^ 46) as Sm.
    { intros a Ia sym. rewrite Forall_forall in Fa. destruct (Fa a Ia) as [_ L1]. fold sym in L1. destruct (B0 sym) as [B1 B2]. destruct (B sym) as [_ B3]. specialize (M sym).
      assert (Z.of_nat (List.length (of_assets basis sym t)) * m sym <= 2 ^ 46) by nia. pose proof (abs_sum (change sym t)). pose proof (change_abs sym t). repeat split; [assumption|lia|nia]. }
    assert (forall sym, Zsum (change sym t) = 0) as Z0.
    { intro sym. destruct (change sym t) as [|z zs] eqn:Ec; [reflexivity|]. rewrite <- Ec. assert (In sym (map symbol (focus None ws))) as I by (apply Sy; rewrite Ec; discriminate).
      apply in_map_iff in I as (a & <- & Ia). unfold all_zero in Z. rewrite Forall_forall in Fa, Z. destruct (Fa a Ia) as [Wa _]. destruct (Sm a Ia) as (S1 & _).
      exact (zero_within _ _ _ Wa ltac:(lia) (Z a Ia)). }
    destruct (IH ts' (past ++ [t]) seen text F' C' Y' P (state_skip m past seen t M Z0 S)) as (rows & texts & R & E & Fr); [rewrite <- app_assoc; exact B|].
    exists rows, texts. split; [apply rows_without; assumption|auto].
  - inversion F as [|t ? ts' ? Lt F']; subst. inversion_clear C as [|? ? Ct C']. inversion_clear Y as [|? ? Yt Y'].
    assert (forall sym, Zsum (map Z.abs (of_assets basis sym t)) <= m sym /\ Z.of_nat (List.length (of_assets basis sym t)) <= Z.of_nat (List.length (numbers sym (past ++ t :: ts')))) as B0.
    { intro sym. destruct (B sym) as [B1 _]. unfold numbers in *. rewrite flat_map_app in *. cbn [flat_map] in *. rewrite !map_app, !Zsum_split in B1. rewrite !app_length.
      pose proof (abs_nonneg (flat_map (of_assets basis sym) past)). pose proof (abs_nonneg (flat_map (of_assets basis sym) ts')). lia. }
    destruct (row_cells m (fun sym => Z.of_nat (List.length (numbers sym (past ++ t :: ts')))) t x ws Lt Ct W) as (Nd & Sy & Fa);
      [intro sym; repeat split; [apply M|apply B0|apply B0|apply B]|].
    assert (forall a, In a (focus None ws) -> let sym := symbol a in Z.of_nat (List.length (of_assets basis sym t)) * m sym <= 2 ^ 46
      /\ Z.abs (Zsum (change sym t)) <= m sym /\ m sym <= 2 ^ 46) as Sm.
    { intros a Ia sym. rewrite Forall_forall in Fa. destruct (Fa a Ia) as [_ L1]. fold sym in L1. destruct (B0 sym) as [B1 B2]. destruct (B sym) as [_ B3]. specialize (M sym).
      assert (Z.of_nat (List.length (of_assets basis sym t)) * m sym <= 2 ^ 46) by nia. pose proof (abs_sum (change sym t)). pose proof (change_abs sym t). repeat split; [assumption|lia|nia]. }
    inversion P as [|? ? ? ? a more h t0 ls0 rest Ef Hh Ha Hm Pr]; subst. pose proof (state_row m past seen t (focus None ws) M Nd Sy Fa S) as S'. rewrite Ef in S'.
    destruct (IH ts' (past ++ [t]) (seen ++ a :: more) rest F' C' Y' Pr S') as (rows & texts & R & E & Fr); [rewrite <- app_assoc; exact B|].
    set (cells := map (fun b => (symbol b, show_amount b, show_amount (total_in (symbol b) (seen ++ a :: more)))) (focus None ws) : list cell).
    assert (map (fun c : cell => fst (fst c)) cells = map symbol (focus None ws)) as Es by (unfold cells; exact (map_map _ _ _)).
    exists ((fst t, cells) :: rows). eexists (_ :: texts). split; [|split; [cbn [List.concat]; rewrite <- E, !app_assoc; reflexivity|constructor; [|exact Fr]]].
    + assert (NoDup (map (fun c : cell => fst (fst c)) cells)) as Nd' by (rewrite Es; exact Nd).
      assert (forall sym, In sym (map (fun c : cell => fst (fst c)) cells) <-> change sym t <> []) as Sy' by (intro sym; rewrite Es; apply Sy).
      apply rows_with; [unfold cells; rewrite Ef; discriminate|exact Nd'|exact Sy'| |exact R].
      unfold cells. apply Forall_forall. intros c Ic. apply in_map_iff in Ic as (b & <- & Ib). unfold true_cell. cbn [fst snd]. destruct (Sm b Ib) as (S1 & S2 & S3). rewrite Forall_forall in Fa. destruct (Fa b Ib) as [Wb L1].
      split; [destruct b as [x0 s0]; cbn [symbol mag] in *; eapply show_within; [exact Wb|lia|lia]|].
      destruct (B (symbol b)) as [B1 B2]. specialize (M (symbol b)).
      assert (Zsum (map Z.abs (numbers (symbol b) (past ++ [t]))) <= m (symbol b) /\ (List.length (numbers (symbol b) (past ++ [t])) <= List.length (numbers (symbol b) (past ++ t :: ts')))%nat
        /\ (1 <= List.length (numbers (symbol b) (past ++ [t])))%nat) as (K1 & K2 & K3).
      { unfold numbers in *. rewrite !flat_map_app in *. cbn [flat_map] in *. rewrite app_nil_r. rewrite !map_app, !Zsum_split in *. rewrite !app_length in *. pose proof (abs_nonneg (flat_map (of_assets basis (symbol b)) ts')). lia. }
      apply (state_total m); [exact M|exact S'|exact K1|nia|exact K3].
    + split; cbn [fst snd].
      * destruct Hh as (cd & ce & from & cf & to & ct & (-> & _) & _ & _ & _ & _ & _ & sign & _ & ->). destruct Lt as [-> _].
        rewrite <- (format_date_pattern _ _ _ (usual_pattern _) Yt). eexists. rewrite <- !app_assoc, <- blanks_first. reflexivity.
      * exists ((h ++ t0) :: map (fun u => repeat 32%N (byte_len h) ++ u) ls0). split; [cbn [List.concat]; rewrite <- !app_assoc; reflexivity|].
        unfold cells. rewrite Ef. cbn [map]. constructor; [|exact (amount_lines wd _ _ _ _ Hm)].
        exact (Forall2_head _ _ _ _ _ (amount_lines wd _ [a] [t0] h (Forall2_cons _ _ Ha (Forall2_nil _)))).
Qed.

Lemma typed_years accounts ls es : typed_lines accounts ls es -> Forall (fun t => 0 <= year (fst t) < 10000) es.
Proof. induction 1 as [| |accounts line d lns ps rest es (_ & Y & _) _ _ _ IH]; try constructor; auto. Qed.
Lemma usual_valid : valid_format default_format.
Proof. exists usual_date. exact (proj1 (usual_pattern (mkDate 2024 1 1 eq_refl))). Qed.

(** What is printed once the journal is read. *)
Lemma register_loaded x args f w p l w1 accounts es :
  parse_args args = Some (Ok f) -> f_cmd f = CmdRegister -> x_tty x = true -> chosen x f p ->
  from_file (x_fuel x) (x_today x) p w = Ok (l, w1) -> same_disk w w1 -> so_far (x_today x) accounts es l ->
  Forall (fun e => 0 <= year (fst e) < 10000) es -> modest_assets es ->
  o_res (main x args w) = Ok tt /\ same_disk w (o_world (main x args w))
  /\ exists ts rows texts, Permutation es ts /\ StronglySorted (fun e e' => not_later (fst e) (fst e')) ts
     /\ right_rows [] ts rows /\ o_out (main x args w) = List.concat texts /\ Forall2 row_of rows texts.
Proof.
  intros Pa Fc Ty Ch Ff Sd S Y M.
  destruct S as (fs & B & L & C & Fm & _ & Si). destruct (built_entries _ _ _ B) as (Pe & So & _).
  assert (exists ts, Permutation es ts /\ Forall2 like_entry ts (l_entries l)) as (ts & Pt & Lt).
  { destruct (Permutation_Forall2 Pe (Forall2_turn _ _ _ L)) as (ts & Pt & Ft). exists ts. split; [exact Pt|]. apply Forall2_turn in Ft. exact Ft. }
  assert (Forall (fun t => complete (snd t)) ts) as Ct by (rewrite Forall_forall in *; intros t It; apply C; apply (Permutation_in _ (Permutation_sym Pt) It)).
  destruct (C52_shown (l_entries l) default_format None None None usual_valid) as (t & St).
  { intros e Ie _ q Iq. destruct (AccountFacts.Forall2_In_r _ _ _ e Lt Ie) as (t & It & Le). rewrite Forall_forall in Ct. exact (like_worth t e q Le (Ct t It) Iq). }
  assert (ready x f w l w1) as R.
  { destruct (f_no_move f) eqn:Nm; [eapply ready_still; eassumption|]. eapply ready_filled; [exact Ch|exact Ff|exact Nm|].
    unfold fill_envelopes. rewrite (simple_fill _ l Si). reflexivity. }
  rewrite (C76_printed x args f w l w1 t Pa R) by (rewrite Fc; split; [exact Ty|rewrite Fm; exact St]). cbn [o_res o_world o_out].
  split; [reflexivity|]. split; [exact Sd|]. destruct (C52_register _ _ _ _ _ _ St) as (rs & wd & Li & Pg & _).
  assert (forall sym, Permutation (numbers sym es) (numbers sym ts)) as Pn by (intro sym; apply Permutation_flat_map, Pt).
  destruct (rows_hold wd (fun sym => Z.max 1 (Zsum (map Z.abs (numbers sym es)))) (l_entries l) rs ltac:(intro; lia) Li ts [] [] t Lt Ct) as (rows & texts & H1 & H2 & H3).
  - rewrite Forall_forall in *. intros u Iu. apply Y, (Permutation_in _ (Permutation_sym Pt) Iu).
  - exact Pg.
  - intro sym. exists []. split; [constructor|]. repeat split; cbn; lia.
  - intro sym. cbn [app]. rewrite <- (Permutation_length (Pn sym)), <- (Zsum_perm _ _ (Permutation_map Z.abs (Pn sym))). split; [lia|apply M].
  - exists ts, rows, texts. split; [exact Pt|]. split; [|auto]. clear - So Lt. revert ts Lt. generalize dependent (l_entries l). intros es So. induction So as [|e es So IH Fo]; intros ts Lt; inversion Lt as [|t ? ts' ? Le Lt']; subst; constructor; [apply IH, Lt'|].
    apply Forall_forall. intros u Iu. destruct (AccountFacts.Forall2_In_l _ _ _ u Lt' Iu) as (e' & Ie' & Eu & _). rewrite Forall_forall in Fo. specialize (Fo e' Ie'). unfold before in Fo. destruct Le as [Et _]. rewrite <- Et, <- Eu. exact Fo.
Qed.

(** What [silverfox register] prints for a typed journal: the entries by date,
    with the exact changes and totals of the asset accounts. *)
Theorem C135_register : forall x args f w p text es,
  parse_args args = Some (Ok f) -> f_cmd f = CmdRegister -> x_tty x = true -> chosen x f p -> (0 < x_fuel x)%nat ->
  components p <> [] -> files w (resolve w p) = Some text ->
  typed_journal text es -> modest_assets es ->
  o_res (main x args w) = Ok tt /\ same_disk w (o_world (main x args w))
  /\ exists ts rows texts, Permutation es ts /\ StronglySorted (fun e e' => not_later (fst e) (fst e')) ts
     /\ right_rows [] ts rows /\ o_out (main x args w) = List.concat texts /\ Forall2 row_of rows texts.
Proof.
  intros x args f w p text es Pa Fc Ty Ch Fu Np Fi T M.
  assert (exists w1, chdir_parent w p = Ok w1 /\ same_disk w w1) as (w1 & Cd & Sd).
  { unfold chdir_parent. destruct (components p) as [|c cs]; [contradiction|]. cbv zeta.
    destruct (_ && _); eexists; (split; [reflexivity|split; reflexivity]). }
  assert (exists l accounts, from_file (x_fuel x) (x_today x) p w = Ok (l, w1) /\ so_far (x_today x) accounts es l) as (l & accounts & Ff & S).
  { unfold from_file. destruct (x_fuel x) as [|n]; [lia|]. cbn [add_from_file snd]. unfold read_file. rewrite Fi. cbn [bind]. rewrite Cd. cbn [bind fst].
    exact (text_read (x_today x) (add_from_file n (x_today x)) text es p w1 T). }
  exact (register_loaded x args f w p l w1 accounts es Pa Fc Ty Ch Ff Sd S (typed_years _ _ _ T) M).
Qed.
Print Assumptions C135_register.

(** It is enough that all numbers together are not too large. *)
Lemma assets_together es : Z.of_nat (List.length (all_basis es)) * Z.max 1 (Zsum (map Z.abs (all_basis es))) <= 2 ^ 46 -> modest_assets es.
Proof.
  intros H sym. cbv zeta.
  assert (Z.of_nat (List.length (numbers sym es)) <= Z.of_nat (List.length (all_basis es))
    /\ Zsum (map Z.abs (numbers sym es)) <= Zsum (map Z.abs (all_basis es))) as [A B]; [|unfold numbers in *; nia].
  clear H. unfold numbers, all_basis. induction es as [|e es [A B]]; [split; reflexivity|]. cbn [flat_map]. rewrite !app_length, !map_app, !Zsum_split.
  enough (Z.of_nat (List.length (of_assets basis sym e)) <= Z.of_nat (List.length (flat_map (basis (snd e)) (snd e)))
    /\ Zsum (map Z.abs (of_assets basis sym e)) <= Zsum (map Z.abs (flat_map (basis (snd e)) (snd e)))) by lia.
  clear. unfold of_assets. assert (forall ps l, Z.of_nat (List.length (flat_map (basis ps) (filter (on_assets sym ps) l))) <= Z.of_nat (List.length (flat_map (basis ps) l))
    /\ Zsum (map Z.abs (flat_map (basis ps) (filter (on_assets sym ps) l))) <= Zsum (map Z.abs (flat_map (basis ps) l))) as K; [|apply K].
  intros ps l. induction l as [|p l [A B]]; [split; reflexivity|]. cbn [filter flat_map].
  pose proof (abs_nonneg (basis ps p)). destruct (on_assets _ _ p); cbn [flat_map]; rewrite !app_length, !map_app, !Zsum_split; lia.
Qed.
(** The journal of C133, which does not stand in the order of its dates. *)
Example C135_case : modest_assets typed_case
  /\ map (change None) (rev typed_case) = [[10050000000]; [-1225000000]]
  /\ map (change (Some (lit "$"))) (rev typed_case) = [[700000000]; []]
  /\ shown_by ["r"]%string (world_of [(j, typed_text)] [[]] []) = map lit
      ["2024/02/01 * opening       equity -> assets:cash   100.5   100.5";
       "                                                     $ 7     $ 7";
       "2024/02/05 ~ market   assets:cash -> food         -12.25   88.25"]%string.
Proof.
  split; [apply assets_together; vm_compute; discriminate|]. split; [vm_compute; reflexivity|]. split; [vm_compute; reflexivity|]. vm_compute. reflexivity.
Qed.
