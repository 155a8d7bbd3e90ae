(** C133: from the typed journal to the printed balances. *)
From Coq Require Import ZArith NArith List Bool Ascii String Reals Lia Lra Permutation Sorted.
From Verif Require Import Base Str F64 Date World Amount Posting Entry Envelope Account Register Ledger Importer Cli
  SpecAmount SpecDate SpecEntry SpecEnvelope SpecLedger SpecReport SpecTotals SpecCli SpecRun SpecTyped
  StrFacts F64Facts AmountFacts EntryFacts LedgerFacts OrderFacts DecimalFacts TypedFacts PropertiesLedger PropertiesReport PropertiesTotals PropertiesCli PropertiesRun PropertiesFrame.
Import ListNotations.
Local Open Scope Z_scope.

(** ** Sums *)
Lemma Zsum_split a b : Zsum (a ++ b) = Zsum a + Zsum b.
Proof. unfold Zsum. induction a as [|x a IH]; [reflexivity|]. cbn [app fold_right]. rewrite IH. lia. Qed.
Lemma abs_sum zs : Z.abs (Zsum zs) <= Zsum (map Z.abs zs).
Proof. induction zs as [|z zs IH]; [reflexivity|]. unfold Zsum in *. cbn [map fold_right]. lia. Qed.
Lemma abs_nonneg zs : 0 <= Zsum (map Z.abs zs).
Proof. pose proof (abs_sum zs). lia. Qed.
Lemma abs_within m zs : Zsum (map Z.abs zs) <= m -> sums_within m zs.
Proof.
  unfold sums_within. intro H. assert (forall acc, Z.abs acc + Zsum (map Z.abs zs) <= m -> Forall (fun s => Z.abs s <= m) (partial_sums acc zs)) as K.
  { clear H. induction zs as [|z zs IH]; intros acc H; [constructor|]. unfold Zsum in *. cbn [map fold_right partial_sums] in *.
    pose proof (abs_nonneg zs) as P. unfold Zsum in P. constructor; [lia|apply IH; lia]. }
  apply K. lia.
Qed.
Lemma moved_basis ps p : Z.abs (fst (moved ps p)) <= Zsum (map Z.abs (basis ps p)).
Proof.
  unfold moved, basis. destruct (t_amount p) as [x|]; [unfold Zsum; cbn; lia|]. cbn [fst]. rewrite Z.abs_opp. apply abs_sum.
Qed.
Lemma moves_behind es name sym : Zsum (map Z.abs (moves es name sym)) <= Zsum (map Z.abs (behind es name sym)).
Proof.
  unfold moves, behind. induction es as [|e es IH]; [reflexivity|]. cbn [flat_map]. rewrite !map_app, !Zsum_split.
  enough (Zsum (map Z.abs (in_entry (fun ps p => [fst (moved ps p)]) name sym e)) <= Zsum (map Z.abs (in_entry basis name sym e))) by lia.
  unfold in_entry. induction (filter _ (snd e)) as [|p l IHl]; [reflexivity|]. cbn [flat_map]. rewrite !map_app, !Zsum_split.
  pose proof (moved_basis (snd e) p). change (Zsum (map Z.abs [fst (moved (snd e) p)])) with (Z.abs (fst (moved (snd e) p)) + 0). lia.
Qed.

(** ** The worth of the postings that were read *)
Lemma exact_app m sym a zs k b ys n : exact_worths m sym a zs k -> exact_worths m sym b ys n -> exact_worths m sym (a ++ b) (zs ++ ys) (k + n).
Proof.
  intros A B. induction A as [|e p ps z zs i k W A IH|e p ps x zs k W N A IH]; [exact B| |]; cbn [app].
  - rewrite <- Nat.add_assoc. apply worths_in; assumption.
  - eapply worths_out; eassumption.
Qed.
Lemma exact_entry m name sym t e : like_entry t e -> complete (snd t) -> Zsum (map Z.abs (in_entry basis name sym t)) <= m ->
  exact_worths m sym (filter (to_account name) (map (pair e) (e_postings e)))
    (in_entry (fun ps p => [fst (moved ps p)]) name sym t) (List.length (in_entry basis name sym t)).
Proof.
  intros L C. pose proof L as (_ & F). pose proof (like_given _ _ F) as G. unfold in_entry.
  assert (forall ps qs, Forall2 like ps qs -> (forall p, In p ps -> In p (snd t)) -> (forall q, In q qs -> In q (e_postings e)) ->
    Zsum (map Z.abs (flat_map (basis (snd t)) (filter (meant name sym (snd t)) ps))) <= m ->
    exact_worths m sym (filter (to_account name) (map (pair e) qs))
      (flat_map (fun p => [fst (moved (snd t) p)]) (filter (meant name sym (snd t)) ps))
      (List.length (flat_map (basis (snd t)) (filter (meant name sym (snd t)) ps)))) as K; [|intro M; apply K; auto].
  induction 1 as [|p q ps qs Lp _ IH]; intros Ip Iq M; [constructor|].
  pose proof Lp as (_ & Ea & A). assert (In p (snd t)) as Ip0 by (apply Ip; left; reflexivity). assert (In q (e_postings e)) as Iq0 by (apply Iq; left; reflexivity).
  cbn [map filter] in *. unfold to_account at 1. cbn [snd]. rewrite Ea.
  assert (meant name sym (snd t) p = if str_dec (t_account p) name then if sym_dec (snd (moved (snd t) p)) sym then true else false else false) as Em by reflexivity.
  rewrite Em in M |- *. clear Em.
  assert (forall p, In p ps -> In p (snd t)) as Ip' by (intros; apply Ip; right; assumption).
  assert (forall q, In q qs -> In q (e_postings e)) as Iq' by (intros; apply Iq; right; assumption).
  destruct (str_dec (t_account p) name) as [En|Nn]; [|apply IH; assumption].
  destruct (sym_dec (snd (moved (snd t) p)) sym) as [Es|Ns].
  - cbn [flat_map] in *. rewrite map_app, Zsum_split in M. rewrite app_length. cbn [app].
    pose proof (abs_nonneg (basis (snd t) p)) as P1. pose proof (abs_nonneg (flat_map (basis (snd t)) (filter (meant name sym (snd t)) ps))) as P2.
    apply worths_in; [|apply IH; [assumption..|lia]].
    unfold moved, basis in *. destruct (t_amount p) as [(z & s)|] eqn:Ep, (get_amount q) as [a|] eqn:Eq; try contradiction.
    + cbn [fst snd] in *. destruct A as [Sa U]. cbn [List.length]. rewrite <- Es, <- Sa. apply exact_written; assumption.
    + destruct (like_inferred t e q L C Iq0 Eq) as (Nw & sm & Sm & Hm). specialize (Hm p Ip0 Ep). unfold moved in Hm. rewrite Ep in Hm.
      cbn [fst snd] in *. rewrite Es in Hm. subst sm. apply exact_inferred; [exact Eq|exact Iq0|exact Nw|exact Sm| |apply abs_within; lia].
      clear - G. induction G as [|x a g w (_ & U) _ IH]; [constructor|]. cbn [map]. constructor; assumption.
  - destruct (like_worth t e q L C Iq0) as (a & Wa). apply (worths_out _ _ _ _ _ a); [exact Wa| |apply IH; assumption].
    intro Sa. apply Ns. unfold moved in *. destruct (t_amount p) as [(z & s)|] eqn:Ep, (get_amount q) as [b|] eqn:Eq; try contradiction.
    + destruct Wa as [Wa|[Wa _]]; [|congruence]. cbn [snd]. destruct A as [A _]. congruence.
    + destruct (like_inferred t e q L C Iq0 Eq) as (Nw & sm & Sm & Hm). specialize (Hm p Ip0 Ep). unfold moved in Hm. rewrite Ep in Hm. rewrite Hm.
      destruct Wa as [Wa|[_ Wa]]; [congruence|]. rewrite (blank_amount_one e sm (ex_intro _ q (conj Iq0 Eq)) Nw Sm) in Wa. injection Wa as <-. exact Sa.
Qed.
Lemma exact_entries m name sym ts es : Forall2 like_entry ts es -> Forall (fun t => complete (snd t)) ts -> Zsum (map Z.abs (behind ts name sym)) <= m ->
  exact_worths m sym (filter (to_account name) (postings es)) (moves ts name sym) (List.length (behind ts name sym)).
Proof.
  unfold behind, moves, postings. induction 1 as [|t e ts es L _ IH]; intros C M; [constructor|]. inversion C as [|? ? C1 C2]; subst.
  cbn [flat_map] in *. rewrite map_app, Zsum_split in M. rewrite filter_app, app_length.
  pose proof (abs_nonneg (in_entry basis name sym t)). pose proof (abs_nonneg (flat_map (in_entry basis name sym) ts)).
  apply exact_app; [apply exact_entry; [exact L|exact C1|lia]|apply IH; [exact C2|lia]].
Qed.

(** ** Whole numbers *)
Lemma whole_units x z : units x (100000000 * z) -> Z.abs z <= 2 ^ 53 -> f64_is x (IZR z).
Proof.
  intros (F & V) B. split; [exact F|]. rewrite V. replace (IZR (100000000 * z) / 100000000)%R with (IZR z) by (rewrite mult_IZR; lra).
  exact (rnd_Z z B).
Qed.
Lemma units_whole x z : f64_is x (IZR z) -> Z.abs z <= 2 ^ 53 -> units x (100000000 * z).
Proof.
  intros (F & V) B. split; [exact F|]. rewrite V. replace (IZR (100000000 * z) / 100000000)%R with (IZR z) by (rewrite mult_IZR; lra).
  symmetry. exact (rnd_Z z B).
Qed.
Lemma whole_list zs : Forall (fun z => (100000000 | z)) zs -> exists ys, zs = map (Z.mul 100000000) ys.
Proof.
  induction 1 as [|z zs (y & ->) _ (ys & ->)]; [exists []; reflexivity|]. exists (y :: ys). cbn [map]. f_equal. lia.
Qed.
Lemma Zsum_whole ys : Zsum (map (Z.mul 100000000) ys) = 100000000 * Zsum ys.
Proof. induction ys as [|y ys IH]; [reflexivity|]. unfold Zsum in *. cbn [map fold_right]. rewrite IH. lia. Qed.
Lemma abs_whole ys : Zsum (map Z.abs (map (Z.mul 100000000) ys)) = 100000000 * Zsum (map Z.abs ys).
Proof. induction ys as [|y ys IH]; [reflexivity|]. unfold Zsum in *. cbn [map fold_right]. rewrite IH. lia. Qed.
Lemma contributions_app sym a b : contributions sym (a ++ b) = contributions sym a ++ contributions sym b.
Proof. apply flat_map_app. Qed.
Definition wholes (sym : option str) (xs : list amount) (zs : list Z) : Prop :=
  exists ys, zs = map (Z.mul 100000000) ys /\ Forall2 (fun x y => f64_is x (IZR y)) (contributions sym (map PAdd xs)) ys.
Lemma wholes_app sym xs zs xs' zs' : wholes sym xs zs -> wholes sym xs' zs' -> wholes sym (xs ++ xs') (zs ++ zs').
Proof.
  intros (ys & -> & F) (ys' & -> & F'). exists (ys ++ ys'). split; [symmetry; apply map_app|]. rewrite map_app, contributions_app. apply Forall2_app; assumption.
Qed.
Lemma worths_app_inv a b xs : worths (a ++ b) xs -> exists x y, xs = x ++ y /\ worths a x /\ worths b y.
Proof. intro H. apply Forall2_app_inv_l in H as (x & y & A & B & ->). exists x, y. auto. Qed.
Lemma whole_entry name sym t e xs : like_entry t e -> complete (snd t) -> Forall (fun z => (100000000 | z)) (in_entry basis name sym t) ->
  Zsum (map Z.abs (in_entry basis name sym t)) < 2 ^ 51 ->
  worths (filter (to_account name) (map (pair e) (e_postings e))) xs -> wholes sym xs (in_entry (fun ps p => [fst (moved ps p)]) name sym t).
Proof.
  intros L C. pose proof L as (_ & F). pose proof (like_given _ _ F) as G. unfold in_entry.
  assert (forall ps qs, Forall2 like ps qs -> (forall p, In p ps -> In p (snd t)) -> (forall q, In q qs -> In q (e_postings e)) ->
    Forall (fun z => (100000000 | z)) (flat_map (basis (snd t)) (filter (meant name sym (snd t)) ps)) ->
    Zsum (map Z.abs (flat_map (basis (snd t)) (filter (meant name sym (snd t)) ps))) < 2 ^ 51 ->
    forall xs, worths (filter (to_account name) (map (pair e) qs)) xs ->
    wholes sym xs (flat_map (fun p => [fst (moved (snd t) p)]) (filter (meant name sym (snd t)) ps))) as K; [|intros H1 H2 H3; apply (K _ _ F); auto].
  clear xs. induction 1 as [|p q ps qs Lp _ IH]; intros Ip Iq D M xs W; [inversion W; subst; exists []; split; constructor|].
  pose proof Lp as (_ & Ea & A). assert (In p (snd t)) as Ip0 by (apply Ip; left; reflexivity). assert (In q (e_postings e)) as Iq0 by (apply Iq; left; reflexivity).
  cbn [map filter] in *. unfold to_account at 1 in W. cbn [snd] in W. rewrite Ea in W.
  assert (meant name sym (snd t) p = if str_dec (t_account p) name then if sym_dec (snd (moved (snd t) p)) sym then true else false else false) as Em by reflexivity.
  rewrite Em in M, D |- *. clear Em.
  assert (forall p, In p ps -> In p (snd t)) as Ip' by (intros; apply Ip; right; assumption).
  assert (forall q, In q qs -> In q (e_postings e)) as Iq' by (intros; apply Iq; right; assumption).
  destruct (str_dec (t_account p) name) as [En|Nn]; [|apply IH; assumption].
  inversion W as [|? a ? xs' Wa W']; subst. cbn [fst snd] in Wa.
  assert (symbol a = snd (moved (snd t) p)) as Sa.
  { unfold moved. destruct (t_amount p) as [(z & s)|] eqn:Ep, (get_amount q) as [b|] eqn:Eq; try contradiction.
    - destruct Wa as [Wa|[Wa _]]; [|congruence]. rewrite Eq in Wa. injection Wa as <-. apply A.
    - destruct (like_inferred t e q L C Iq0 Eq) as (Nw & sm & Sm & Hm). specialize (Hm p Ip0 Ep). unfold moved in Hm. rewrite Ep in Hm. rewrite Hm.
      destruct Wa as [Wa|[_ Wa]]; [congruence|]. rewrite (blank_amount_one e sm (ex_intro _ q (conj Iq0 Eq)) Nw Sm) in Wa. injection Wa as <-. reflexivity. }
  destruct (sym_dec (snd (moved (snd t) p)) sym) as [Es|Ns].
  - cbn [flat_map] in *. rewrite map_app, Zsum_split in M. apply Forall_app in D as [D1 D2].
    pose proof (abs_nonneg (basis (snd t) p)) as P1. pose proof (abs_nonneg (flat_map (basis (snd t)) (filter (meant (t_account p) sym (snd t)) ps))) as P2.
    apply (wholes_app sym [a] _ xs' _); [|apply IH; [assumption|assumption|assumption|lia|assumption]].
    destruct (whole_list _ D1) as (ys & Ey). rewrite Ey, abs_whole in M, P1. unfold wholes, contributions. cbn [map flat_map contribution].
    destruct (sym_dec (symbol a) sym) as [_|Q]; [|exfalso; apply Q; congruence]. cbn [app].
    unfold moved, basis in Ey |- *. destruct (t_amount p) as [(z & s)|] eqn:Ep, (get_amount q) as [b|] eqn:Eq; try contradiction.
    + destruct Wa as [Wa|[Wa _]]; [|congruence]. rewrite Eq in Wa. injection Wa as <-. destruct ys as [|y [|]]; try discriminate. assert (z = 100000000 * y) as Ez by exact (f_equal (hd 0) Ey).
      exists [y]. split; [rewrite Ez; reflexivity|]. constructor; [|constructor]. apply whole_units; [rewrite <- Ez; apply A|]. change (Zsum (map Z.abs [y])) with (Z.abs y + 0) in M. lia.
    + destruct (like_inferred t e q L C Iq0 Eq) as (Nw & sm & Sm & Hm).
      assert (Forall2 (fun a z => f64_is (mag a) (IZR z)) (written (e_postings e)) ys) as Fy.
      { assert (forall z, In z ys -> Z.abs z <= 2 ^ 53) as B.
        { intros z Iz. assert (Z.abs z <= Zsum (map Z.abs ys)) as Q.
          { clear - Iz. induction ys as [|y ys IH]; [destruct Iz|]. pose proof (abs_nonneg ys) as P. unfold Zsum in *. cbn [map fold_right]. destruct Iz as [->|Iz]; [lia|]. specialize (IH Iz). lia. }
          lia. }
        clear - G Ey B. revert ys Ey B. induction G as [|x a g w (_ & U) _ IH]; intros ys Ey B; destruct ys as [|y ys]; try discriminate; constructor.
        - assert (fst x = 100000000 * y) as Ez by exact (f_equal (hd 0) Ey). apply whole_units; [rewrite <- Ez; exact U|apply B; left; reflexivity].
        - apply IH; [exact (f_equal (@tl Z) Ey)|intros; apply B; right; assumption]. }
      destruct (blank_amount_whole e sm ys (ex_intro _ q (conj Iq0 Eq)) Nw Sm Fy) as (b & Eb & _ & Vb).
      { apply (abs_within (2 ^ 53)). lia. }
      destruct Wa as [Wa|[_ Wa]]; [congruence|]. rewrite Eb in Wa. injection Wa as <-. exists [- Zsum ys]. cbn [fst map].
      split; [rewrite Ey, Zsum_whole; f_equal; lia|]. constructor; [exact Vb|constructor].
  - change (wholes sym ([a] ++ xs') ([] ++ flat_map (fun p => [fst (moved (snd t) p)]) (filter (meant (t_account p) sym (snd t)) ps))).
    apply wholes_app; [|apply IH; assumption]. exists []. split; [reflexivity|]. unfold contributions. cbn [map flat_map contribution].
    destruct (sym_dec (symbol a) sym) as [Q|_]; [exfalso; apply Ns; congruence|constructor].
Qed.
Lemma whole_entries name sym ts es : Forall2 like_entry ts es -> Forall (fun t => complete (snd t)) ts ->
  Forall (fun z => (100000000 | z)) (behind ts name sym) -> Zsum (map Z.abs (behind ts name sym)) < 2 ^ 51 ->
  forall xs, worths (filter (to_account name) (postings es)) xs -> wholes sym xs (moves ts name sym).
Proof.
  unfold behind, moves, postings. induction 1 as [|t e ts es L _ IH]; intros C D M xs W; [inversion W; subst; exists []; split; constructor|].
  inversion C as [|? ? C1 C2]; subst. cbn [flat_map] in *. rewrite map_app, Zsum_split in M. apply Forall_app in D as [D1 D2].
  pose proof (abs_nonneg (in_entry basis name sym t)). pose proof (abs_nonneg (flat_map (in_entry basis name sym) ts)).
  rewrite filter_app in W. apply worths_app_inv in W as (x & y & -> & Wx & Wy).
  apply wholes_app; [apply (whole_entry name sym t e x L C1 D1 ltac:(lia) Wx)|apply IH; [exact C2|exact D2|lia|exact Wy]].
Qed.

(** ** The first posting for an account *)
Lemma first_earliest name es : StronglySorted before es -> forall x rest, filter (to_account name) (postings es) = x :: rest ->
  forall y, In y (x :: rest) -> not_later (e_date (fst x)) (e_date (fst y)).
Proof.
  induction 1 as [|e es S IH F]; intros x rest E y I; [discriminate|]. unfold postings in *. cbn [flat_map] in E. rewrite filter_app in E.
  assert (forall z, In z (filter (to_account name) (map (pair e) (e_postings e))) -> fst z = e) as K.
  { intros z Iz. apply filter_In in Iz as [Iz _]. apply in_map_iff in Iz as (q & <- & _). reflexivity. }
  destruct (filter (to_account name) (map (pair e) (e_postings e))) as [|x' r] eqn:Ex; [exact (IH x rest E y I)|].
  cbn [app] in E. injection E as <- <-. rewrite (K x' (or_introl eq_refl)).
  change (x' :: r ++ filter (to_account name) (flat_map (fun e => map (pair e) (e_postings e)) es)) with ((x' :: r) ++ filter (to_account name) (flat_map (fun e => map (pair e) (e_postings e)) es)) in I.
  apply in_app_or in I as [I|I]; [rewrite (K y I); left; reflexivity|].
  apply filter_In in I as [I _]. apply in_flat_map in I as (e' & Ie & I). apply in_map_iff in I as (q & <- & _). cbn [fst].
  rewrite Forall_forall in F. exact (F e' Ie).
Qed.
Lemma earlier_not x y : earlier x y -> ~ not_later y x.
Proof. unfold not_later, earlier. intros H [->|K]; lia. Qed.
Lemma like_posting ts es : Forall2 like_entry ts es ->
  (forall e q, In e es -> In q (e_postings e) -> exists t p, In t ts /\ In p (snd t) /\ like p q /\ fst t = e_date e)
  /\ (forall t p, In t ts -> In p (snd t) -> exists e q, In e es /\ In q (e_postings e) /\ like p q /\ fst t = e_date e).
Proof.
  intro F. split.
  - intros e q Ie Iq. destruct (AccountFacts.Forall2_In_r _ _ _ e F Ie) as (t & It & D & L).
    destruct (AccountFacts.Forall2_In_r _ _ _ q L Iq) as (p & Ip & K). exists t, p. auto.
  - intros t p It Ip. destruct (AccountFacts.Forall2_In_l _ _ _ t F It) as (e & Ie & D & L).
    destruct (AccountFacts.Forall2_In_l _ _ _ p L Ip) as (q & Iq & K). exists e, q. auto.
Qed.
Lemma opened_first name ts es x rest : Forall2 like_entry ts es -> opened ts -> StronglySorted before es ->
  filter (to_account name) (postings es) = x :: rest -> get_amount (snd x) <> None.
Proof.
  intros L O S E A. destruct (like_posting ts es L) as [K1 K2].
  assert (forall y, In y (x :: rest) <-> In y (postings es) /\ get_account (snd y) = name) as Iy.
  { intro y. rewrite <- E, filter_In. unfold to_account. destruct (str_dec (get_account (snd y)) name); split; intros [? ?]; split; auto; discriminate. }
  destruct (proj1 (Iy x) (or_introl eq_refl)) as [Ix Nx]. destruct x as [e q]. cbn [snd] in *. apply In_postings in Ix as [Ie Iq].
  destruct (K1 e q Ie Iq) as (t & p & It & Ip & (_ & Ac & Am) & D). rewrite A in Am. destruct (t_amount p) as [(z & s)|] eqn:Ep; [contradiction|].
  destruct (O t p It Ip Ep) as (t' & p' & It' & Ip' & Ac' & Am' & Ea).
  destruct (K2 t' p' It' Ip') as (e' & q' & Ie' & Iq' & (_ & Bc & _) & D').
  assert (In (e', q') ((e, q) :: rest)) as I by (apply Iy; split; [apply In_postings; auto|cbn [snd]; congruence]).
  apply (earlier_not _ _ Ea). rewrite D, D'. exact (first_earliest name es S _ _ E _ I).
Qed.

(** ** The report *)
Lemma exact_none m sym ps k ys : exact_worths m sym ps [] k -> worths ps ys -> ~ In sym (map symbol ys).
Proof.
  intro E. remember [] as zs eqn:Ez. revert Ez ys. induction E as [|e p ps z zs n k H E IH|e p ps b zs k Wb Nb E IH]; intros Ez ys W; [inversion W; intros []|discriminate|].
  inversion W as [|? a ? ys' Wa W']; subst. cbn [map fst snd] in *. rewrite (worth_unique _ _ _ _ Wa Wb). intros [Q|I]; [contradiction|exact (IH eq_refl ys' W' I)].
Qed.
Lemma exact_currency m sym ps zs k ys : exact_worths m sym ps zs k -> worths ps ys -> (In sym (map symbol ys) <-> zs <> []).
Proof.
  intros E W. split.
  - intros I ->. exact (exact_none m sym ps k ys E W I).
  - intro N. pose proof (exact_some m sym ps zs k ys E W N) as C. destruct (in_dec sym_dec sym (map symbol ys)) as [I|I]; [exact I|]. exfalso. apply C.
    clear - I. unfold contributions. induction ys as [|y ys IH]; [reflexivity|]. cbn [map flat_map contribution In] in *.
    destruct (sym_dec (symbol y) sym); [tauto|]. apply IH. tauto.
Qed.
Lemma row_shown name sym ts es ys : Forall2 like_entry ts es -> Forall (fun t => complete (snd t)) ts -> modest_sums ts ->
  worths (filter (to_account name) (postings es)) ys ->
  (In sym (map symbol ys) <-> moves ts name sym <> [])
  /\ (moves ts name sym <> [] -> total_shown (show_amount (pool_only (sum_up ys) sym)) (Zsum (moves ts name sym)) sym).
Proof.
  intros L C M W. set (zs := behind ts name sym) in *.
  assert (exact_worths (Z.max 1 (Zsum (map Z.abs zs))) sym (filter (to_account name) (postings es)) (moves ts name sym) (List.length zs)) as E
    by (apply exact_entries; [exact L|exact C|fold zs; lia]).
  split; [exact (exact_currency _ _ _ _ _ _ E W)|]. intro N. destruct (M name sym) as [B|[D B]]; fold zs in B |- *.
  - refine (total_only _ _ _ _ _ _ _ E W _ N B); [lia|]. apply abs_within. pose proof (moves_behind ts name sym). fold zs in H. lia.
  - rewrite sum_up_only by (eapply exact_some; eassumption).
    destruct (whole_entries name sym ts es L C D B ys W) as (ws & Ew & F).
    pose proof (moves_behind ts name sym) as Mb. fold zs in Mb. rewrite Ew, abs_whole in Mb. pose proof (abs_sum ws) as As. pose proof (abs_nonneg ws) as An.
    assert (f64_is (left_sum (contributions sym (map PAdd ys))) (IZR (Zsum ws))) as V by (apply left_sum_int; [exact F|apply (abs_within (2 ^ 53)); lia]).
    rewrite Ew, Zsum_whole. assert (U := units_whole _ _ V ltac:(lia)).
    apply (show_within _ _ _ sym (units_within _ _ U)); lia.
Qed.
Lemma simple_fill today l : simple l -> fill_postings today l = Ok [].
Proof.
  unfold simple, fill_postings. intro S. assert (exists pss, map_res (fun ka => filling_postings today (snd ka)) (l_accounts l) = Ok pss /\ List.concat pss = []) as (pss & -> & E).
  { induction (l_accounts l) as [|(k & a) m IH]; [exists []; split; reflexivity|]. destruct IH as (pss & E & Cn); [intros; eapply S; right; eassumption|].
    destruct (S k a (or_introl eq_refl)) as [Ex Go]. exists ([] :: pss). cbn [map_res snd]. unfold filling_postings at 1, all_envelopes. rewrite Ex, Go. cbn [app rev fold_res bind].
    rewrite E. split; [reflexivity|exact Cn]. }
  cbn [bind]. rewrite E. reflexivity.
Qed.
Lemma amount_list pl : amounts_text pl = match map snd (map (fun a => (symbol a, show_amount a)) pl) with [t] => t | ts => flat_map (fun t => [10%N; 9%N] ++ t) ts end.
Proof.
  rewrite map_map. cbn [snd]. assert (flat_map (fun a => [10%N; 9%N] ++ show_amount a) pl = flat_map (fun t => [10%N; 9%N] ++ t) (map (fun a => show_amount a) pl)) as E
    by (rewrite !flat_map_concat_map, map_map; reflexivity).
  unfold amounts_text. destruct pl as [|a [|b pl]]; [reflexivity..|exact E].
Qed.

Lemma Forall2_turn {A B} (R : A -> B -> Prop) l m : Forall2 R l m -> Forall2 (fun b a => R a b) m l.
Proof. induction 1; constructor; assumption. Qed.

(** What is printed once the journal is read. *)
Lemma balances_loaded x args f w p l w1 accounts es :
  parse_args args = Some (Ok f) -> f_cmd f = Balance -> chosen x f p ->
  from_file (x_fuel x) (x_today x) p w = Ok (l, w1) -> same_disk w w1 -> so_far (x_today x) accounts es l ->
  opened es -> modest_sums es ->
  o_res (main x args w) = Ok tt /\ same_disk w (o_world (main x args w))
  /\ exists rows, o_out (main x args w) = flat_map row_text rows /\ in_order (map fst rows)
  /\ (forall name, In name (map fst rows) <-> named_in es name)
  /\ (forall name ts, In (name, ts) rows -> NoDup (map fst ts)
       /\ (forall sym, In sym (map fst ts) <-> moves es name sym <> [])
       /\ (forall sym t, In (sym, t) ts -> total_shown t (Zsum (moves es name sym)) sym)).
Proof.
  intros Pa Fc Ch Ff Sd S O M.
  destruct S as (fs & B & L & C & _ & _ & Si). destruct (built_entries _ _ _ B) as (Pe & So & _).
  assert (exists ts, Permutation es ts /\ Forall2 like_entry ts (l_entries l)) as (ts & Pt & Lt).
  { destruct (Permutation_Forall2 Pe (Forall2_turn _ _ _ L)) as (ts & Pt & Ft). exists ts. split; [exact Pt|]. apply Forall2_turn in Ft. exact Ft. }
  assert (Forall (fun t => complete (snd t)) ts) as Ct by (rewrite Forall_forall in *; intros t It; apply C; apply (Permutation_in _ (Permutation_sym Pt) It)).
  assert (forall name sym, Permutation (moves es name sym) (moves ts name sym) /\ Permutation (behind es name sym) (behind ts name sym)) as Pm
    by (intros; split; apply Permutation_flat_map, Pt).
  assert (modest_sums ts) as Mt.
  { intros name sym. destruct (Pm name sym) as [_ P]. cbv zeta. rewrite <- (Permutation_length P), <- (Zsum_perm _ _ (Permutation_map Z.abs P)).
    destruct (M name sym) as [H|[D H]]; [left; exact H|right]. split; [|exact H]. rewrite Forall_forall in *. intros z I. apply D, (Permutation_in _ (Permutation_sym P) I). }
  assert (opened ts) as Ot.
  { intros e q Ie Iq A. destruct (O e q (Permutation_in _ (Permutation_sym Pt) Ie) Iq A) as (e' & p' & I' & H). exists e', p'. split; [apply (Permutation_in _ Pt I')|exact H]. }
  destruct (like_posting ts (l_entries l) Lt) as [K1 K2].
  destruct (C71_shown l) as (t & St).
  { intros e q Ie Iq. destruct (AccountFacts.Forall2_In_r _ _ _ e Lt Ie) as (t & It & Le). rewrite Forall_forall in Ct. exact (like_worth t e q Le (Ct t It) Iq). }
  assert (ready x f w l w1) as R.
  { destruct (f_no_move f) eqn:Nm; [eapply ready_still; eassumption|]. eapply ready_filled; [exact Ch|exact Ff|exact Nm|].
    unfold fill_envelopes. rewrite (simple_fill _ l Si). reflexivity. }
  rewrite (C76_printed x args f w l w1 t Pa R) by (rewrite Fc; exact St). cbn [o_res o_world o_out].
  split; [reflexivity|]. split; [exact Sd|]. destruct (C71_balance l t St) as (rows & A1 & A2 & A3 & ->).
  exists (map (fun r => (fst r, map (fun a => (symbol a, show_amount a)) (snd r))) rows).
  assert (map fst (map (fun r : str * list amount => (fst r, map (fun a => (symbol a, show_amount a)) (snd r))) rows) = map fst rows) as Er by (rewrite map_map; reflexivity).
  rewrite Er. split; [|split; [exact A1|split]].
  - clear. induction rows as [|r rows IH]; [reflexivity|]. cbn [map flat_map]. rewrite IH. f_equal. unfold balance_line, row_text. cbn [fst snd]. rewrite amount_list. reflexivity.
  - intro name. rewrite A2. split.
    + intros (e & q & Ie & Iq & E). destruct (K1 e q Ie Iq) as (u & p' & Iu & Ip & (_ & Ac & _) & _). exists u, p'.
      split; [apply (Permutation_in _ (Permutation_sym Pt) Iu)|]. split; [exact Ip|congruence].
    + intros (u & p' & Iu & Ip & E). destruct (K2 u p' (Permutation_in _ Pt Iu) Ip) as (e & q & Ie & Iq & (_ & Ac & _) & _). exists e, q. split; [exact Ie|]. split; [exact Iq|congruence].
  - intros name us I. apply in_map_iff in I as ((n & pl) & E & I). cbn [fst snd] in E. injection E as -> <-.
    destruct (A3 name pl I) as (y & rest & xs & Ef & W & ->).
    pose proof (opened_first name ts (l_entries l) y rest Lt Ot So Ef) as Ny. destruct (get_amount (snd y)) as [a|] eqn:Ea; [|contradiction].
    assert (worths (filter (to_account name) (postings (l_entries l))) (a :: xs)) as W' by (rewrite Ef; constructor; [left; exact Ea|exact W]).
    rewrite <- sum_up_totals, map_map. cbn [fst].
    assert (map (fun x0 => symbol x0) (sum_up (a :: xs)) = nub (map symbol (a :: xs))) as Sn by apply sum_up_symbols.
    assert (NoDup (map symbol (sum_up (a :: xs)))) as Nd by (rewrite sum_up_symbols; apply nub_NoDup).
    assert (forall sym, moves es name sym <> [] <-> moves ts name sym <> []) as Nm.
    { intro sym. destruct (Pm name sym) as [P _]. split; intros N Q; apply N; [rewrite Q in P; apply Permutation_nil, Permutation_sym, P|rewrite Q in P; apply Permutation_nil, P]. }
    split; [exact Nd|]. split.
    + intro sym. rewrite Sn, nub_In, Nm. apply (row_shown name sym ts (l_entries l) (a :: xs) Lt Ct Mt W').
    + intros sym u Iu. apply in_map_iff in Iu as (b & Eb & Ib). injection Eb as <- <-.
      destruct (row_shown name (symbol b) ts (l_entries l) (a :: xs) Lt Ct Mt W') as [Rc Rs].
      assert (moves ts name (symbol b) <> []) as N by (apply Rc; rewrite <- nub_In, <- Sn; apply in_map, Ib).
      specialize (Rs N). rewrite (Zsum_perm _ _ (proj1 (Pm name (symbol b)))).
      rewrite pool_only_find in Rs. rewrite (pool_find_NoDup _ Nd b Ib) in Rs. exact Rs.
Qed.

(** What [silverfox balance] prints for a typed journal: the sums of the numbers
    that stand there, for each account and currency. *)
Theorem C133_balances : forall x args f w p text es,
  parse_args args = Some (Ok f) -> f_cmd f = Balance -> chosen x f p -> (0 < x_fuel x)%nat ->
  components p <> [] -> files w (resolve w p) = Some text ->
  typed_journal text es -> opened es -> modest_sums es ->
  o_res (main x args w) = Ok tt /\ same_disk w (o_world (main x args w))
  /\ exists rows, o_out (main x args w) = flat_map row_text rows /\ in_order (map fst rows)
  /\ (forall name, In name (map fst rows) <-> named_in es name)
  /\ (forall name ts, In (name, ts) rows -> NoDup (map fst ts)
       /\ (forall sym, In sym (map fst ts) <-> moves es name sym <> [])
       /\ (forall sym t, In (sym, t) ts -> total_shown t (Zsum (moves es name sym)) sym)).
Proof.
  intros x args f w p text es Pa Fc Ch Fu Np Fi T O M.
  assert (exists w1, chdir_parent w p = Ok w1 /\ same_disk w w1) as (w1 & Cd & Sd).
  { unfold chdir_parent. destruct (components p) as [|c cs]; [contradiction|]. cbv zeta.
    destruct (_ && _); eexists; (split; [reflexivity|split; reflexivity]). }
  assert (exists l accounts, from_file (x_fuel x) (x_today x) p w = Ok (l, w1) /\ so_far (x_today x) accounts es l) as (l & accounts & Ff & S).
  { unfold from_file. destruct (x_fuel x) as [|n]; [lia|]. cbn [add_from_file snd]. unfold read_file. rewrite Fi. cbn [bind]. rewrite Cd. cbn [bind fst].
    exact (text_read (x_today x) (add_from_file n (x_today x)) text es p w1 T). }
  exact (balances_loaded x args f w p l w1 accounts es Pa Fc Ch Ff Sd S O M).
Qed.
Print Assumptions C133_balances.

(** It is enough that all numbers together are not too large. *)
Definition all_basis (es : list typed_entry) : list Z := flat_map (fun e => flat_map (basis (snd e)) (snd e)) es.
Lemma modest_together es : Z.of_nat (List.length (all_basis es)) * Z.max 1 (Zsum (map Z.abs (all_basis es))) <= 2 ^ 47 -> modest_sums es.
Proof.
  intros H name sym. left. cbv zeta.
  assert (Z.of_nat (List.length (behind es name sym)) <= Z.of_nat (List.length (all_basis es))
    /\ Zsum (map Z.abs (behind es name sym)) <= Zsum (map Z.abs (all_basis es))) as [A B]; [|nia].
  clear H. unfold behind, all_basis. induction es as [|e es [A B]]; [split; reflexivity|]. cbn [flat_map]. rewrite !app_length, !map_app, !Zsum_split.
  enough (Z.of_nat (List.length (in_entry basis name sym e)) <= Z.of_nat (List.length (flat_map (basis (snd e)) (snd e)))
    /\ Zsum (map Z.abs (in_entry basis name sym e)) <= Zsum (map Z.abs (flat_map (basis (snd e)) (snd e)))) by lia.
  clear. unfold in_entry. assert (forall ps l, Z.of_nat (List.length (flat_map (basis ps) (filter (meant name sym ps) l))) <= Z.of_nat (List.length (flat_map (basis ps) l))
    /\ Zsum (map Z.abs (flat_map (basis ps) (filter (meant name sym ps) l))) <= Zsum (map Z.abs (flat_map (basis ps) l))) as K; [|apply K].
  intros ps l. induction l as [|p l [A B]]; [split; reflexivity|]. cbn [filter flat_map].
  pose proof (abs_nonneg (basis ps p)). destruct (meant _ _ _ p); cbn [flat_map]; rewrite !app_length, !map_app, !Zsum_split; lia.
Qed.
Local Notation D y m d := (mkDate y m d eq_refl).
Definition purse : str := lit "assets:cash".
Definition typed_text : str := text ["account assets:cash ; the purse"; "account equity"; "account food"; ""; "// the start";
  "2024/02/05 ~ market // of the town"; "   food   12.25"; " assets:cash   ; the rest"; "";
  "2024/02/01 * opening"; "  assets:cash  100.5"; "  food 0"; "  equity   -100.5"; "  assets:cash  $7 // coins"; "  equity  -7 $"]%string.
Definition typed_case : list typed_entry :=
  [(D 2024 2 5, [mkTyped (lit "food") (Some (1225000000, None)); mkTyped purse None]);
   (D 2024 2 1, [mkTyped purse (Some (10050000000, None)); mkTyped (lit "food") (Some (0, None)); mkTyped (lit "equity") (Some (-10050000000, None));
      mkTyped purse (Some (700000000, Some (lit "$"))); mkTyped (lit "equity") (Some (-700000000, Some (lit "$")))])].
Local Ltac far := let E := fresh in let W := fresh in intros (? & ? & E & W); injection E as <- _; discriminate W.
Local Ltac near := eexists _, _; split; [reflexivity|reflexivity].
Local Ltac digits := repeat (constructor; [vm_compute; split; discriminate|]); constructor.
Local Ltac number n i f way := exists (lit n ++ lit i ++ lit f); exists (match n with EmptyString => false | _ => true end), (lit i), (lit (match f with EmptyString => EmptyString | String _ r => r end));
  split; [split; [digits|split; [digits|split; [discriminate|exists (lit i ++ lit f); split; [reflexivity|cbn; tauto]]]]|
  split; [unfold decimal_value; vm_compute (number_of _); vm_compute (10 ^ _); cbn; lra|split; [reflexivity|way]]].
Local Ltac line way := split; [near|split; [cbn; tauto|split; [discriminate|eexists; split; [vm_compute; reflexivity|way]]]].
Lemma dollar_plain : plain_symbol (Some (lit "$")) /\ ~ op_token (lit "$").
Proof.
  split; [split; [split; [discriminate|constructor; [unfold blank_char; vm_compute; intuition discriminate|constructor]]|]|intros [A|[A|[A|A]]]; discriminate A].
  constructor; [|constructor]. split; [intros [A B]; apply A; reflexivity|]. repeat split; discriminate.
Qed.
Local Ltac dollar := split; [cbn; tauto|exact dollar_plain].
Local Ltac head st := split; [far|split; [split; [discriminate|reflexivity]|exists st; eexists _, _; split; [vm_compute; reflexivity|split; [constructor|]]]];
  repeat (constructor; [let H := fresh in intro H; cbn in H; repeat destruct H as [H|H]; try discriminate H; destruct H|]); constructor.
Example C133_case :
  typed_journal typed_text typed_case /\ opened typed_case /\ modest_sums typed_case
  /\ shown_by ["b"]%string (world_of [(j, typed_text)] [[]] []) = map lit
      ["assets:cash                            "; "	 88.25"; "	$ 7";
       "equity                                 "; "	-100.5"; "	$-7";
       "food                                    12.25"]%string.
Proof.
  split; [|split; [|split]].
  - unfold typed_journal. let c := eval vm_compute in (contents (lines typed_text)) in change (contents (lines typed_text)) with c.
    do 3 (eapply typed_account; [far|vm_compute; reflexivity|]).
    eapply (typed_next _ _ _ [_; _]); [head Cleared|constructor; [line ltac:(number ""%string "12"%string ".25"%string reflexivity)|constructor; [line reflexivity|constructor]]| |].
    { split; [reflexivity|]. intros p _ _. eexists. split; [left; reflexivity|]. intros y [<-|[]]. reflexivity. }
    eapply (typed_next _ _ _ [_; _; _; _; _]); [head Reconciled| | |constructor].
    { constructor; [line ltac:(number ""%string "100"%string ".5"%string reflexivity)|].
      constructor; [line ltac:(number ""%string "0"%string ""%string reflexivity)|].
      constructor; [line ltac:(number "-"%string "100"%string ".5"%string reflexivity)|].
      constructor; [line ltac:(number ""%string "7"%string ""%string ltac:(dollar))|].
      constructor; [line ltac:(number "-"%string "7"%string ""%string ltac:(dollar))|constructor]. }
    split; [vm_compute; lia|]. intros p I N. cbn in I. repeat destruct I as [<-|I]; try discriminate N; destruct I.
  - intros e p [<-|[<-|[]]] I N; repeat destruct I as [<-|I]; try discriminate; try destruct I.
    eexists _, (mkTyped purse (Some (10050000000, None))). split; [right; left; reflexivity|]. split; [left; reflexivity|].
    split; [reflexivity|]. split; [discriminate|]. unfold earlier. cbn. lia.
  - apply modest_together. vm_compute. discriminate.
  - vm_compute. reflexivity.
Qed.
