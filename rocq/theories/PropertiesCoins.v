(** Property C128: the currencies that an entry does not name. *)
From Coq Require Import ZArith NArith List Bool Ascii String Permutation Lia.
From Verif Require Import Base Str F64 Date Amount Posting Entry Envelope Account World Register Ledger Importer Cli
  SpecAmount SpecDate SpecEntry SpecEnvelope SpecLedger SpecInclude SpecUnfold SpecCli SpecCrash SpecReport SpecFrame SpecCoins
  StrFacts AmountFacts EntryFacts EnvelopeFacts AccountFacts LedgerFacts LoadFacts UnfoldFacts ArrangeRun OrderFacts
  PropertiesLedger PropertiesReport PropertiesUnfold PropertiesCli PropertiesFrame.
Import ListNotations.
Local Open Scope list_scope.

(** ** Ledgers in step, for any relation of accounts *)
Section Step.
Variables (today : date) (R : account -> account -> Prop).
Hypothesis R_refl : forall c dsym fmt a, parse_account c dsym fmt = Ok a -> R a a.
Hypothesis R_step : forall e a b a' b', sound a -> sound b -> R a b -> acc_process today a e = Ok a' -> acc_process today b e = Ok b' -> R a' b'.
Definition step (l l' : ledger) : Prop :=
  l_format l' = l_format l /\ (exists es, built today l es) /\ (exists es, built today l' es)
  /\ Forall2 (fun x y => fst x = fst y /\ R (snd x) (snd y)) (l_accounts l) (l_accounts l').
Lemma step_names l l' : step l l' -> account_names l' = account_names l.
Proof. intros (_ & _ & _ & A). unfold account_names. induction A as [|x y la ma [K _] _ IH]; cbn [map]; [reflexivity|]. congruence. Qed.
Lemma built_sound l es : built today l es -> forall k a, In (k, a) (l_accounts l) -> sound a.
Proof. intros B k a I. exact (grown_sound _ _ (built_grown _ _ _ B k a I)). Qed.
Lemma step_entry l l' e m m' : step l l' -> add_entry today l e = Ok m -> add_entry today l' e = Ok m' -> step m m'.
Proof.
  intros (F & (es & B) & (es' & B') & A) H H'. pose proof (add_entry_accounts _ _ _ _ H) as Q. pose proof (add_entry_accounts _ _ _ _ H') as Q'.
  split; [|split; [|split]].
  - unfold add_entry in H, H'. apply bind_Ok in H as (x & _ & H). apply bind_Ok in H' as (x' & _ & H'). injection H as <-. injection H' as <-. exact F.
  - exists (es ++ [e]). exact (built_entry _ _ _ _ _ B H).
  - exists (es' ++ [e]). exact (built_entry _ _ _ _ _ B' H').
  - pose proof (built_sound _ _ B) as S1. pose proof (built_sound _ _ B') as S2. revert Q Q'. generalize (l_accounts m) as ms, (l_accounts m') as ms'. clear H H' B B' F.
    induction A as [|[k a] [k' a'] la la' [K E] _ IH]; intros ms ms' Q Q'; inversion Q as [|? [j b] ? ? [J P] Qs]; inversion Q' as [|? [j' b'] ? ? [J' P'] Qs']; subst; constructor.
    + cbn [fst snd] in *. split; [congruence|]. refine (R_step e a a' b b' (S1 k a (or_introl eq_refl)) (S2 k' a' (or_introl eq_refl)) E P P').
    + apply IH; [intros k1 a1 I1; apply (S1 k1 a1); right; exact I1|intros k1 a1 I1; apply (S2 k1 a1); right; exact I1|exact Qs|exact Qs'].
Qed.
Lemma step_item l l' c m m' : step l l' -> item today l c = Ok m -> item today l' c = Ok m' -> step m m'.
Proof.
  intros St H H'. pose proof (step_names _ _ St) as Nm. pose proof St as (P & (es & B) & (es' & B') & A).
  unfold item, parse_chunk in H, H'. destruct (split_ws c) as [|k rest] eqn:Ec; [injection H as <-; injection H' as <-; exact St|].
  cbv zeta in H, H'. cbn [fst snd] in H, H'.
  destruct (str_eqb k (lit "account")).
  { unfold on_ledger in *. apply bind_Ok in H as (s & H & E). injection E as <-. apply bind_Ok in H' as (s' & H' & E). injection E as <-.
    apply bind_Ok in H as (u & H & E). injection E as <-. apply bind_Ok in H' as (u' & H' & E). injection E as <-. cbn [fst] in *.
    pose proof (built_account _ _ _ _ _ B H) as Bu. pose proof (built_account _ _ _ _ _ B' H') as Bu'.
    unfold ledger_parse_account in H, H'. rewrite P in H'. apply bind_Ok in H as (x & Hx & H). rewrite Hx in H'. cbn [bind] in H'.
    injection H as <-. injection H' as <-. split; [reflexivity|]. split; [exists es; exact Bu|]. split; [exists es'; exact Bu'|]. cbn [l_accounts].
    pose proof (R_refl _ _ _ _ Hx) as Rx. clear -A Rx. induction A as [|[k1 y] [k2 z] la ma [K E] F IH]; cbn [map_insert].
    - constructor; [split; [reflexivity|exact Rx]|constructor].
    - cbn [fst snd] in *. subst k2. destruct (str_eqb k1 (a_name x)); constructor; try exact F; try exact IH; split; try reflexivity; assumption. }
  destruct (str_eqb k (lit "currency")).
  { unfold on_ledger in *. apply bind_Ok in H as (s & H & E). injection E as <-. apply bind_Ok in H' as (s' & H' & E). injection E as <-.
    apply bind_Ok in H as (u & H & E). injection E as <-. apply bind_Ok in H' as (u' & H' & E). injection E as <-. cbn [fst] in *.
    pose proof (built_currency _ _ _ _ _ B H) as Bu. pose proof (built_currency _ _ _ _ _ B' H') as Bu'.
    unfold set_currency in *. destruct (hd_error rest); [|discriminate]. injection H as <-. injection H' as <-.
    split; [exact P|]. split; [exists es; exact Bu|]. split; [exists es'; exact Bu'|exact A]. }
  destruct (str_eqb k (lit "date_format")).
  { unfold on_ledger in *. apply bind_Ok in H as (s & H & E). injection E as <-. apply bind_Ok in H' as (s' & H' & E). injection E as <-.
    apply bind_Ok in H as (u & H & E). injection E as <-. apply bind_Ok in H' as (u' & H' & E). injection E as <-. cbn [fst] in *.
    pose proof (built_format _ _ _ _ _ B H) as Bu. pose proof (built_format _ _ _ _ _ B' H') as Bu'.
    unfold set_date_format in *. destruct (hd_error rest); [|discriminate]. injection H as <-. injection H' as <-.
    split; [reflexivity|]. split; [exists es; exact Bu|]. split; [exists es'; exact Bu'|exact A]. }
  destruct (str_eqb k (lit "include")).
  { destruct (hd_error rest); discriminate. }
  unfold on_ledger in *. apply bind_Ok in H as (s & H & E). injection E as <-. apply bind_Ok in H' as (s' & H' & E). injection E as <-.
  apply bind_Ok in H as (u & H & E). injection E as <-. apply bind_Ok in H' as (u' & H' & E). injection E as <-. cbn [fst] in *.
  unfold ledger_parse_entry in *. rewrite P, Nm in H'. apply bind_Ok in H as (f & Hf & H). rewrite Hf in H'. cbn [bind] in H'.
  exact (step_entry _ _ _ _ _ St H H').
Qed.
Lemma step_items ys : forall l l' m m', step l l' -> items today ys l = Ok m -> items today ys l' = Ok m' -> step m m'.
Proof.
  induction ys as [|c ys IH]; intros l l' m m' F H H'; unfold items in *; cbn [fold_res] in *; [congruence|].
  apply bind_Ok in H as (l1 & H1 & H). apply bind_Ok in H' as (l1' & H1' & H'). exact (IH _ _ _ _ (step_item _ _ _ _ _ F H1 H1') H H').
Qed.
End Step.

(** ** Money of one currency *)
Section Coins.
Variables (today : date) (sym : option str).
Local Notation coins := (only_in sym).
Lemma coins_other p a : symbol a <> sym -> coins (pool_add p a) = coins p.
Proof.
  intro N. unfold pool_add. induction p as [|x p IH]; cbn [pool_update].
  - cbn. destruct (sym_dec (symbol a) sym); [contradiction|reflexivity].
  - destruct (ostr_eqb (symbol x) (symbol a)) eqn:E; cbn [only_in filter symbol].
    + apply ostr_eqb_eq in E. rewrite E. destruct (sym_dec (symbol a) sym); [contradiction|reflexivity].
    + unfold only_in in *. rewrite IH. reflexivity.
Qed.
Lemma coins_in p a : symbol a = sym -> coins (pool_add p a) = pool_add (coins p) a.
Proof.
  intro S. unfold pool_add. rewrite S. induction p as [|x p IH]; unfold only_in in *; cbn [pool_update filter].
  - cbn. rewrite S. destruct (sym_dec sym sym); [reflexivity|contradiction].
  - destruct (ostr_eqb (symbol x) sym) eqn:K; cbn [filter symbol].
    + apply ostr_eqb_eq in K. rewrite K. destruct (sym_dec sym sym); [|contradiction]. cbn [pool_update symbol]. rewrite K, ostr_eqb_refl. reflexivity.
    + destruct (sym_dec (symbol x) sym) as [D|D]; [rewrite (proj2 (ostr_eqb_eq _ _) D) in K; discriminate|]. exact IH.
Qed.
Lemma coins_own p q a : coins p = coins q -> coins (pool_add p a) = coins (pool_add q a).
Proof.
  intro E. destruct (sym_dec (symbol a) sym) as [S|S]; [|rewrite !coins_other by exact S; exact E].
  rewrite !coins_in, E by exact S. reflexivity.
Qed.
Lemma real_own name e : forall ps p q p' q', coins p = coins q -> fold_res (real_step name e) ps p = Ok p' -> fold_res (real_step name e) ps q = Ok q' -> coins p' = coins q'.
Proof.
  induction ps as [|x ps IH]; intros p q p' q' E H H'; cbn [fold_res] in *; [congruence|].
  apply bind_Ok in H as (p1 & H1 & H). apply bind_Ok in H' as (q1 & H1' & H'). refine (IH _ _ _ _ _ H H'). unfold real_step in *.
  destruct (_ && _); [|congruence]. destruct (get_amount x) as [a|]; [injection H1 as <-; injection H1' as <-; apply coins_own, E|].
  apply bind_Ok in H1 as (o & Ho & H1). rewrite Ho in H1'. cbn [bind] in H1'. injection H1 as <-. injection H1' as <-. destruct o; [apply coins_own, E|exact E].
Qed.
Lemma real_other name e : forall ps p p', (forall x a, In x ps -> worth e x a -> symbol a <> sym) -> fold_res (real_step name e) ps p = Ok p' -> coins p' = coins p.
Proof.
  induction ps as [|x ps IH]; intros p p' N H; cbn [fold_res] in *; [congruence|]. apply bind_Ok in H as (p1 & H1 & H).
  rewrite (IH _ _ (fun y a I W => N y a (or_intror I) W) H). unfold real_step in H1. destruct (_ && _); [|congruence].
  destruct (get_amount x) as [a|] eqn:G; [injection H1 as <-; apply coins_other, (N x a); [left; reflexivity|left; exact G]|].
  apply bind_Ok in H1 as ([b|] & Ho & H1); injection H1 as <-; [|reflexivity]. apply coins_other, (N x b); [left; reflexivity|right; split; assumption].
Qed.

(** Envelopes do not look at the day on which they were last used. *)
Lemma day_apply v d0 a d : apply_amount today (set_last v d0) a d = apply_amount today v a d.
Proof.
  unfold apply_amount. cbn [set_last v_now v_next v_freq]. destruct (fltb (mag a) fzero); [destruct (amount_add _ a); reflexivity|].
  destruct (fltb fzero (mag a)); [|reflexivity]. destruct (freq_last today (v_freq v)) as [[l|]| | |]; try reflexivity; cbn [bind]; try destruct (date_ltb d l); destruct (amount_add _ a); reflexivity.
Qed.
Lemma day_process v d0 e w : env_process today v e = Ok w -> exists d1, env_process today (set_last v d0) e = Ok (set_last w d1).
Proof.
  unfold env_process. destruct (has_envelope_posting e).
  - unfold process_manual. generalize (envelope_postings e) as ps. intros ps. revert v d0 w. induction ps as [|p ps IH]; intros v d0 w H; cbn [fold_res] in *.
    + injection H as <-. exists d0. reflexivity.
    + apply bind_Ok in H as (v1 & H1 & H). unfold manual_step at 1. destruct p as [c|ep].
      * injection H1 as <-. exact (IH v d0 w H).
      * cbn [set_last v_account v_name]. unfold manual_step in H1. destruct (_ && _).
        -- rewrite day_apply, H1. cbn [bind]. destruct (IH v1 (v_last v1) w H) as (d1 & E). exists d1. destruct v1. exact E.
        -- injection H1 as <-. cbn [bind]. exact (IH v d0 w H).
  - unfold infer. change (count_self (set_last v d0) (e_postings e)) with (count_self v (e_postings e)).
    change (count_auto (set_last v d0) (e_postings e)) with (count_auto v (e_postings e)). destruct (_ || _); [intro H; injection H as <-; exists d0; reflexivity|].
    intro H. apply bind_Ok in H as ((x & y) & Hs & H).
    replace (fold_res (infer_step (set_last v d0) e) (e_postings e) (mkAmount fzero (symbol (v_amount (set_last v d0))), mkAmount fzero (symbol (v_amount (set_last v d0)))))
      with (fold_res (infer_step v e) (e_postings e) (mkAmount fzero (symbol (v_amount v)), mkAmount fzero (symbol (v_amount v)))) by reflexivity.
    rewrite Hs. cbn [bind]. cbv zeta in *. destruct (negb _); [|injection H as <-; exists d0; reflexivity].
    cbn [set_last v_amount]. rewrite day_apply, H. exists (v_last w). destruct w. reflexivity.
Qed.
Lemma same_day v w : same_but_day v w -> w = set_last v (v_last w).
Proof. intros ((A1 & A2 & A3 & A4 & A5 & A6 & A7 & A8) & N & M). destruct v, w. cbn in *. subst. reflexivity. Qed.
Lemma day_same v d : same_but_day v (set_last v d).
Proof. repeat split. Qed.
Lemma process_own v w e v' w' : same_definition v w /\ (symbol (v_amount v) = sym -> same_but_day v w) ->
  env_process today v e = Ok v' -> env_process today w e = Ok w' -> same_definition v' w' /\ (symbol (v_amount v') = sym -> same_but_day v' w').
Proof.
  intros [D S] H H'. destruct (env_process_inv _ _ _ _ H) as [Dv _]. destruct (env_process_inv _ _ _ _ H') as [Dw _].
  split; [unfold same_definition in *; intuition congruence|]. intro E. assert (symbol (v_amount v) = sym) as E0 by (unfold same_definition in Dv; intuition congruence).
  rewrite (same_day _ _ (S E0)) in H'. destruct (day_process v (v_last w) e v' H) as (d1 & K). rewrite K in H'. injection H' as <-. apply day_same.
Qed.
Lemma apply_other v a d w : in_currency v -> symbol (v_amount v) = sym -> symbol a <> sym -> apply_amount today v a d = Ok w -> same_but_day v w /\ in_currency w.
Proof.
  intros [C1 C2] S N H. unfold apply_amount, amount_add in H. rewrite C1, C2, S in H.
  assert (ostr_eqb sym (symbol a) = false) as Q by (apply not_true_iff_false; intro E; apply ostr_eqb_eq in E; congruence). rewrite Q in H.
  destruct (fltb (mag a) fzero); [discriminate H|]. destruct (fltb fzero (mag a)).
  - destruct (freq_last today (v_freq v)) as [[l|]| | |]; cbn [bind] in H; try discriminate H. destruct (date_ltb d l); discriminate H.
  - injection H as <-. split; [apply day_same|split; assumption].
Qed.
Lemma infer_other v e : symbol (v_amount v) = sym -> (forall x a, In x (e_postings e) -> worth e x a -> symbol a <> sym) ->
  forall ps st st', (forall x, In x ps -> In x (e_postings e)) -> symbol (snd st) = sym -> symbol (fst st) = sym -> fold_res (infer_step v e) ps st = Ok st' ->
  forall x, In x ps -> str_eqb (get_account x) (v_account v) = false.
Proof.
  intros S N. induction ps as [|p ps IH]; intros [au se] st' I Sn Sf H x Ix; [destruct Ix|]. cbn [fold_res] in H. apply bind_Ok in H as ([au1 se1] & H1 & H).
  unfold infer_step in H1. apply bind_Ok in H1 as (a & Ha & H1).
  assert (symbol a <> sym) as Na.
  { unfold infer_amount in Ha. apply bind_Ok in Ha as (b & Hb & Ha).
    assert (worth e p b) as W by (destruct (get_amount p) eqn:G; [injection Hb as <-; left; exact G|]; apply bind_Ok in Hb as ([c|] & Ho & Hb); [injection Hb as <-; right; split; assumption|discriminate Hb]).
    pose proof (N p b (I p (or_introl eq_refl)) W) as Nb. destruct (ostr_eqb (symbol b) _) eqn:K; [apply ostr_eqb_eq in K; congruence|].
    destruct (symbol (v_amount v)); [discriminate Ha|]. destruct (native_value p); [|discriminate Ha]. injection Ha as <-. exact Nb. }
  assert (forall t, symbol t = sym -> amount_add t a = Panic) as Pn.
  { intros t T. unfold amount_add. rewrite T. destruct (ostr_eqb sym (symbol a)) eqn:K; [apply ostr_eqb_eq in K; congruence|reflexivity]. }
  cbn [fst snd] in *. destruct (str_eqb (get_account p) (v_account v)) eqn:K; [rewrite (Pn se Sn) in H1; discriminate H1|].
  destruct (mem _ _); [rewrite (Pn au Sf) in H1; discriminate H1|]. injection H1 as <- <-. destruct Ix as [<-|Ix]; [exact K|].
  exact (IH (au, se) st' (fun y J => I y (or_intror J)) Sn Sf H x Ix).
Qed.
Lemma process_other v e w : in_currency v -> symbol (v_amount v) = sym -> ~ deals_in e sym -> env_process today v e = Ok w -> same_but_day v w.
Proof.
  intros C S D. assert (forall x a, In x (e_postings e) -> worth e x a -> symbol a <> sym) as N by (intros x a I W E; apply D; exists x, a; auto).
  unfold env_process. destruct (has_envelope_posting e).
  - unfold process_manual, envelope_postings. assert (forall ps v w, (forall x, In x ps -> In x (e_postings e)) -> in_currency v -> symbol (v_amount v) = sym ->
      fold_res (manual_step today (e_date e)) (filter is_envelope ps) v = Ok w -> same_but_day v w) as G; [|apply G; auto].
    clear -N. induction ps as [|p ps IH]; intros v w I C S H; cbn [filter fold_res] in H; [injection H as <-; repeat split|].
    destruct (is_envelope p); [|exact (IH v w (fun x J => I x (or_intror J)) C S H)]. cbn [fold_res] in H. apply bind_Ok in H as (u & H1 & H).
    assert (same_but_day v u /\ in_currency u) as [Sd Cu].
    { destruct p as [c|ep]; [injection H1 as <-; repeat split; apply C|]. cbn [manual_step] in H1. destruct (_ && _); [|injection H1 as <-; repeat split; apply C].
      eapply apply_other; [exact C|exact S| |exact H1]. apply (N (EnvPosting ep)); [apply I; left; reflexivity|left; reflexivity]. }
    pose proof Sd as ((D1 & D2 & D3 & D4 & D5 & D6 & D7 & D8) & E1 & E2).
    destruct (IH u w (fun x J => I x (or_intror J)) Cu ltac:(congruence) H) as ((F1 & F2 & F3 & F4 & F5 & F6 & F7 & F8) & G1 & G2).
    unfold same_but_day, same_definition. repeat split; congruence.
  - unfold infer. destruct (_ || _) eqn:Cn; [intro H; injection H as <-; repeat split|]. intro H. exfalso. apply bind_Ok in H as (st & Hs & _).
    apply orb_false_iff in Cn as [Cn _]. apply PeanoNat.Nat.ltb_ge in Cn. unfold count_self in Cn.
    destruct (filter (fun p => str_eqb (get_account p) (v_account v)) (e_postings e)) as [|x xs] eqn:F; [cbn in Cn; lia|].
    assert (In x (filter (fun p => str_eqb (get_account p) (v_account v)) (e_postings e))) as Ix by (rewrite F; left; reflexivity). apply filter_In in Ix as [Ix Ex].
    rewrite (infer_other v e S N _ (mkAmount fzero (symbol (v_amount v)), mkAmount fzero (symbol (v_amount v))) _ (fun y J => J) S S Hs x Ix) in Ex. discriminate Ex.
Qed.

Lemma coins_refl a : same_coins sym a a.
Proof.
  split; [reflexivity|]. split; [reflexivity|]. split; [generalize (a_expenses a)|generalize (a_goals a)]; induction l; constructor; auto; repeat split.
Qed.
Lemma map_res_both {A B} (f g : A -> res B) (P : A -> A -> Prop) (Q : B -> B -> Prop) : (forall a b x y, P a b -> f a = Ok x -> g b = Ok y -> Q x y) ->
  forall l l', Forall2 P l l' -> forall m m', map_res f l = Ok m -> map_res g l' = Ok m' -> Forall2 Q m m'.
Proof.
  intro H. induction 1 as [|a b l l' K _ IH]; intros m m' E E'; cbn [map_res] in *; [injection E as <-; injection E' as <-; constructor|].
  apply bind_Ok in E as (x & Ex & E). apply bind_Ok in E as (xs & Es & E). injection E as <-. apply bind_Ok in E' as (y & Ey & E'). apply bind_Ok in E' as (ys & Es' & E'). injection E' as <-.
  constructor; [eapply H; eassumption|apply IH; assumption].
Qed.
Lemma coins_step e a b a' b' : sound a -> sound b -> same_coins sym a b -> acc_process today a e = Ok a' -> acc_process today b e = Ok b' -> same_coins sym a' b'.
Proof.
  intros _ _ (N & C & Ex & Go) H H'. unfold acc_process in H, H'.
  apply bind_Ok in H as (x & X & H). apply bind_Ok in H as (g & G & H). apply bind_Ok in H as (r & Rr & H). injection H as <-.
  apply bind_Ok in H' as (x' & X' & H'). apply bind_Ok in H' as (g' & G' & H'). apply bind_Ok in H' as (r' & Rr' & H'). injection H' as <-.
  split; [exact N|]. split; [|split]; cbn.
  - rewrite N in Rr'. symmetry. exact (real_own _ _ _ _ _ _ _ (eq_sym C) Rr Rr').
  - refine (map_res_both _ _ _ _ _ _ _ Ex _ _ X X'). intros v w v' w' P Hv Hw. exact (process_own _ _ _ _ _ P Hv Hw).
  - refine (map_res_both _ _ _ _ _ _ _ Go _ _ G G'). intros v w v' w' P Hv Hw. exact (process_own _ _ _ _ _ P Hv Hw).
Qed.
Lemma coins_start e a b : sound a -> ~ deals_in e sym -> acc_process today a e = Ok b -> same_coins sym a b.
Proof.
  intros (So & _) D H. unfold acc_process in H. apply bind_Ok in H as (x & X & H). apply bind_Ok in H as (g & G & H). apply bind_Ok in H as (r & Rr & H). injection H as <-.
  assert (forall vs ws, (forall v, In v vs -> In v (all_envelopes a)) -> map_res (fun v => env_process today v e) vs = Ok ws ->
    Forall2 (fun v w => same_definition v w /\ (symbol (v_amount v) = sym -> same_but_day v w)) vs ws) as M.
  { induction vs as [|v vs IH]; intros ws I E; cbn [map_res] in E; [injection E as <-; constructor|]. apply bind_Ok in E as (w & Ew & E). apply bind_Ok in E as (ws' & Es & E). injection E as <-.
    constructor; [|apply IH; [intros; apply I; right; assumption|exact Es]]. split; [exact (proj1 (env_process_inv _ _ _ _ Ew))|].
    intro S. eapply process_other; [exact (proj2 (So v (I v (or_introl eq_refl))))|exact S|exact D|exact Ew]. }
  split; [reflexivity|]. split; [|split]; cbn.
  - refine (real_other _ _ _ _ _ _ Rr). intros y b I W E. apply D. exists y, b. auto.
  - apply M; [|exact X]. intros v I. unfold all_envelopes. apply in_app_iff. left. exact I.
  - apply M; [|exact G]. intros v I. unfold all_envelopes. apply in_app_iff. right. exact I.
Qed.
End Coins.

(** One entry more changes nothing in the currencies that it does not deal in. *)
Theorem C128_money_partial : forall today w w' p c sym, proper w -> proper w' -> one_more w w' p c ->
  exists n, forall fuel l w1 l' w1', (n <= fuel)%nat ->
  from_file fuel today p w = Ok (l, w1) -> from_file fuel today p w' = Ok (l', w1') ->
  exists e, (exists fmt names, parse_entry c fmt 46%N names = Ok e)
  /\ (~ deals_in e sym -> Forall2 (fun x y => fst x = fst y /\ same_coins sym (snd x) (snd y)) (l_accounts l) (l_accounts l')).
Proof.
  intros today w w' p c sym P P' (d & d' & xs & ys & U & U' & Nb & D).
  destruct (from_file_items today w p d _ P U) as (n & H). destruct (from_file_items today w' p d' _ P' U') as (n' & H').
  exists (Nat.max n n'). intros fuel l w1 l' w1' Le L L'. rewrite H in L by lia. rewrite H' in L' by lia. clear H H'.
  apply bind_Ok in L as (m & L & E). injection E as -> _. apply bind_Ok in L' as (m' & L' & E). injection E as -> _.
  rewrite items_app in L, L'. apply bind_Ok in L as (l0 & L0 & L). rewrite L0 in L'. cbn [bind] in L'.
  unfold items in L'. cbn [fold_res] in L'. apply bind_Ok in L' as (l1 & L1 & L'). fold (items today ys l1) in L'.
  destruct (items_built today xs _ _ _ (built_new today p) L0) as (es & B).
  assert (exists e, (exists fmt names, parse_entry c fmt 46%N names = Ok e) /\ add_entry today l0 e = Ok l1) as (e & Pe & Ae).
  { unfold item, parse_chunk in L1. destruct (split_ws c) as [|k rest] eqn:Ec.
    - contradiction.
    - cbv zeta in L1. cbn [fst] in L1. unfold on_ledger, directive, keyword in *. rewrite Ec in D. cbn [hd_error] in D.
      assert (forall s, Some k <> Some (lit s) -> str_eqb k (lit s) = false) as Q by (intros s Ns; apply not_true_iff_false; intro E; apply str_eqb_eq in E; congruence).
      rewrite !Q in L1 by tauto. apply bind_Ok in L1 as (s & L1 & E). injection E as <-. apply bind_Ok in L1 as (u & L1 & E). injection E as <-. cbn [fst].
      unfold ledger_parse_entry in L1. apply bind_Ok in L1 as (e & He & L1). exists e. split; [exists (l_format l0), (account_names l0); exact He|exact L1]. }
  exists e. split; [exact Pe|]. intro Nd.
  assert (step today (same_coins sym) l0 l1) as St.
  { split; [|split; [exists es; exact B|split; [exists (es ++ [e]); exact (built_entry _ _ _ _ _ B Ae)|]]].
    - unfold add_entry in Ae. apply bind_Ok in Ae as (x & _ & Ae). injection Ae as <-. reflexivity.
    - pose proof (built_sound _ _ _ B) as So. pose proof (add_entry_accounts _ _ _ _ Ae) as Q. clear -So Q Nd.
      induction Q as [|[k a] [k' b] la lb [K E] _ IH]; constructor; [|apply IH; intros k1 a1 I1; apply (So k1 a1); right; exact I1].
      cbn [fst snd] in *. split; [congruence|]. exact (coins_start today sym e a b (So k a (or_introl eq_refl)) Nd E). }
  refine (proj2 (proj2 (proj2 (step_items today (same_coins sym) _ _ ys _ _ _ _ St L L')))).
  - intros. apply coins_refl.
  - intros f a b a' b' Sa Sb K Ka Kb. exact (coins_step today sym f a b a' b' Sa Sb K Ka Kb).
Qed.
Print Assumptions C128_money_partial.

(** The balance report too, for accounts whose first posting has an amount. *)
Lemma only_sum sym ws : only_in sym (sum_up ws) = sum_up (only_in sym ws).
Proof.
  rewrite !sum_up_fold. change (@nil amount) with (only_in sym []) at 2. generalize (@nil amount) as p. induction ws as [|a ws IH]; intro p; [reflexivity|]. cbn [fold_left]. rewrite IH.
  assert (only_in sym (a :: ws) = if sym_dec (symbol a) sym then a :: only_in sym ws else only_in sym ws) as -> by (unfold only_in; cbn [filter]; destruct (sym_dec (symbol a) sym); reflexivity).
  destruct (sym_dec (symbol a) sym) as [S|S]; [|rewrite coins_other by exact S; reflexivity]. cbn [fold_left]. rewrite coins_in by exact S. reflexivity.
Qed.
Lemma worths_app ps qs ws : worths (ps ++ qs) ws -> exists us vs, ws = us ++ vs /\ worths ps us /\ worths qs vs.
Proof. intro H. apply Forall2_app_inv_l in H as (us & vs & A & B & ->). exists us, vs. auto. Qed.
Definition deals_b (sym : option str) (e : entry) : bool :=
  existsb (fun p => match get_amount p with
                    | Some a => if sym_dec (symbol a) sym then true else false
                    | None => match get_blank_amount e with Ok (Some a) => if sym_dec (symbol a) sym then true else false | _ => false end
                    end) (e_postings e).
Lemma deals_iff sym e : deals_b sym e = true -> deals_in e sym.
Proof.
  unfold deals_b. rewrite existsb_exists. intros (p & I & H). destruct (get_amount p) as [a|] eqn:G.
  - destruct (sym_dec (symbol a) sym) as [E|]; [|discriminate H]. exists p, a. split; [exact I|]. split; [left; exact G|exact E].
  - destruct (get_blank_amount e) as [[a|]| | |] eqn:B; try discriminate H. destruct (sym_dec (symbol a) sym) as [E|]; [|discriminate H].
    exists p, a. split; [exact I|]. split; [right; split; assumption|exact E].
Qed.
Lemma dealt sym k e : forall ps us, (forall p, In p ps -> In p (e_postings e)) -> deals_b sym e = false -> worths (filter (to_account k) (map (pair e) ps)) us -> only_in sym us = [].
Proof.
  induction ps as [|p ps IH]; intros us I D W; cbn [map filter] in W; [inversion W; reflexivity|].
  destruct (to_account k (e, p)); [|exact (IH us (fun q J => I q (or_intror J)) D W)].
  inversion W as [|x a ? us' Wa Ws]; subst. cbn [fst snd] in Wa. unfold only_in. cbn [filter]. destruct (sym_dec (symbol a) sym) as [E|_]; [|exact (IH us' (fun q J => I q (or_intror J)) D Ws)].
  exfalso. apply not_true_iff_false in D. apply D. unfold deals_b. apply existsb_exists. exists p. split; [apply I; left; reflexivity|].
  destruct Wa as [G|[G B]]; rewrite G, ?B; destruct (sym_dec (symbol a) sym); congruence.
Qed.
Lemma dealing sym k es : forall ws, worths (filter (to_account k) (postings es)) ws ->
  exists vs, worths (filter (to_account k) (postings (filter (deals_b sym) es))) vs /\ only_in sym ws = only_in sym vs.
Proof.
  unfold postings. induction es as [|e es IH]; intros ws W; cbn [flat_map filter] in *; [exists ws; split; [exact W|reflexivity]|].
  rewrite filter_app in W. apply worths_app in W as (us & vs & -> & U & V). destruct (IH vs V) as (vs' & V' & E). unfold only_in at 1. rewrite filter_app. fold (only_in sym us). fold (only_in sym vs).
  destruct (deals_b sym e) eqn:D.
  - exists (us ++ vs'). cbn [flat_map]. rewrite filter_app. split; [apply Forall2_app; assumption|]. unfold only_in at 3. rewrite filter_app. fold (only_in sym us). fold (only_in sym vs'). congruence.
  - exists vs'. split; [exact V'|]. rewrite (dealt sym k e _ us (fun p I => I) D U). exact E.
Qed.
Theorem C128_balance_partial : forall e l l' sym, but_for e l l' -> ~ deals_in e sym ->
  forall t t', show_balance l = Ok t -> show_balance l' = Ok t' ->
  exists rows rows', in_order (map fst rows) /\ in_order (map fst rows')
  /\ t = flat_map balance_line rows /\ t' = flat_map balance_line rows'
  /\ forall name pl, In (name, pl) rows -> exists pl', In (name, pl') rows'
     /\ (said_first (l_entries l) name -> said_first (l_entries l') name -> only_in sym pl' = only_in sym pl).
Proof.
  intros e l l' sym (_ & _ & _ & Pm & Q & _) N t t' T T'. destruct (C71_balance _ _ T) as (rows & O & U & B & ->). destruct (C71_balance _ _ T') as (rows' & O' & U' & B' & ->).
  exists rows, rows'. split; [exact O|]. split; [exact O'|]. split; [reflexivity|]. split; [reflexivity|]. intros name pl I.
  assert (In name (map fst rows')) as J.
  { apply U'. assert (In name (map fst rows)) as J by (apply in_map_iff; exists (name, pl); split; [reflexivity|exact I]).
    apply U in J as (f & p & If & Ip & E). exists f, p. split; [apply (Permutation_in _ (Permutation_sym Pm)); right; exact If|auto]. }
  apply in_map_iff in J as ((n & pl') & E & J). cbn [fst] in E. subst n. exists pl'. split; [exact J|]. intros S S'.
  assert (forall es pl, balance es name pl -> said_first es name -> exists ws, worths (filter (to_account name) (postings es)) ws /\ pl = sum_up ws) as K.
  { clear. intros es pl (x & rest & xs & F & W & ->) S. specialize (S x rest F). destruct (get_amount (snd x)) as [a|] eqn:G; [|contradiction].
    exists (a :: xs). split; [rewrite F; constructor; [left; exact G|exact W]|symmetry; apply sum_up_totals]. }
  destruct (K _ _ (B _ _ I) S) as (ws & W & ->). destruct (K _ _ (B' _ _ J) S') as (ws' & W' & ->). rewrite !only_sum.
  destruct (dealing sym name _ _ W) as (vs & V & ->). destruct (dealing sym name _ _ W') as (vs' & V' & ->).
  rewrite Q in V' by (apply not_true_iff_false; intro D; exact (N (deals_iff _ _ D))). rewrite (worths_unique _ _ _ V V'). reflexivity.
Qed.
Print Assumptions C128_balance_partial.

(** *** A case *)
Definition two_coins : list string :=
  ["account a"; "  expense food due every friday"; "    amount 120 EUR"; "    for c"; "account b"; "account c";
   "2024/03/01 * Salary"; "  a  500 EUR"; "  b  -500 EUR"; "2024/03/10 * Shop"; "  c  20 EUR"; "  a  -20 EUR"]%string.
Definition dollars : list string := ["2024/03/05 * Trip"; "  a  -7 USD"; "  b"]%string.
Definition plain : world := world_of [([lit "j"], text two_coins)] [[]] [].
Definition plain_more : world := world_of [([lit "j"], text (firstn 9 two_coins ++ dollars ++ skipn 9 two_coins))] [[]] [].
(** The dollars reach the account, and its euros and its envelope stay. *)
Local Ltac cut := unfold cut_up; match goal with |- chunks _ ?l _ => let v := eval vm_compute in l in change l with v end;
  repeat first [ apply chunks_new; [intros (? & ? & E & W); injection E as <- _; discriminate W|]
               | apply chunks_more; [eexists; eexists; split; reflexivity|]; cbn [app] | apply chunks_nil ].
Local Ltac walk := eapply unfolds_file; [vm_compute; discriminate|vm_compute; reflexivity|cut|]; vm_compute (removelast _);
  apply follows_blank; [reflexivity|]; repeat first [apply follows_item; [discriminate|discriminate|]|apply follows_nil].
Example C128_case : one_more plain plain_more (lit "/j") (text dollars)
  /\ shown_by ["balance"]%string plain
     = map lit ["a                                       480 EUR"; "b                                      -500 EUR"; "c                                       20 EUR"]%string
  /\ shown_by ["balance"]%string plain_more
     = map lit ["a                                      "; (String "009"%char " 480 EUR"); (String "009"%char "-7 USD"); "b                                      "; (String "009"%char "-500 EUR"); (String "009"%char " 7 USD");
                "c                                       20 EUR"]%string
  /\ shown_by ["envelopes"]%string plain
     = map lit ["a"; "  available"; "     500 EUR"; "  expenses"; "    food";
                "      now                                0 EUR /  120 EUR |                                        |";
                "      next (on 2024-03-22)             -20 EUR /  120 EUR |                                        |"; ""]%string
  /\ shown_by ["envelopes"]%string plain_more
     = map lit ["a"; "  available"; "     500 EUR"; "    -7 USD"; "  expenses"; "    food";
                "      now                                0 EUR /  120 EUR |                                        |";
                "      next (on 2024-03-22)             -20 EUR /  120 EUR |                                        |"; ""]%string.
Proof.
  split; [|repeat match goal with |- _ /\ _ => split end; vm_compute; reflexivity].
  exists [], []. eexists [_; _; _; _], [_]. split; [walk|]. split; [walk|]. split; [discriminate|]. intros [H|[H|[H|H]]]; discriminate H.
Qed.

(** The balance report need not agree: a blank amount that comes first to its
    account is counted as nothing, and an entry in another currency before it
    makes it count. *)
Definition blank_first : list string := ["account a"; "account b"; "2024/03/10 * Shop"; "  a  20 EUR"; "  b"]%string.
Definition early : list string := ["2024/03/05 * Trip"; "  a  -7 USD"; "  b  7 USD"]%string.
Definition late_only : world := world_of [([lit "j"], text blank_first)] [[]] [].
Definition late_and_early : world := world_of [([lit "j"], text (firstn 2 blank_first ++ early ++ skipn 2 blank_first))] [[]] [].
Theorem C128_refuted : exists w w' p c e sym, one_more w w' p c
  /\ (exists fmt names, parse_entry c fmt 46%N names = Ok e) /\ sym = Some (lit "EUR") /\ ~ deals_in e sym
  /\ shown_by ["balance"]%string w = map lit ["a                                       20 EUR"; "b                                       0"]%string
  /\ shown_by ["balance"]%string w'
     = map lit ["a                                      "; (String "009"%char "-7 USD"); (String "009"%char " 20 EUR"); "b                                      "; (String "009"%char " 7 USD"); (String "009"%char "-20 EUR")]%string.
Proof.
  exists late_only, late_and_early, (lit "/j"), (text early). eexists. exists (Some (lit "EUR")).
  split. { exists [], []. eexists [_; _], [_]. split; [walk|]. split; [walk|]. split; [discriminate|]. intros [H|[H|[H|H]]]; discriminate H. }
  split. { exists default_format, [lit "a"; lit "b"]. vm_compute. reflexivity. }
  split; [reflexivity|]. split; [|split; vm_compute; reflexivity].
  intros (x & a & [<-|[<-|[]]] & [G|[G _]] & S); cbn in G; try discriminate G; injection G as <-; discriminate S.
Qed.
Print Assumptions C128_refuted.
