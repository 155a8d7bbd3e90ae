(** Properties C99 and C100 for decimals. *)
From Coq Require Import ZArith NArith List Bool String Reals Lia Permutation.
From Verif Require Import Base Str F64 Date Amount Posting Entry Envelope Account World Register Ledger Cli
  SpecAmount SpecDate SpecEntry SpecEnvelope SpecHistory SpecLedger SpecOrder SpecTotals SpecConserve SpecDecimals
  StrFacts AmountFacts EntryFacts AccountFacts LedgerFacts DecimalFacts PropertiesHistory OrderFacts DecimalOrder
  PropertiesLedger PropertiesCli PropertiesTotals PropertiesOrder PropertiesConserve.
Import ListNotations.
Local Open Scope Z_scope.

(** ** C99 *)
(** After the same entries in another order, the amounts of accounts and
    envelopes are shown as before. *)
Theorem C99_decimals_partial : forall today l es es' l1, built today l [] -> Permutation es es' ->
  fold_res (add_entry today) es l = Ok l1 ->
  exists l2, fold_res (add_entry today) es' l = Ok l2
  /\ Forall2 (fun x y => fst y = fst x /\ same_texts es (snd x) (snd y)) (l_accounts l1) (l_accounts l2).
Proof.
  intros today l es es' l1 B P H. apply adding_iff in H. assert (St := built_starting _ _ _ B eq_refl).
  assert (exists m, Forall2 (fun x y => fst y = fst x /\ fold_res (acc_process today) es' (snd x) = Ok (snd y)) (l_accounts l) m
    /\ Forall2 (fun x y => fst y = fst x /\ same_texts es (snd x) (snd y)) (l_accounts l1) m) as (m & M & R).
  { revert St. induction H as [|x y xs ys (A & C) _ IH]; intro St; [exists []; split; constructor|].
    destruct IH as (m & M & R); [intros; apply (St k a); right; assumption|].
    destruct x as [k a]. cbn [fst snd] in *. destruct (account_decimals today es es' a (snd y) (St k a (or_introl eq_refl)) P C) as (b & Hb & Sb).
    exists ((fst y, b) :: m). split; constructor; auto. }
  destruct (adding_works today es' l m M) as (l2 & H2 & <-). exists l2. split; [exact H2|exact R].
Qed.
Print Assumptions C99_decimals_partial.

(** ** C100 *)
Lemma exact_app m sym ps zs k ps' zs' k' : exact_worths m sym ps zs k -> exact_worths m sym ps' zs' k' ->
  exact_worths m sym (ps ++ ps') (zs ++ zs') (k + k').
Proof.
  intros E E'. induction E as [|e p ps z zs n k H E IH|e p ps b zs k Wb Nb E IH]; cbn [app]; [exact E'| |].
  - rewrite <- Nat.add_assoc. constructor; assumption.
  - econstructor; eassumption.
Qed.
Lemma units_all m sym es zks : Forall2 (real_units m sym) es zks ->
  exact_worths m sym (filter is_classic (postings es)) (List.concat (map fst zks)) (fold_right Nat.add 0%nat (map snd zks)).
Proof.
  induction 1 as [|e zk es zks R _ IH]; [constructor|]. cbn [postings flat_map map List.concat fold_right]. rewrite filter_app.
  apply exact_app; assumption.
Qed.
Lemma exact_share m sym ps zs k : exact_worths m sym ps zs k ->
  exists ks, List.length ks = List.length zs /\ (forall n, In n ks -> exists x, In x ps /\ get_account (snd x) = n)
  /\ forall name, exists k', (k' <= k)%nat
     /\ exact_worths m sym (filter (fun x => if str_dec (get_account (snd x)) name then true else false) ps) (share name (combine ks zs)) k'.
Proof.
  induction 1 as [|e p ps z zs n k H E (ks & L & I & S)|e p ps b zs k Wb Nb E (ks & L & I & S)].
  - exists []. split; [reflexivity|]. split; [intros _ []|]. intro name. exists 0%nat. split; [lia|constructor].
  - exists (get_account p :: ks). split; [cbn; congruence|]. split.
    + intros q [<-|J]; [exists (e, p); split; [left|]; reflexivity|]. destruct (I q J) as (x & A & B). exists x. split; [right|]; assumption.
    + intro name. destruct (S name) as (k' & Lk & X). unfold share. cbn [combine filter fst snd]. destruct (str_dec (get_account p) name).
      * exists (n + k')%nat. split; [lia|]. cbn [map snd]. constructor; assumption.
      * exists k'. split; [lia|exact X].
  - exists ks. split; [exact L|]. split; [intros q J; destruct (I q J) as (x & A & B); exists x; split; [right|]; assumption|].
    intro name. destruct (S name) as (k' & Lk & X). exists k'. split; [exact Lk|]. cbn [filter fst snd].
    destruct (str_dec (get_account p) name); [econstructor; eassumption|exact X].
Qed.
(** If the accounts are defined before the entries, and the real amounts of
    each entry sum to zero, then so do the holdings shown. *)
Theorem C100_decimals_partial : forall today l es l' sym m zks, built today l [] -> fold_res (add_entry today) es l = Ok l' ->
  (forall e p, In e es -> In p (e_postings e) -> In (get_account p) (account_names l)) ->
  Forall2 (real_units m sym) es zks -> Forall (fun zk => Zsum (fst zk) = 0) zks ->
  small m (fold_right Nat.add 0%nat (map snd zks)) (List.concat (map fst zks)) ->
  exists ns, holdings_shown sym l' ns /\ Zsum ns = 0.
Proof.
  intros today l es l' sym m zks B H Nm F Z Sm. apply adding_iff in H. assert (St := built_starting _ _ _ B eq_refl).
  destruct (built_well_keyed _ _ _ B) as [Nd Kn]. apply units_all in F.
  set (zs := List.concat (map fst zks)) in *. set (k := fold_right Nat.add 0%nat (map snd zks)) in *.
  destruct (exact_share _ _ _ _ _ F) as (ks & L & I & S). set (q := combine ks zs).
  assert (map snd q = zs) as Sq by (apply map_snd_combine, L).
  exists (map (fun k => Zsum (share k q)) (account_names l)). split.
  - assert (forall k a, In (k, a) (l_accounts l) -> a_name a = k) as Ka by (intros n a J; apply Kn, map_get_In; [exact Nd|exact J]).
    unfold holdings_shown, account_names. clear Nm Nd Kn. revert St Ka. induction H as [|x y ms ms' (A & C) _ IH]; intros St Ka; [constructor|].
    cbn [map]. constructor; [|apply IH; intros n a J; [apply (St n a)|apply (Ka n a)]; right; assumption]. clear IH.
    destruct x as [n a]. cbn [fst snd] in *. assert (a_name a = n) as Na by (apply Ka; left; reflexivity).
    destruct (St n a (or_introl eq_refl)) as [_ Re]. apply acc_fold_iff in C as (_ & _ & _ & R). rewrite Re, Na in R.
    apply real_fold_iff in R as (ys & V & R). destruct (S n) as (k' & Lk & X). rewrite <- classic_filter in X. fold q in X.
    assert (small m k' (share n q)) as S'.
    { destruct Sm as (M & T & D). split; [exact M|]. split; [|nia]. assert (K := Zabs_share n q). rewrite Sq in K. lia. }
    destruct (held_near _ _ _ _ _ _ X V S') as [N Bd]. unfold held. rewrite R, <- sum_up_fold. unfold sum_up. rewrite pool_only_mag.
    eapply show_within; [exact N|apply Z.le_refl|exact Bd].
  - rewrite share_total; [rewrite Sq|exact Nd|].
    + unfold zs. clear - Z. apply Zsum_concat. induction Z; constructor; auto.
    + intros [n z] J. cbn [fst]. apply in_combine_l in J. apply I in J as ([e p] & J & <-). apply filter_In in J as [J _].
      unfold postings in J. apply in_flat_map in J as (e' & Ie & J). apply in_map_iff in J as (p' & E & Ip). injection E as -> ->. exact (Nm e p Ie Ip).
Qed.
Print Assumptions C100_decimals_partial.

Lemma exact_written_all m sym (e : entry) ps zs : blanks ps = 0%nat -> (forall p, In p ps -> is_envelope p = false) ->
  Forall (fun a => symbol a = sym) (written ps) -> Forall2 (fun a z => units (mag a) z) (written ps) zs ->
  exact_worths m sym (filter is_classic (map (pair e) ps)) zs (List.length zs).
Proof.
  intros Bl Cl Sy F. revert zs F. induction ps as [|p ps IH]; intros zs F; [inversion F; constructor|].
  unfold blanks in Bl. cbn [filter] in Bl. destruct (get_amount p) as [a|] eqn:G; [|discriminate].
  unfold written in *. cbn [flat_map] in Sy, F. rewrite G in Sy, F. cbn [app] in Sy, F. inversion Sy as [|? ? Sa Sy']; subst.
  inversion F as [|? z ? zs' U F']; subst. cbn [map filter].
  unfold is_classic at 1. cbn [snd]. assert (C := Cl p (or_introl eq_refl)). destruct p as [c|v]; [|discriminate].
  apply (worths_in m (symbol a) e (Classic c) _ z zs' 1 (List.length zs')); [constructor; assumption|].
  apply IH; auto. intros; apply Cl; right; assumption.
Qed.
(** So do the real amounts of an entry with a blank posting and without
    envelope postings. *)
Theorem C100_blank_decimals : forall e sym m zs, blanks (e_postings e) = 1%nat -> ~ manual e ->
  written (e_postings e) <> [] -> Forall (fun a => symbol a = sym) (written (e_postings e)) ->
  Forall2 (fun a z => units (mag a) z) (written (e_postings e)) zs -> sums_within m zs ->
  exists zs', real_units m sym e (zs', 2 * List.length zs)%nat /\ Zsum zs' = 0
    /\ Zsum (map Z.abs zs') <= 2 * Zsum (map Z.abs zs).
Proof.
  intros e sym m zs Bl Cl Ne Sy F P. destruct (one_blank _ Bl) as (ps1 & p & ps2 & E & Bp & B1 & B2).
  assert (In p (e_postings e)) as Ip by (rewrite E; apply in_elt).
  assert (forall q, In q (e_postings e) -> is_envelope q = false) as Cl'.
  { intros q I. destruct q as [c|v]; [reflexivity|]. exfalso. apply Cl. exists v. exact I. }
  assert (X := exact_inferred m e p sym zs Bp Ip Ne Sy F P).
  assert (written (e_postings e) = written ps1 ++ written ps2) as Wr.
  { rewrite E. unfold written. rewrite flat_map_app. cbn [flat_map]. rewrite Bp. reflexivity. }
  rewrite Wr in F, Sy. apply Forall2_app_inv_l in F as (z1 & z2 & F1 & F2 & ->). apply Forall_app in Sy as [S1 S2].
  assert (W1 := exact_written_all m sym e ps1 z1 B1 (fun q I => Cl' q ltac:(rewrite E; apply in_or_app; left; exact I)) S1 F1).
  assert (W2 := exact_written_all m sym e ps2 z2 B2 (fun q I => Cl' q ltac:(rewrite E; apply in_or_app; right; right; exact I)) S2 F2).
  exists (z1 ++ - Zsum (z1 ++ z2) :: z2). split; [|split].
  - unfold real_units. cbn [fst snd]. rewrite E, map_app, filter_app. cbn [map filter].
    assert (is_classic (e, p) = true) as ->.
    { unfold is_classic. cbn [snd]. destruct p as [c|v]; [reflexivity|]. exfalso. apply Cl. exists v. exact Ip. }
    replace (2 * List.length (z1 ++ z2))%nat with (List.length z1 + (List.length (z1 ++ z2) + List.length z2))%nat by (rewrite app_length; lia).
    apply exact_app; [exact W1|]. constructor; assumption.
  - rewrite !Zsum_app. change (Zsum (?a :: ?m)) with (a + Zsum m). lia.
  - rewrite !map_app, !Zsum_app. cbn [map]. change (Zsum (?a :: ?m)) with (a + Zsum m).
    assert (A1 := Zsum_abs z1). assert (A2 := Zsum_abs z2). lia.
Qed.
Print Assumptions C100_blank_decimals.

(** The sums differ in their last bits with the order, but not as shown. *)
Definition tenths (es : list string) : ledger :=
  loaded (["account a"; "  expense food due every 15th"; "    amount 100"; "account b"]%string ++ es).
Definition tenth (s : string) : list string := ["2024/02/03 * x"; "  a " ++ s; "  b"; "2024/02/03 * y"; "  envelope a food " ++ s]%string.
Example C99_decimals_case :
  let one := tenths (tenth "0.1" ++ tenth "0.2" ++ tenth "0.3") in let other := tenths (tenth "0.3" ++ tenth "0.2" ++ tenth "0.1") in
  map (fun ka => show_pool (a_real (snd ka))) (l_accounts one) = map lit [" 0.6"; "-0.6"]%string
  /\ map (fun ka => show_pool (a_real (snd ka))) (l_accounts other) = map lit [" 0.6"; "-0.6"]%string
  /\ map (fun ka => map (fun v => show_amount (v_now v)) (all_envelopes (snd ka))) (l_accounts one) = [[lit " 0.6"]; []]
  /\ map (fun ka => map (fun v => show_amount (v_now v)) (all_envelopes (snd ka))) (l_accounts other) = [[lit " 0.6"]; []]
  /\ map (fun ka => a_real (snd ka)) (l_accounts one) <> map (fun ka => a_real (snd ka)) (l_accounts other).
Proof. vm_compute. repeat split. discriminate. Qed.
