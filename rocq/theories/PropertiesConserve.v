(** Property C100: no money appears or vanishes. *)
From Coq Require Import ZArith NArith List Bool String Lia Permutation Reals.
From Verif Require Import Base Str F64 Date Amount Posting Entry Envelope Account World Register Ledger Cli
  SpecAmount SpecDate SpecEntry SpecEnvelope SpecLedger SpecOrder SpecConserve StrFacts AmountFacts EntryFacts DateFacts AccountFacts LedgerFacts
  OrderFacts PropertiesLedger PropertiesCli PropertiesOrder.
Import ListNotations.
Local Open Scope Z_scope.

(** ** Counting by account *)
Lemma Zsum_app a b : Zsum (a ++ b) = Zsum a + Zsum b.
Proof. unfold Zsum. induction a as [|x a IH]; cbn; lia. Qed.
Definition share (k : str) (l : list (str * Z)) : list Z := map snd (filter (fun x => if str_dec (fst x) k then true else false) l).
Lemma share_total ks : NoDup ks -> forall l, (forall x, In x l -> In (fst x) ks) ->
  Zsum (map (fun k => Zsum (share k l)) ks) = Zsum (map snd l).
Proof.
  intros N l. induction l as [|[k z] l IH]; intro H.
  - clear. induction ks as [|k ks IH]; [reflexivity|]. cbn [map]. unfold Zsum in *. cbn. exact IH.
  - cbn [map snd]. change (Zsum (z :: map snd l)) with (z + Zsum (map snd l)). rewrite <- IH by (intros; apply H; right; assumption).
    assert (In k ks) as I by (apply (H (k, z)); left; reflexivity). clear H IH.
    induction ks as [|q ks IHk]; [destruct I|]. inversion N as [|? ? Nq Nk]; subst. cbn [map].
    change (Zsum (?a :: ?m)) with (a + Zsum m). unfold share at 1. cbn [filter fst]. destruct (str_dec k q) as [->|D].
    + cbn [map snd]. change (Zsum (z :: ?m)) with (z + Zsum m). fold (share q l).
      assert (Zsum (map (fun k => Zsum (share k ((q, z) :: l))) ks) = Zsum (map (fun k => Zsum (share k l)) ks)) as ->; [|unfold share; cbn; lia].
      f_equal. apply map_ext_in. intros k Ik. unfold share. cbn [filter fst]. destruct (str_dec q k) as [->|]; [contradiction|reflexivity].
    + destruct I as [->|I]; [contradiction|]. rewrite (IHk Nk I). fold (share q l). lia.
Qed.

(** The amounts of a list of postings in a currency, with their accounts. *)
Definition tagged (sym : option str) (ps : list (entry * posting)) (xs : list amount) : list (str * amount) :=
  filter (fun x => in_sym sym (snd x)) (map (fun x => (get_account (snd (fst x)), snd x)) (combine ps xs)).
Lemma worths_length ps xs : worths ps xs -> List.length ps = List.length xs.
Proof. induction 1; cbn; auto. Qed.
Lemma tagged_snd sym ps : forall xs, List.length ps = List.length xs -> map snd (tagged sym ps xs) = filter (in_sym sym) xs.
Proof.
  unfold tagged. induction ps as [|p ps IH]; intros [|x xs] L; try discriminate; [reflexivity|]. injection L as L. cbn [combine map filter fst snd].
  destruct (in_sym sym x); cbn [map snd]; rewrite (IH xs L); reflexivity.
Qed.
Lemma classic_filter name ps : filter (to_classic name) ps
  = filter (fun x => if str_dec (get_account (snd x)) name then true else false) (filter is_classic ps).
Proof.
  induction ps as [|[e p] ps IH]; [reflexivity|]. cbn [filter]. unfold to_classic at 1, is_classic at 1. cbn [snd]. destruct p as [c|v].
  - cbn [filter snd get_account]. rewrite IH. reflexivity.
  - exact IH.
Qed.
Lemma worths_filter (q : entry * posting -> bool) ps : forall xs, worths ps xs ->
  worths (filter q ps) (map snd (filter (fun x => q (fst x)) (combine ps xs))).
Proof.
  intros xs W. induction W as [|p x ps xs Wp _ IH]; [constructor|]. cbn [filter combine fst]. destruct (q p); [|exact IH].
  cbn [map snd]. constructor; assumption.
Qed.
Lemma tagged_share sym name ps : forall xs,
  filter (in_sym sym) (map snd (filter (fun x => if str_dec (get_account (snd (fst x))) name then true else false) (combine ps xs)))
  = map snd (filter (fun x => if str_dec (fst x) name then true else false) (tagged sym ps xs)).
Proof.
  unfold tagged. induction ps as [|p ps IH]; intros [|x xs]; try reflexivity. cbn [combine map filter fst snd].
  destruct (str_dec (get_account (snd p)) name) as [E|N]; cbn [map filter snd]; destruct (in_sym sym x); cbn [filter fst];
    repeat match goal with |- context [if str_dec ?a ?b then _ else _] => destruct (str_dec a b); try contradiction end;
    cbn [map snd]; rewrite ?(IH xs); try reflexivity; congruence.
Qed.
Lemma Forall2_share {A} (R : A -> Z -> Prop) (l : list (str * A)) : forall zs k, Forall2 R (map snd l) zs ->
  Forall2 R (map snd (filter (fun x => if str_dec (fst x) k then true else false) l)) (share k (combine (map fst l) zs)).
Proof.
  induction l as [|[q a] l IH]; intros zs k F; inversion F as [|? z ? zs' Ra F']; subst; [constructor|]. unfold share. cbn [map fst combine filter].
  destruct (str_dec q k); cbn [map snd]; [constructor; [exact Ra|]|]; apply IH, F'.
Qed.
Lemma Zabs_share k l : Zsum (map Z.abs (share k l)) <= Zsum (map Z.abs (map snd l)).
Proof.
  unfold share, Zsum. induction l as [|[q z] l IH]; [cbn; lia|]. cbn [map filter fst snd fold_right]. destruct (str_dec q k); cbn [map snd fold_right]; lia.
Qed.
Lemma map_snd_combine {A B} (l : list A) : forall m : list B, List.length l = List.length m -> map snd (combine l m) = m.
Proof. induction l as [|x l IH]; intros [|y m] H; try discriminate; [reflexivity|]. cbn. rewrite IH by (injection H as H; exact H). reflexivity. Qed.

Lemma amounts_worths sym es : forall zss, Forall2 (real_amounts sym) es zss ->
  exists xs, worths (filter is_classic (postings es)) xs
  /\ Forall2 (fun a z => f64_is (mag a) (IZR z)) (filter (in_sym sym) xs) (List.concat zss).
Proof.
  intros zss F. induction F as [|e zs es zss (xs & W & Z) _ (ys & W' & Z')]; [exists []; split; constructor|].
  exists (xs ++ ys). cbn [postings flat_map List.concat]. rewrite !filter_app. split; apply Forall2_app; assumption.
Qed.
Lemma Zsum_concat zss : Forall (fun zs => Zsum zs = 0) zss -> Zsum (List.concat zss) = 0.
Proof. induction 1 as [|zs zss E _ IH]; [reflexivity|]. cbn [List.concat]. rewrite Zsum_app, E, IH. reflexivity. Qed.

(** ** C100 *)
(** If the accounts are defined before the entries, and the real amounts of
    each entry sum to zero, then so do the holdings of all accounts. *)
Theorem C100_partial : forall today l es l' sym zss, built today l [] -> fold_res (add_entry today) es l = Ok l' ->
  (forall e p, In e es -> In p (e_postings e) -> In (get_account p) (account_names l)) ->
  all_amounts sym es zss -> Forall (fun zs => Zsum zs = 0) zss ->
  exists ns, holdings sym l' ns /\ Zsum ns = 0.
Proof.
  intros today l es l' sym zss B H Nm (F & Bd) Z. apply adding_iff in H. assert (St := built_starting _ _ _ B eq_refl).
  assert (Wk := built_well_keyed _ _ _ B). destruct Wk as [Nd Kn].
  destruct (amounts_worths _ _ _ F) as (xs & W & Fz). set (zs := List.concat zss) in *.
  assert (Ln := worths_length _ _ W). set (t := tagged sym (filter is_classic (postings es)) xs).
  assert (Forall2 (fun a z => f64_is (mag a) (IZR z)) (map snd t) zs) as Ft by (unfold t; rewrite tagged_snd by exact Ln; exact Fz).
  set (q := combine (map fst t) zs).
  assert (Lt : List.length (map fst t) = List.length zs).
  { rewrite map_length, <- (map_length snd t). clear - Ft. induction Ft; cbn; auto. }
  assert (map snd q = zs) as Sq by (apply map_snd_combine, Lt).
  exists (map (fun k => Zsum (share k q)) (account_names l)). split.
  - assert (forall k a, In (k, a) (l_accounts l) -> a_name a = k) as Ka by (intros k a I; apply Kn, map_get_In; [exact Nd|exact I]).
    unfold holdings, account_names. clear Nm Nd Kn. revert St Ka. induction H as [|x y m m' (A & C) _ IH]; intros St Ka; [constructor|].
    cbn [map]. constructor; [|apply IH; intros; [apply (St k a)|apply (Ka k a)]; right; assumption]. clear IH.
    destruct x as [k a]. cbn [fst snd] in *. assert (a_name a = k) as Na by (apply Ka; left; reflexivity).
    destruct (St k a (or_introl eq_refl)) as [_ Re]. apply acc_fold_iff in C as (_ & _ & _ & R). rewrite Re, Na in R.
    apply real_fold_iff in R as (ys & V & ->). rewrite <- sum_up_fold. unfold sum_up. rewrite pool_only_mag, contributions_filter.
    rewrite classic_filter in V.
    rewrite (worths_unique _ _ _ V (worths_filter (fun x => if str_dec (get_account (snd x)) k then true else false) _ _ W)).
    change (filter (fun a0 => if sym_dec (symbol a0) sym then true else false)) with (filter (in_sym sym)). rewrite tagged_share. fold t.
    apply left_sum_int.
    + assert (K := Forall2_share _ _ _ k Ft). fold q in K. clear - K. induction K; constructor; auto.
    + apply partial_bound. assert (K := Zabs_share k q). rewrite Sq in K. cbn. lia.
  - rewrite share_total; [rewrite Sq; apply Zsum_concat, Z|exact Nd|].
    intros [k z] I. cbn [fst]. assert (In k (map fst t)) as It by (eapply in_combine_l; exact I).
    apply in_map_iff in It as ([k' a] & E & It). cbn in E. subst k'. unfold t, tagged in It. apply filter_In in It as [It _].
    apply in_map_iff in It as ([[e p] x] & E & It). cbn [fst snd] in E. injection E as <- _. apply in_combine_l in It.
    apply filter_In in It as [It _]. unfold postings in It. apply in_flat_map in It as (e' & Ie & It). apply in_map_iff in It as (p' & E & Ip).
    injection E as -> ->. exact (Nm e p Ie Ip).
Qed.
Print Assumptions C100_partial.

Lemma all_written sym (e : entry) ps : blanks ps = 0%nat -> (forall p, In p ps -> is_envelope p = false) ->
  Forall (fun a => symbol a = sym) (written ps) ->
  worths (filter is_classic (map (pair e) ps)) (written ps) /\ filter (in_sym sym) (written ps) = written ps.
Proof.
  intros Bl Cl Sy. induction ps as [|p ps IH]; [split; [constructor|reflexivity]|].
  unfold blanks in Bl. cbn [filter] in Bl. destruct (get_amount p) as [a|] eqn:G; [|discriminate].
  unfold written in *. cbn [flat_map] in Sy |- *. rewrite G in Sy |- *. cbn [app] in Sy |- *. inversion Sy as [|? ? Sa Sy']; subst.
  destruct (IH Bl) as [W E]; [intros; apply Cl; right; assumption|exact Sy'|]. cbn [map filter].
  unfold is_classic at 1. cbn [snd]. assert (C := Cl p (or_introl eq_refl)). destruct p as [c|v]; [|discriminate]. split.
  - constructor; [left; exact G|exact W].
  - unfold in_sym at 1. destruct (sym_dec (symbol a) (symbol a)); [|contradiction]. f_equal. exact E.
Qed.
Lemma one_blank ps : blanks ps = 1%nat -> exists ps1 p ps2, ps = ps1 ++ p :: ps2 /\ blank p /\ blanks ps1 = 0%nat /\ blanks ps2 = 0%nat.
Proof.
  induction ps as [|p ps IH]; intro H; [discriminate|]. unfold blanks in *. cbn [filter] in H. destruct (get_amount p) as [a|] eqn:G.
  - destruct (IH H) as (ps1 & q & ps2 & -> & Bq & B1 & B2). exists (p :: ps1), q, ps2. split; [reflexivity|]. split; [exact Bq|].
    split; [|exact B2]. cbn [filter]. rewrite G. exact B1.
  - injection H as H. exists [], p, ps. split; [reflexivity|]. split; [exact G|]. split; [reflexivity|exact H].
Qed.
(** So do the real amounts of an entry with a blank posting and without
    envelope postings. *)
Theorem C100_blank : forall e sym zs, blanks (e_postings e) = 1%nat -> ~ manual e ->
  written (e_postings e) <> [] -> Forall (fun a => symbol a = sym) (written (e_postings e)) ->
  Forall2 (fun a z => f64_is (mag a) (IZR z)) (written (e_postings e)) zs ->
  Forall (fun s => Z.abs s <= 2 ^ 53) (partial_sums 0 zs) ->
  exists zs', real_amounts sym e zs' /\ Zsum zs' = 0
    /\ Zsum (map Z.abs zs') <= 2 * Zsum (map Z.abs zs).
Proof.
  intros e sym zs Bl Cl Ne Sy F P. destruct (one_blank _ Bl) as (ps1 & p & ps2 & E & Bp & B1 & B2).
  assert (exists q, In q (e_postings e) /\ blank q) as Ex by (exists p; split; [rewrite E; apply in_elt|exact Bp]).
  destruct (blank_amount_whole e sym zs Ex Ne Sy F P) as (b & Hb & Sb & Zb).
  assert (forall q, In q (e_postings e) -> is_envelope q = false) as Cl'.
  { intros q I. destruct q as [c|v]; [reflexivity|]. exfalso. apply Cl. exists v. exact I. }
  assert (written (e_postings e) = written ps1 ++ written ps2) as Wr.
  { rewrite E. unfold written. rewrite flat_map_app. cbn [flat_map]. rewrite Bp. reflexivity. }
  rewrite Wr in F, Sy. apply Forall2_app_inv_l in F as (z1 & z2 & F1 & F2 & ->). apply Forall_app in Sy as [S1 S2].
  destruct (all_written sym e ps1 B1) as [W1 E1]; [intros q I; apply Cl'; rewrite E; apply in_or_app; left; exact I|exact S1|].
  destruct (all_written sym e ps2 B2) as [W2 E2]; [intros q I; apply Cl'; rewrite E; apply in_or_app; right; right; exact I|exact S2|].
  exists (z1 ++ - Zsum (z1 ++ z2) :: z2). split; [|split].
  - exists (written ps1 ++ b :: written ps2). rewrite E, map_app, filter_app. cbn [map filter].
    assert (is_classic (e, p) = true) as Cp.
    { unfold is_classic. cbn [snd]. destruct p as [c|v]; [reflexivity|]. exfalso. apply Cl. exists v. rewrite E. apply in_elt. }
    rewrite Cp. split.
    + apply Forall2_app; [exact W1|]. constructor; [|exact W2]. right. split; [exact Bp|exact Hb].
    + rewrite filter_app. cbn [filter]. rewrite E1, E2. unfold in_sym at 1. destruct (sym_dec (symbol b) sym); [|contradiction].
      apply Forall2_app; [exact F1|]. constructor; assumption.
  - rewrite !Zsum_app. change (Zsum (?a :: ?m)) with (a + Zsum m). lia.
  - rewrite !map_app, !Zsum_app. cbn [map]. change (Zsum (?a :: ?m)) with (a + Zsum m).
    assert (forall l, Z.abs (Zsum l) <= Zsum (map Z.abs l)) as A by (unfold Zsum; induction l; cbn; lia).
    assert (A1 := A z1). assert (A2 := A z2). lia.
Qed.
Print Assumptions C100_blank.

Lemma holding sym l zs : Forall (fun z => Z.abs z <= 2 ^ 53) zs ->
  map (fun ka => mag (pool_only (a_real (snd ka)) sym)) (l_accounts l) = map fofZ zs -> holdings sym l zs.
Proof.
  unfold holdings. generalize (l_accounts l). intro m. revert zs.
  induction m as [|x m IH]; intros [|z zs] Bz E; try discriminate; constructor; injection E as E1 E2; inversion Bz; subst.
  - rewrite E1. apply f64_is_int, F64Facts.fofZ_int. assumption.
  - apply IH; assumption.
Qed.
(** With an envelope posting it can be otherwise: the amount of the envelope
    posting counts for the blank one.  Here $20 are spent, and nothing is
    taken from [assets:checking]. *)
Definition spent : list string :=
  ["account assets:checking"; "  expense food due every 15th"; "    amount $100"; "account expenses:food"; "account income:job";
   "2024/03/01 * pay"; "  assets:checking  $500"; "  income:job";
   "2024/03/02 * shop"; "  expenses:food  $20"; "  envelope assets:checking food $-20"; "  assets:checking"]%string.
Theorem C100_refuted : exists ls, forall l, l = loaded ls ->
  (exists w, loading ls = Ok (l, w)) /\ map (fun e => blanks (e_postings e)) (l_entries l) = [1; 1]%nat
  /\ exists ns, holdings (Some (lit "$")) l ns /\ Zsum ns = 20.
Proof.
  exists spent. intros l ->. split; [eexists; vm_compute; reflexivity|]. split; [vm_compute; reflexivity|].
  exists [500; 20; -500]. split; [|reflexivity]. apply holding; [repeat constructor; cbv; discriminate|vm_compute; reflexivity].
Qed.
Print Assumptions C100_refuted.
(** With the amount written out, nothing is lost. *)
Example C100_case :
  let l := loaded (removelast spent ++ ["  assets:checking  $-20"; "2024/03/03 * shop"; "  expenses:food  $7"; "  assets:checking"]%string) in
  map (fun ka => show_pool (a_real (snd ka))) (l_accounts l) = map lit ["$ 473"; "$ 27"; "$-500"]%string.
Proof. vm_compute. reflexivity. Qed.
