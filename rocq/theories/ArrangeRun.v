(** Ledgers whose accounts stand in another order: filling, reports and runs. *)
From Coq Require Import ZArith NArith List Bool String Permutation.
From Verif Require Import Base Str F64 Date World Amount Posting Entry Envelope Account Register Ledger Importer Cli
  SpecText SpecEntry SpecEnvelope SpecDefinition SpecLedger SpecImport SpecCrash SpecLayout SpecArrange
  StrFacts LineFacts PostingFacts EntryFacts EnvelopeFacts DefinitionFacts AccountFacts LedgerFacts LoadFacts OrderFacts IncludeFacts CrashImport
  LayoutFacts PropertiesCli TwinFacts ArrangeFacts ArrangeLoad.
From Verif Require ErrorFacts.
Import ListNotations.

(** ** Postings grouped by account *)
Definition regrouped (ps qs : list posting) : Prop :=
  forall a, filter (fun p => str_eqb (get_account p) a) ps = filter (fun p => str_eqb (get_account p) a) qs.
Definition moves (ps : list posting) : Prop := ps <> [] /\ forall p, In p ps -> exists ep, p = EnvPosting ep.
Definition EF (e f : entry) : Prop :=
  e = f \/ (e_date e = e_date f /\ moves (e_postings e) /\ moves (e_postings f) /\ regrouped (e_postings e) (e_postings f)).
Lemma EF_date e f : EF e f -> e_date e = e_date f.
Proof. intros [->|(D & _)]; [reflexivity|exact D]. Qed.
Lemma moves_all e : moves (e_postings e) -> has_envelope_posting e = true /\ envelope_postings e = e_postings e.
Proof.
  intros [N A]. split.
  - unfold has_envelope_posting. destruct (e_postings e) as [|p ps]; [contradiction|]. destruct (A p (or_introl eq_refl)) as (ep & ->). reflexivity.
  - unfold envelope_postings. induction (e_postings e) as [|p ps IH]; [reflexivity|]. destruct (A p (or_introl eq_refl)) as (ep & ->). cbn [filter is_envelope]. f_equal.
    clear N. destruct ps as [|q ps]; [reflexivity|]. apply IH; [discriminate|]. intros r I. apply A. right. exact I.
Qed.
Lemma manual_filter today d v ps : fold_res (manual_step today d) ps v = fold_res (manual_step today d) (filter (fun p => str_eqb (get_account p) (v_account v)) ps) v.
Proof.
  revert v. induction ps as [|p ps IH]; intro v; [reflexivity|]. cbn [fold_res filter]. destruct (str_eqb (get_account p) (v_account v)) eqn:E.
  - cbn [fold_res]. destruct (manual_step today d v p) as [w| | |] eqn:M; cbn [bind]; try reflexivity. rewrite IH. assert (v_account w = v_account v) as ->; [|reflexivity].
    unfold manual_step in M. destruct p as [c|ep]; [injection M as <-; reflexivity|]. destruct (_ && _); [|injection M as <-; reflexivity].
    clear - M. unfold apply_amount in M. apply bind_Ok in M as (w' & M & F). injection F as <-. cbn [set_last v_account].
    destruct (fltb _ _); [apply bind_Ok in M as (n & _ & M); injection M as <-; reflexivity|]. destruct (fltb _ _); [|injection M as <-; reflexivity].
    apply bind_Ok in M as (l & _ & M). destruct l as [l|]; [destruct (date_ltb _ _)|]; apply bind_Ok in M as (n & _ & M); injection M as <-; reflexivity.
  - assert (manual_step today d v p = Ok v) as ->; [|cbn [bind]; apply IH]. unfold manual_step. destruct p as [c|ep]; [reflexivity|]. cbn [get_account] in E. rewrite E. reflexivity.
Qed.
Lemma EF_env today v e f : EF e f -> env_process today v e = env_process today v f.
Proof.
  intros [->|(D & A & C & R)]; [reflexivity|]. destruct (moves_all e A) as [He Pe]. destruct (moves_all f C) as [Hf Pf].
  unfold env_process. rewrite He, Hf. unfold process_manual. rewrite Pe, Pf, D, manual_filter, R, <- manual_filter. reflexivity.
Qed.
Lemma moves_real name e : forall ps p, (forall x, In x ps -> exists ep, x = EnvPosting ep) -> fold_res (real_step name e) ps p = Ok p.
Proof.
  induction ps as [|x ps IH]; intros p H; [reflexivity|]. cbn [fold_res]. destruct (H x (or_introl eq_refl)) as (ep & ->).
  unfold real_step at 1. cbn [is_envelope negb]. rewrite andb_false_r. cbn [bind]. apply IH. intros y I. apply H. right. exact I.
Qed.
Lemma map_res_ext {A C} (f g : A -> res C) l : (forall a, f a = g a) -> map_res f l = map_res g l.
Proof. intro H. induction l as [|a l IH]; [reflexivity|]. cbn [map_res]. rewrite H, IH. reflexivity. Qed.
Lemma EF_acc today a e f : EF e f -> acc_process today a e = acc_process today a f.
Proof.
  intro H. unfold acc_process. rewrite (map_res_ext _ (fun v => env_process today v f) (a_expenses a)) by (intro; apply EF_env, H).
  rewrite (map_res_ext _ (fun v => env_process today v f) (a_goals a)) by (intro; apply EF_env, H).
  destruct H as [->|(_ & [_ A] & [_ C] & _)]; [reflexivity|]. rewrite !moves_real by assumption. reflexivity.
Qed.

(** ** Ledgers *)
Definition Led2 (l m : ledger) : Prop :=
  l_path l = l_path m /\ l_format l = l_format m /\ same_accounts (l_accounts l) (l_accounts m)
  /\ NoDup (account_names l) /\ Forall2 EF (l_entries l) (l_entries m).
Lemma Led_2 l m : Led l m -> Led2 l m.
Proof.
  intros [(P & E & F & C & A) N]. unfold Led2. split; [exact P|]. split; [exact F|]. split; [exact A|]. split; [exact N|]. rewrite E. apply Forall2_same. intro e. left. reflexivity.
Qed.
Lemma EF_insert e f es fs : EF e f -> Forall2 EF es fs -> Forall2 EF (insert_entry e es) (insert_entry f fs).
Proof.
  intros H. induction 1 as [|x y es fs Q F IH]; [constructor; [exact H|constructor]|]. cbn [insert_entry]. rewrite (EF_date _ _ H), (EF_date _ _ Q).
  destruct (date_leb _ _); constructor; auto.
Qed.
Lemma EF_sort es fs : Forall2 EF es fs -> Forall2 EF (sort_entries es) (sort_entries fs).
Proof. unfold sort_entries. induction 1; [constructor|]. cbn [fold_right]. apply EF_insert; assumption. Qed.
Lemma Led2_add today l m e f : Led2 l m -> EF e f -> both Led2 (add_entry today l e) (add_entry today m f).
Proof.
  intros (P & F & A & N & E) H. rewrite !add_entry_accounts_eq. pose proof (accounts_process today e _ _ A) as B.
  assert (X : map_res (process_pair today e) (l_accounts m) = map_res (process_pair today f) (l_accounts m))
    by (apply map_res_ext; intro ka; unfold process_pair; rewrite (EF_acc _ _ _ _ H); reflexivity).
  rewrite <- X. destruct (map_res (process_pair today e) (l_accounts l)) as [a| | |] eqn:M, (map_res (process_pair today e) (l_accounts m)) as [b| | |]; cbn in *; try contradiction; try exact I.
  unfold Led2. cbn. split; [exact P|]. split; [exact F|]. split; [exact B|]. split.
  - unfold account_names in *. cbn. rewrite (process_keys _ _ _ _ M). exact N.
  - apply EF_sort, Forall2_app; auto.
Qed.

(** ** The balance report *)
Definition Map (m n : list (str * pool)) : Prop := NoDup (map fst m) /\ NoDup (map fst n) /\ forall k, map_get k m = map_get k n.
Lemma Map_insert k p m n : Map m n -> Map (map_insert k p m) (map_insert k p n).
Proof. intros (N & N' & G). split; [apply map_insert_NoDup, N|]. split; [apply map_insert_NoDup, N'|]. intro k'. rewrite !map_get_insert, G. reflexivity. Qed.
Lemma Map_steps e ps : forall m n, Map m n -> both Map (fold_res (totals_step e) ps m) (fold_res (totals_step e) ps n).
Proof.
  induction ps as [|p ps IH]; intros m n H; [exact H|]. cbn [fold_res]. eapply both_bind; [|intros a b Q; apply IH, Q].
  unfold totals_step. destruct H as (N & N' & G). assert (H : Map m n) by (split; [exact N|split; assumption]). rewrite G. destruct (map_get (get_account p) n) as [pl|].
  - destruct (get_amount p) as [a|]; [apply Map_insert, H|]. eapply both_bind; [apply both_refl|]. intros [b|] ? <-; [apply Map_insert, H|exact H].
  - apply Map_insert, H.
Qed.
Definition tot (o : option pool) (p : posting) : option pool :=
  let a := match get_amount p with Some a => a | None => amount_zero end in
  match o with Some pl => Some (pool_add pl a) | None => Some [a] end.
Lemma moves_totals e ps : (forall p, In p ps -> exists ep, p = EnvPosting ep) -> forall m, NoDup (map fst m) ->
  exists n, fold_res (totals_step e) ps m = Ok n /\ NoDup (map fst n)
    /\ forall k, map_get k n = fold_left tot (filter (fun p => str_eqb (get_account p) k) ps) (map_get k m).
Proof.
  induction ps as [|p ps IH]; intros H m N; [exists m; auto|]. cbn [fold_res].
  destruct (H p (or_introl eq_refl)) as (ep & E). 
  assert (S : exists pl, totals_step e m p = Ok (map_insert (get_account p) pl m) /\ Some pl = tot (map_get (get_account p) m) p).
  { unfold totals_step, tot. subst p. cbn [get_amount]. destruct (map_get _ m); eexists; split; reflexivity. }
  destruct S as (pl & -> & T). cbn [bind]. destruct (IH (fun q I => H q (or_intror I)) (map_insert (get_account p) pl m) (map_insert_NoDup _ _ _ N)) as (n & F & Nn & G).
  exists n. split; [exact F|]. split; [exact Nn|]. intro k. rewrite G, map_get_insert. cbn [filter]. destruct (str_dec (get_account p) k) as [<-|D].
  - rewrite str_eqb_refl. cbn [fold_left]. rewrite <- T. reflexivity.
  - rewrite (proj2 (str_eqb_neq _ _) D). reflexivity.
Qed.
Lemma Map_entry e f m n : EF e f -> Map m n -> both Map (fold_res (totals_step e) (e_postings e) m) (fold_res (totals_step f) (e_postings f) n).
Proof.
  intros [->|(_ & [_ A] & [_ C] & R)] H; [apply Map_steps, H|]. destruct H as (N & N' & G).
  destruct (moves_totals e _ A m N) as (m' & -> & Nm & Gm). destruct (moves_totals f _ C n N') as (n' & -> & Nn & Gn).
  split; [exact Nm|]. split; [exact Nn|]. intro k. rewrite Gm, Gn, G, R. reflexivity.
Qed.
Lemma Map_sort m n : Map m n -> sort_keys m = sort_keys n.
Proof.
  intros (N & N' & G). apply sort_keys_unique; [exact N|]. apply NoDup_Permutation; [eapply NoDup_map_inv, N|eapply NoDup_map_inv, N'|].
  intros [k p]. rewrite <- !map_get_In by assumption. rewrite G. reflexivity.
Qed.
Lemma balance_same l m : Led2 l m -> both eq (show_balance l) (show_balance m).
Proof.
  intros (_ & _ & _ & _ & E). unfold show_balance, get_totals.
  assert (G : forall a b, Map a b -> both Map (fold_res (fun m e => fold_res (totals_step e) (e_postings e) m) (l_entries l) a) (fold_res (fun m e => fold_res (totals_step e) (e_postings e) m) (l_entries m) b)).
  { induction E as [|e f es fs H F IH]; intros a b Q; [exact Q|]. cbn [fold_res]. eapply both_bind; [apply Map_entry; eassumption|]. intros a' b' Q'. apply IH, Q'. }
  eapply both_bind; [apply G; split; [constructor|split; [constructor|reflexivity]]|]. intros a b Q. rewrite (Map_sort _ _ Q). reflexivity.
Qed.

(** ** The envelope report *)
Lemma Forall2_map_res {A C} (R : A -> A -> Prop) (f : A -> res C) l m : (forall a b, R a b -> f a = f b) -> Forall2 R l m -> map_res f l = map_res f m.
Proof. intro H. induction 1 as [|a b l m Q F IH]; [reflexivity|]. cbn [map_res]. rewrite (H _ _ Q), IH. reflexivity. Qed.
Lemma available_same a b : same_account a b -> available_value a = available_value b.
Proof.
  intros (_ & R & X & G). unfold available_value, all_envelopes. rewrite R. generalize (a_real b) as p. pose proof (Forall2_app X G) as F. clear - F.
  induction F as [|v u l m H F IH]; intro p; [reflexivity|]. cbn [fold_left]. destruct H as (_ & _ & _ & _ & _ & _ & -> & -> & _). apply IH.
Qed.
Lemma show_same today a b : same_account a b -> show_account today a = show_account today b.
Proof.
  intro H. unfold show_account. rewrite (available_same _ _ H). destruct H as (N & R & X & G). rewrite N.
  assert (S : forall v u, same_envelope v u -> show_envelope today v = show_envelope today u) by (intros v u Q; destruct (same_reauto _ _ Q) as [-> _]; reflexivity).
  assert (T : forall title l m, Forall2 same_envelope l m ->
     match l with [] => Ok [] | _ => let! ts := map_res (show_envelope today) l in Ok (title ++ [10%N] ++ List.concat (map (fun t : str => t ++ [10%N]) ts)) end
     = match m with [] => Ok [] | _ => let! ts := map_res (show_envelope today) m in Ok (title ++ [10%N] ++ List.concat (map (fun t : str => t ++ [10%N]) ts)) end).
  { intros title l m F. rewrite (Forall2_map_res _ _ _ _ S F). destruct F; reflexivity. }
  assert (E : all_envelopes a = [] <-> all_envelopes b = []).
  { unfold all_envelopes. pose proof (Forall2_app X G) as F. inversion F; split; intro Q; congruence. }
  destruct (all_envelopes a), (all_envelopes b); try reflexivity; try (exfalso; destruct E as [E1 E2]; first [discriminate (E1 eq_refl)|discriminate (E2 eq_refl)]; fail).
  assert (BX : forall {U V} (r s : res U) (f g : U -> res V), r = s -> (forall x, f x = g x) -> bind r f = bind s g) by (intros U V r s f g -> Q; destruct s; cbn; auto).
  cbv zeta. apply BX; [apply (T (lit "  expenses")), X|]. intro ex. apply BX; [apply (T (lit "  goals")), G|]. intro go. reflexivity.
Qed.
Lemma KA_sort m o : Forall2 KA m o -> Forall2 KA (sort_keys m) (sort_keys o).
Proof.
  unfold sort_keys. induction 1 as [|x y m o Q F IH]; [constructor|]. cbn [fold_right]. revert IH. generalize (fold_right insert_key [] m) as a, (fold_right insert_key [] o) as b.
  intros a b G. clear - Q G. induction G as [|z u a b P F IH]; cbn [insert_key]; [constructor; [exact Q|constructor]|].
  pose proof Q as [-> _]. pose proof P as [-> _]. destruct (str_compare (fst y) (fst u)); constructor; auto.
Qed.
Lemma envelopes_same today l m : Led2 l m -> show_envelopes today l = show_envelopes today m.
Proof.
  intros (_ & _ & (o & F & P) & N & _). unfold show_envelopes. assert (No : NoDup (map fst o)) by (rewrite <- (KA_keys _ _ F); exact N).
  rewrite <- (sort_keys_unique o (l_accounts m) No P). rewrite (Forall2_map_res KA _ _ _ (fun x y Q => show_same today (snd x) (snd y) (proj2 Q)) (KA_sort _ _ F)). reflexivity.
Qed.

(** ** Filling *)
Lemma filling_same today a b : same_account a b -> filling_postings today a = filling_postings today b.
Proof.
  intro H. unfold filling_postings. rewrite (available_same _ _ H). destruct H as (_ & _ & X & G).
  assert (F : Forall2 same_envelope (rev (all_envelopes a)) (rev (all_envelopes b))).
  { pose proof (Forall2_app X G) as F. unfold all_envelopes. clear - F. induction F as [|v u l m Q F IH]; [constructor|]. cbn [rev]. apply Forall2_app; auto. }
  assert (E : forall st, fold_res (filling_step today) (rev (all_envelopes a)) st = fold_res (filling_step today) (rev (all_envelopes b)) st); [|rewrite E; reflexivity].
  induction F as [|v u l m Q F IH]; intro st; [reflexivity|]. cbn [fold_res].
  assert (filling_step today st v = filling_step today st u) as -> by (destruct (same_reauto _ _ Q) as [-> _]; reflexivity).
  destruct (filling_step today st u); cbn [bind]; auto.
Qed.
Definition keyed (today : date) (ka : str * account) : res (str * list posting) := let! ps := filling_postings today (snd ka) in Ok (fst ka, ps).
Lemma keyed_groups today m : map_res (fun ka => filling_postings today (snd ka)) m = rmap (map snd) (map_res (keyed today) m).
Proof.
  induction m as [|ka m IH]; [reflexivity|]. cbn [map_res]. unfold keyed at 1. rewrite IH. unfold rmap. destruct (filling_postings today (snd ka)); cbn [bind]; try reflexivity.
  destruct (map_res (keyed today) m); reflexivity.
Qed.
Definition owned (m : list (str * account)) : Prop := forall ka v, In ka m -> In v (all_envelopes (snd ka)) -> v_account v = fst ka.
Definition group (kp : str * list posting) : Prop := forall p, In p (snd kp) -> exists ep, p = EnvPosting ep /\ ep_account ep = fst kp.
Lemma keyed_group today m gs : owned m -> map_res (keyed today) m = Ok gs -> Forall group gs /\ map fst gs = map fst m.
Proof.
  revert gs. induction m as [|ka m IH]; intros gs O H; [injection H as <-; split; [constructor|reflexivity]|]. cbn [map_res] in H.
  apply bind_Ok in H as (g & Hg & H). apply bind_Ok in H as (gs' & Hs & H). injection H as <-. destruct (IH gs' (fun x v I => O x v (or_intror I)) Hs) as [G K].
  unfold keyed in Hg. apply bind_Ok in Hg as (ps & Hp & Hg). injection Hg as <-. split; [|cbn; rewrite K; reflexivity]. constructor; [|exact G].
  apply filling_postings_iff in Hp as (q & Hp). intros p Ip. cbn [snd fst] in *. destruct (fillings_In _ _ _ _ _ _ Hp Ip) as (v & av & a & Iv & _ & ->).
  eexists. split; [reflexivity|]. cbn. apply (O ka v); [left; reflexivity|]. apply in_rev. exact Iv.
Qed.
Lemma group_filter kp a : group kp -> fst kp <> a -> filter (fun p => str_eqb (get_account p) a) (filter keep_posting (snd kp)) = [].
Proof.
  unfold group. destruct kp as [k ps]. cbn [fst snd]. intros G D. induction ps as [|p ps IH]; [reflexivity|]. cbn [filter]. destruct (G p (or_introl eq_refl)) as (ep & -> & E).
  destruct (keep_posting (EnvPosting ep)).
  - cbn [filter get_account]. rewrite E, (proj2 (str_eqb_neq _ _) D). apply IH. intros q I. apply G. right. exact I.
  - apply IH. intros q I. apply G. right. exact I.
Qed.
Definition flat (gs : list (str * list posting)) : list posting := filter keep_posting (List.concat (map snd gs)).
Lemma flat_cons g gs : flat (g :: gs) = filter keep_posting (snd g) ++ flat gs.
Proof. unfold flat. cbn [map List.concat]. apply filter_app. Qed.
Lemma flat_regrouped gs hs : Permutation gs hs -> Forall group gs -> NoDup (map fst gs) -> regrouped (flat gs) (flat hs) /\ Permutation (flat gs) (flat hs).
Proof.
  induction 1 as [|g gs hs P IH|g h gs|gs hs ks P1 IH1 P2 IH2]; intros G N.
  - split; [intro a; reflexivity|apply Permutation_refl].
  - inversion G; subst. cbn [map] in N. inversion N; subst. destruct IH as [R Q]; [assumption|assumption|]. rewrite !flat_cons. split; [|apply Permutation_app_head, Q].
    intro a. rewrite !filter_app, R. reflexivity.
  - rewrite !flat_cons. split; [|rewrite !app_assoc; apply Permutation_app_tail, Permutation_app_comm].
    intro a. rewrite !filter_app. inversion G as [|? ? G1 G']; subst. inversion G' as [|? ? G2 _]; subst. cbn [map] in N. inversion N as [|? ? Nh _]; subst.
    rewrite !app_assoc. f_equal. destruct (str_dec (fst g) a) as [<-|D].
    + rewrite (group_filter h (fst g) G1); [rewrite app_nil_r; reflexivity|]. intro E. apply Nh. left. symmetry. exact E.
    + rewrite (group_filter g a G2 D), app_nil_r. reflexivity.
  - destruct IH1 as [R1 Q1]; [assumption|assumption|]. destruct IH2 as [R2 Q2].
    + eapply Permutation_Forall; eassumption.
    + eapply Permutation_NoDup; [apply Permutation_map, P1|exact N].
    + split; [intro a; rewrite R1; apply R2|eapply perm_trans; eassumption].
Qed.
Lemma fill_same today l m : Led2 l m -> owned (l_accounts l) ->
  both (fun ps qs => regrouped ps qs /\ Permutation ps qs /\ forall p, In p ps -> exists ep, p = EnvPosting ep) (fill_postings today l) (fill_postings today m).
Proof.
  intros (_ & _ & (o & F & P) & N & _) O. unfold fill_postings. rewrite !keyed_groups.
  assert (E : map_res (keyed today) (l_accounts l) = map_res (keyed today) o).
  { apply (Forall2_map_res KA); [|exact F]. intros x y [K S]. unfold keyed. rewrite K, (filling_same today _ _ S). reflexivity. }
  pose proof (map_res_perm (keyed today) o (l_accounts m) P) as B. rewrite <- E in B.
  destruct (map_res (keyed today) (l_accounts l)) as [gs| | |] eqn:Hl, (map_res (keyed today) (l_accounts m)) as [hs| | |]; cbn in B |- *; try contradiction; try exact I.
  destruct (keyed_group today _ gs O Hl) as [G K]. assert (Ng : NoDup (map fst gs)) by (rewrite K; exact N).
  destruct (flat_regrouped gs hs B G Ng) as [R Q]. split; [exact R|]. split; [exact Q|]. intros p Ip. apply filter_In in Ip as [Ip _]. apply in_concat in Ip as (ps & Ips & Ip).
  apply in_map_iff in Ips as (g & <- & Ig). rewrite Forall_forall in G. destruct (G g Ig p Ip) as (ep & -> & _). eauto.
Qed.
Lemma built_grown today l es : built today l es -> forall k a, In (k, a) (l_accounts l) -> grown today a.
Proof.
  induction 1 as [p|l es e l' H IH A|l es c l' H IH A|l es v l' H IH A|l es v l' H IH A]; intros k a K.
  - contradiction.
  - rewrite add_entry_accounts_eq in A. apply bind_Ok in A as (accs & A & E). injection E as <-. cbn [l_accounts] in K. revert accs A K.
    generalize (l_accounts l) as m, IH. clear. induction m as [|[k0 a0] m IH]; intros Q accs H K; [injection H as <-; contradiction|].
    cbn [map_res] in H. apply bind_Ok in H as ([k1 b] & H1 & H). apply bind_Ok in H as (accs' & H2 & H). injection H as <-.
    unfold process_pair in H1. apply bind_Ok in H1 as (b' & H1 & E). injection E as <- <-. cbn [fst snd] in *. destruct K as [K|K].
    + injection K as -> ->. eapply grown_entry; [apply (Q k a0); left; reflexivity|exact H1].
    + apply (IH (fun k a I => Q k a (or_intror I)) accs' H2 K).
  - unfold ledger_parse_account in A. apply bind_Ok in A as (b & A & E). injection E as <-. cbn [l_accounts] in K. apply ErrorFacts.insert_In in K as [->|K]; [eapply grown_parsed; exact A|eapply IH, K].
  - destruct v; [|discriminate]. injection A as <-. eapply IH, K.
  - destruct v; [|discriminate]. injection A as <-. eapply IH, K.
Qed.
Lemma built_owned today l es : built today l es -> owned (l_accounts l).
Proof.
  intros H [k a] v I V. cbn [fst snd] in *. destruct (built_well_keyed _ _ _ H) as [N K]. destruct (grown_sound _ _ (built_grown _ _ _ H k a I)) as [S _].
  rewrite (proj1 (S v V)). apply K. apply map_get_In; assumption.
Qed.

(** ** Appended lines *)
Definition closed (x : str) : Prop := x = [] \/ exists z, x = z ++ [10%N].
Lemma lines_pieces a b : lines (a ++ 10%N :: b) = map strip_cr (split_on 10%N a) ++ lines b.
Proof. unfold lines. rewrite pieces_app. apply finish_app. destruct (split_on 10%N b) eqn:E; [|discriminate]. destruct b as [|c b]; cbn in E; [discriminate|]. destruct (N.eqb c 10); [discriminate|]. destruct (split_on 10 b); discriminate. Qed.
Lemma lines_closed x y : closed x -> lines (x ++ y) = lines x ++ lines y.
Proof.
  intros [->|(z & ->)]; [reflexivity|]. rewrite <- app_assoc. cbn [app]. rewrite !lines_pieces. change (lines []) with (@nil str). rewrite app_nil_r. reflexivity.
Qed.
Lemma closed_app x y : closed x -> closed y -> closed (x ++ y).
Proof. intros A [->|(z & ->)]; [rewrite app_nil_r; exact A|]. right. exists (x ++ z). apply app_assoc. Qed.
Definition posted (p : posting) : str := lit "    " ++ show_posting p ++ [10%N].
Lemma posted_closed ps : closed (List.concat (map posted ps)).
Proof.
  induction ps as [|p ps IH]; [left; reflexivity|]. cbn [map List.concat]. apply closed_app; [|exact IH]. right. exists (lit "    " ++ show_posting p). unfold posted. apply app_assoc.
Qed.
Lemma posted_lines ps : lines (List.concat (map posted ps)) = flat_map (fun p => lines (posted p)) ps.
Proof.
  induction ps as [|p ps IH]; [reflexivity|]. cbn [map List.concat flat_map]. rewrite lines_closed, IH; [reflexivity|]. right. exists (lit "    " ++ show_posting p). unfold posted. apply app_assoc.
Qed.
Definition added (fmt : str) (e : entry) : str := 10%N :: show_entry fmt e.
Lemma added_eq fmt e : added fmt e = (10%N :: show_entry_header fmt e) ++ 10%N :: List.concat (map posted (e_postings e)).
Proof. reflexivity. Qed.
Lemma added_closed fmt e : closed (added fmt e).
Proof.
  rewrite added_eq. change (10%N :: List.concat (map posted (e_postings e))) with ([10%N] ++ List.concat (map posted (e_postings e))). rewrite app_assoc.
  apply closed_app; [right; eexists; reflexivity|apply posted_closed].
Qed.
Lemma added_lines fmt e f : show_entry_header fmt e = show_entry_header fmt f -> Permutation (e_postings e) (e_postings f) -> Permutation (lines (added fmt e)) (lines (added fmt f)).
Proof. intros H P. rewrite !added_eq, !lines_pieces, !posted_lines, H. apply Permutation_app_head, Permutation_flat_map, P. Qed.

Definition Lines (w w' v v' : world) : Prop :=
  forall p, exists x y, files w' p = option_map (fun t => t ++ x) (files w p) /\ files v' p = option_map (fun t => t ++ y) (files v p)
    /\ Permutation (lines x) (lines y) /\ closed x /\ closed y.
Lemma Lines_same w w' v v' : Lines w w' v v' -> same_lines w w' v v'.
Proof. intros H p. destruct (H p) as (x & y & A & C & P & _). exists x, y. auto. Qed.
Lemma Lines_none w w' v v' : files w' = files w -> files v' = files v -> Lines w w' v v'.
Proof.
  intros Ew Ev p. rewrite Ew, Ev. exists [], []. split; [destruct (files w p); cbn; rewrite ?app_nil_r; reflexivity|]. split; [destruct (files v p); cbn; rewrite ?app_nil_r; reflexivity|].
  split; [constructor|]. split; left; reflexivity.
Qed.
Lemma Lines_trans w w1 w2 v v1 v2 : Lines w w1 v v1 -> Lines w1 w2 v1 v2 -> Lines w w2 v v2.
Proof.
  intros A C p. destruct (A p) as (x & y & Aw & Av & P & Cx & Cy). destruct (C p) as (x' & y' & Bw & Bv & P' & Cx' & Cy'). exists (x ++ x'), (y ++ y'). rewrite Bw, Bv, Aw, Av.
  split; [destruct (files w p); cbn; rewrite ?app_assoc; reflexivity|]. split; [destruct (files v p); cbn; rewrite ?app_assoc; reflexivity|].
  split; [rewrite !lines_closed by assumption; apply Permutation_app; assumption|]. split; apply closed_app; assumption.
Qed.
Lemma Lines_twin w w1 v v1 : Twin w v -> Lines w w1 v v1 -> cwd w1 = cwd w -> cwd v1 = cwd v -> Twin w1 v1.
Proof.
  intros [C N] A Cw Cv. split; [congruence|]. intro p. destruct (A p) as (x & y & -> & -> & _). specialize (N p).
  destruct (files w p), (files v p); cbn; split; intro E; try discriminate; try reflexivity; exfalso; destruct N as [N1 N2]; first [discriminate (N1 eq_refl)|discriminate (N2 eq_refl)].
Qed.
Lemma arr_append today l m w v e f : Led2 l m -> Twin w v -> EF e f -> (forall fmt, Permutation (lines (added fmt e)) (lines (added fmt f))) ->
  Lines w (fst (append_entry today l w e)) v (fst (append_entry today m v f))
  /\ Twin (fst (append_entry today l w e)) (fst (append_entry today m v f))
  /\ both Led2 (snd (append_entry today l w e)) (snd (append_entry today m v f)).
Proof.
  intros L T H P. pose proof L as (Pa & F & _). pose proof T as [Cw N].
  assert (Z : Lines w w v v) by (apply Lines_none; reflexivity).
  unfold append_entry, append_file. rewrite Pa, F.
  assert (R : resolve w (l_path m) = resolve v (l_path m)) by (unfold resolve; rewrite Cw; reflexivity). rewrite R.
  specialize (N (resolve v (l_path m))) as Np. destruct (files w (resolve v (l_path m))) as [t|] eqn:Ew, (files v (resolve v (l_path m))) as [u|] eqn:Ev.
  - destruct (printable (l_format m)); cbn [fst snd]; [|split; [exact Z|split; [exact T|exact I]]].
    match goal with |- Lines w ?a v ?b /\ _ => assert (S : Lines w a v b) end.
    { intro q. cbn [files]. destruct (path_eqb q (resolve v (l_path m))) eqn:Q; [|apply (Z q)]. apply path_eqb_true in Q as ->.
      exists (added (l_format m) e), (added (l_format m) f). rewrite Ew, Ev. split; [reflexivity|]. split; [reflexivity|]. split; [apply P|]. split; apply added_closed. }
    split; [exact S|]. split; [eapply Lines_twin; [exact T|exact S|reflexivity|reflexivity]|]. apply Led2_add; assumption.
  - destruct Np as [_ Np]. discriminate (Np eq_refl).
  - destruct Np as [Np _]. discriminate (Np eq_refl).
  - split; [exact Z|]. split; [exact T|exact I].
Qed.
Lemma arr_fill today l m w v : Led2 l m -> owned (l_accounts l) -> Twin w v ->
  Lines w (fst (fill_envelopes today l w)) v (fst (fill_envelopes today m v))
  /\ Twin (fst (fill_envelopes today l w)) (fst (fill_envelopes today m v))
  /\ both Led2 (snd (fill_envelopes today l w)) (snd (fill_envelopes today m v)).
Proof.
  intros L O T. unfold fill_envelopes. pose proof (fill_same today l m L O) as H.
  assert (Z : Lines w w v v) by (apply Lines_none; reflexivity).
  destruct (fill_postings today l) as [ps| | |], (fill_postings today m) as [qs| | |]; cbn in H; try contradiction; try (split; [exact Z|split; [exact T|exact I]]; fail).
  destruct H as (R & P & V). destruct ps as [|p ps].
  { apply Permutation_nil in P as ->. split; [exact Z|]. split; [exact T|exact L]. }
  destruct qs as [|q qs]; [apply Permutation_sym, Permutation_nil in P; discriminate|].
  apply arr_append; [exact L|exact T| |].
  - right. cbn. split; [reflexivity|]. split; [split; [discriminate|exact V]|]. split; [|exact R]. split; [discriminate|]. intros x I. apply V. eapply Permutation_in; [apply Permutation_sym, P|exact I].
  - intro fmt. apply added_lines; [reflexivity|exact P].
Qed.
Lemma arr_import today mk mk' recs : (forall rec, mk rec = mk' rec) -> forall l m w v, Led2 l m -> Twin w v ->
  Lines w (fst (import_records today mk l w recs)) v (fst (import_records today mk' m v recs))
  /\ both Led2 (snd (import_records today mk l w recs)) (snd (import_records today mk' m v recs)).
Proof.
  intro Mk. induction recs as [|rec recs IH]; intros l m w v L T; assert (Z : Lines w w v v) by (apply Lines_none; reflexivity); cbn [import_records].
  - split; [exact Z|exact L].
  - rewrite <- Mk. destruct (mk rec) as [e| | |]; try (split; [exact Z|exact I]).
    destruct (arr_append today l m w v e e L T (or_introl eq_refl) (fun fmt => Permutation_refl _)) as (S & T' & R).
    destruct (append_entry today l w e) as [w1 r], (append_entry today m v e) as [v1 s]. cbn [fst snd] in *.
    destruct r as [l1| | |], s as [m1| | |]; cbn in R; try contradiction; try (split; [exact S|exact I]).
    destruct (IH l1 m1 w1 v1 R T') as [S2 R2]. split; [eapply Lines_trans; eassumption|exact R2].
Qed.
Lemma names_import lower ord rs A C rec : (forall s, mem s A = mem s C) -> import_record lower ord rs A rec = import_record lower ord rs C rec.
Proof.
  intro H. unfold import_record, entry_of_record.
  assert (E : forall vars l, map_res (import_posting ord vars (select_rules lower rec rs) A) l = map_res (import_posting ord vars (select_rules lower rec rs) C) l); [|].
  { intros vars l. apply map_res_ext. intro ia. unfold import_posting. rewrite !(parse_posting_names _ _ _ _ H). reflexivity. }
  destruct (make_variables _ _ _); cbn [bind]; try reflexivity. destruct (ok_or _ _); cbn [bind]; try reflexivity. destruct (parse_status _); cbn [bind]; try reflexivity. rewrite E. reflexivity.
Qed.

(** ** Runs *)
Definition ended {A} (r : res A) : Prop := exists a, r = Ok a.
Definition agree (w v : world) (o o' : outcome) : Prop :=
  o_out o = o_out o' /\ (ended (o_res o) <-> ended (o_res o')) /\ Lines w (o_world o) v (o_world o').
Lemma rearranged_twin w v : rearranged_world w v -> Twin w v.
Proof.
  intros (_ & C & F). split; [exact C|]. intro p. specialize (F p). destruct (files w p), (files v p); try contradiction; split; intro E; try discriminate; reflexivity.
Qed.

Lemma arr_execute x f w v : rearranged_world w v -> (f_cmd f = CmdRegister -> f_no_move f = true) ->
  (forall j c, f_cmd f = Import -> journal_path x f = Some j -> f_csv f = Some c -> same_sources w v j c (rules_for f c)) ->
  agree w v (execute x f w) (execute x f v).
Proof.
  intros W K Src. unfold execute. assert (Z : Lines w w v v) by (apply Lines_none; reflexivity).
  assert (NO : forall w' v' r s, ~ ended r -> ~ ended s -> Lines w w' v v' -> agree w v (mkOutcome w' [] r) (mkOutcome v' [] s)) by (intros w' v' r s A C S; split; [reflexivity|split; [tauto|exact S]]).
  assert (NE : forall A e, ~ ended (@Err A e)) by (intros A e (a & E); discriminate).
  assert (NP : forall A, ~ ended (@Panic A)) by (intros A (a & E); discriminate).
  assert (NL : forall A, ~ ended (@Loop A)) by (intros A (a & E); discriminate).
  destruct (journal_path x f) as [p|] eqn:J; [|apply NO; auto].
  pose proof (St_from_file (x_fuel x) (x_today x) p w v W) as L.
  assert (FW : forall s, from_file (x_fuel x) (x_today x) p w = Ok s -> files (snd s) = files w /\ l_path (fst s) = p /\ owned (l_accounts (fst s))).
  { intros s Q. split; [exact (load_files _ _ _ _ _ Q)|]. split; [exact (load_path _ _ _ _ _ Q)|].
    destruct (loaded_built _ _ _ _ _ [] Q (built_new _ _)) as (es & Bu). exact (built_owned _ _ _ Bu). }
  assert (FV : forall s, from_file (x_fuel x) (x_today x) p v = Ok s -> files (snd s) = files v) by (intros s Q; exact (load_files _ _ _ _ _ Q)).
  destruct (from_file (x_fuel x) (x_today x) p w) as [[l w1]| | |], (from_file (x_fuel x) (x_today x) p v) as [[m v1]| | |]; cbn in L; try contradiction; try (unfold done; cbn [fst snd bind]; apply NO; auto; fail).
  destruct L as [L W1]. cbn [fst snd] in L, W1. specialize (FW _ eq_refl). specialize (FV _ eq_refl). cbn [fst snd] in FW, FV. destruct FW as (FW & Pw & Ow).
  apply rearranged_twin in W1. assert (Ee : l_entries l = l_entries m) by apply L. apply Led_2 in L.
  assert (RC : forall l m w2 v2, Led2 l m -> (f_cmd f = CmdRegister -> l_entries l = l_entries m) -> Lines w w2 v v2 -> Twin w2 v2 -> (forall q, q <> resolve w1 p -> files w2 q = files w q) ->
    (forall q, q <> resolve w1 p -> files v2 q = files v q) -> agree w v (run_command x f l w2) (run_command x f m v2)).
  { clear l m L Ee Pw Ow. intros l m w2 v2 L Rg S T O O'. unfold run_command.
    assert (PR : forall r s : res str, both eq r s -> agree w v (Cli.printed w2 r) (Cli.printed v2 s)).
    { intros r s Q. destruct r, s; cbn in Q; try contradiction; subst; unfold Cli.printed, done; cbn; try (unfold done; cbn [fst snd bind]; apply NO; auto; fail). split; [reflexivity|]. split; [reflexivity|exact S]. }
    destruct (f_cmd f) eqn:Cmd; try (unfold done; cbn [fst snd bind]; apply NO; auto; fail).
    - apply PR, balance_same, L.
    - apply PR. rewrite (envelopes_same _ _ _ L). apply both_refl.
    - apply PR. unfold show_register. rewrite (Rg eq_refl). destruct L as (_ & -> & _). apply both_refl.
    - destruct (f_csv f) as [c|] eqn:Csv; [|apply NO; auto]. specialize (Src p c eq_refl eq_refl eq_refl).
      assert (Away : forall d q, rules_file w d (rules_for f c) q \/ q = located d c -> files w2 q = files w q /\ files v2 q = files w q).
      { intros d q Rq. destruct (Src d q Rq) as [Eq Nj]. split; [apply O; exact (Nj (cwd w1))|]. rewrite Eq. apply O'. exact (Nj (cwd w1)). }
      assert (Rules : forall d q, rules_file w2 d (rules_for f c) q -> rules_file w d (rules_for f c) q).
      { intros d q Rq. induction Rq as [|q t is l0 f0 Rq IH Fq La Ru In]; [apply rules_main|]. eapply rules_include; [exact IH| |exact La|exact Ru|exact In].
        rewrite <- Fq. symmetry. apply (Away d). left. exact IH. }
      assert (OI : open_importer (x_fuel x) w2 (x_csv x) c (f_rules f) = open_importer (x_fuel x) v2 (x_csv x) c (f_rules f)).
      { apply (open_agree w2 v2 (rules_for f c)); [exact (proj1 T)| |reflexivity|].
        - intros q Rq. destruct (Away (cwd w2) q) as [-> ->]; [left; apply Rules, Rq|reflexivity].
        - destruct (Away (cwd w2) (located (cwd w2) c)) as [-> ->]; [right; reflexivity|reflexivity]. }
      unfold import_csv. rewrite <- OI. destruct (open_importer _ _ _ _ _) as [[rs recs]| | |]; try (unfold done; cbn [fst snd bind]; apply NO; auto; fail).
      assert (Mk : forall s, mem s (account_names l) = mem s (account_names m)).
      { intro s. destruct L as (_ & _ & A & _). apply mem_perm. destruct A as (o & F & P). unfold account_names. rewrite (KA_keys _ _ F). apply Permutation_map, P. }
      destruct (arr_import (x_today x) _ _ recs (fun rec => names_import (x_lower x) (x_ord x) rs _ _ rec Mk) l m w2 v2 L T) as [S2 R2].
      destruct (import_records _ _ l _ _) as [w3 r], (import_records _ _ m _ _) as [v3 s]. cbn [fst snd] in *. unfold done. split; [reflexivity|]. split; [|eapply Lines_trans; eassumption].
      cbn. destruct r, s; cbn in R2; try contradiction; split; intros (? & E); try discriminate; eexists; reflexivity. }
  assert (Z1 : Lines w w1 v v1) by (apply Lines_none; assumption).
  destruct (f_no_move f) eqn:NM.
  { apply RC; [exact L|intros _; exact Ee|exact Z1|exact W1|intros q _; rewrite FW; reflexivity|intros q _; rewrite FV; reflexivity]. }
  pose proof (arr_fill (x_today x) l m w1 v1 L Ow W1) as (S & T & R).
  destruct (fill_envelopes (x_today x) l w1) as [w2 r] eqn:Fl, (fill_envelopes (x_today x) m v1) as [v2 r'] eqn:Fm. cbn [fst snd] in S, T, R.
  assert (S' : Lines w w2 v v2) by (eapply Lines_trans; eassumption).
  pose proof (fill_longer _ _ _ _ _ Fl) as ((O & _) & _ & _). rewrite Pw in O.
  pose proof (fill_longer _ _ _ _ _ Fm) as ((O' & _) & _ & _). replace (l_path m) with p in O' by (rewrite <- (proj1 L); symmetry; exact Pw).
  assert (RW : resolve w1 p = resolve v1 p) by (unfold resolve; rewrite (proj1 W1); reflexivity). rewrite <- RW in O'.
  destruct r, r'; cbn in R; try contradiction; try (unfold done; cbn [fst snd bind]; apply NO; auto; fail).
  apply RC; [exact R|intro E; discriminate (K E)|exact S'|exact T| |].
  - intros q Nq. rewrite (O q Nq), FW. reflexivity.
  - intros q Nq. rewrite (O' q Nq), FV. reflexivity.
Qed.
