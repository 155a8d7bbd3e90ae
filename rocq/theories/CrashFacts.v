(** Proofs that runs do not crash. *)
From Coq Require Import ZArith NArith List Bool String Lia.
From Verif Require Import Base Str F64 Date World Amount Posting Entry Envelope Account Register Ledger Importer Cli
  SpecAmount SpecDate SpecEntry SpecEnvelope SpecLedger SpecRegister SpecDefinition SpecCrash
  StrFacts AmountFacts LineFacts PostingFacts EntryFacts DateFacts DateFormat EnvelopeFacts FreqFacts FillFacts AccountFacts LedgerFacts LoadFacts
  IncludeFacts RegisterFacts DefinitionFacts RunFacts.
Import ListNotations.
Local Open Scope Z_scope.

(** [r] is no panic, and its value satisfies [Q]. *)
Definition wp {A} (r : res A) (Q : A -> Prop) : Prop :=
  match r with Ok a => Q a | Panic => False | _ => True end.
Lemma wp_bind {A B} (r : res A) (f : A -> res B) Q : wp r (fun a => wp (f a) Q) -> wp (bind r f) Q.
Proof. destruct r; auto. Qed.
Lemma wp_weaken {A} (r : res A) (P Q : A -> Prop) : wp r P -> (forall a, r = Ok a -> P a -> Q a) -> wp r Q.
Proof. destruct r; cbn; auto. Qed.
Lemma wp_fold {A T} (J : T -> Prop) (f : T -> A -> res T) l :
  (forall s a, In a l -> J s -> wp (f s a) J) -> forall s, J s -> wp (fold_res f l s) J.
Proof.
  induction l as [|a l IH]; intros H s Js; cbn [fold_res]; [exact Js|]. apply wp_bind.
  apply (wp_weaken _ J); [apply H; [left; reflexivity|exact Js]|]. intros s' _ Js'. apply IH; [|exact Js'].
  intros s1 b I. apply H. right. exact I.
Qed.
Lemma wp_map {A B} (f : A -> res B) l : (forall a, In a l -> wp (f a) (fun _ => True)) -> wp (map_res f l) (fun _ => True).
Proof.
  induction l as [|a l IH]; intro H; cbn [map_res]; [exact I|]. apply wp_bind.
  apply (wp_weaken _ (fun _ => True)); [apply H; left; reflexivity|]. intros b _ _. apply wp_bind.
  apply (wp_weaken _ (fun _ => True)); [|intros; exact I]. apply IH. intros c Ic. apply H. right. exact Ic.
Qed.
Lemma wp_safe {A} (r : res A) : r <> Panic -> wp r (fun _ => True).
Proof. destruct r; cbn; auto. Qed.
Lemma wp_true {A} (r : res A) Q : wp r Q -> r <> Panic.
Proof. destruct r; cbn; try discriminate. contradiction. Qed.

(** ** Frequencies *)
Lemma month_28 y m : 1 <= m <= 12 -> 28 <= month_len y m <= 31.
Proof.
  intro H. assert (m = 1 \/ m = 2 \/ m = 3 \/ m = 4 \/ m = 5 \/ m = 6 \/ m = 7 \/ m = 8 \/ m = 9 \/ m = 10 \/ m = 11 \/ m = 12) as C by lia.
  repeat destruct C as [->|C]; try subst m; unfold month_len; try destruct (leap y); lia.
Qed.
Section Day.
Context (today : date) (T : year today < max_year) (T0 : min_year + 3 < year today).
Lemma subtract_fine d n : year d - n > min_year -> 0 <= n -> day d <= 28 -> exists l, subtract_months d n = Ok l.
Proof.
  intros Y N D. destruct (subtract_months_Ok d n Y N) as [(l & E & _)|(_ & H)]; [eauto|]. exfalso.
  pose proof (Z.div_mod (midx d - n - 1) 12 ltac:(lia)) as Q. pose proof (Z.mod_pos_bound (midx d - n - 1) 12 ltac:(lia)) as B.
  set (y := (midx d - n - 1) / 12) in *. set (m := (midx d - n - 1) mod 12) in *.
  destruct (date_bounds d) as (Yd & Md & _).
  unfold midx in Q. destruct (make_date y (m + 1) 1) as (x & _ & X1 & X2 & _); [lia|lia| |].
  - pose proof (month_28 y (m + 1)). lia.
  - assert (midx x = midx d - n) as E by (unfold midx; lia). specialize (H x E).
    pose proof (month_28 (year x) (month x)). lia.
Qed.
Lemma far_from_start : first_dayn + 365 <= dayn today.
Proof.
  assert (min_year < year today) as H' by lia. apply days_before_year_mono in H'. pose proof (dayn_in_year today).
  pose proof (year_len_bounds min_year). assert (first_dayn = days_before_year min_year + 1) as K by reflexivity. lia.
Qed.
Lemma fortnight_bound t d x f : x = d + 7 * ((Z.quot (Z.quot (t - d) 7) 2 + 1) * 2) -> f + 365 <= t -> f <= x + -14.
Proof.
  intros -> H. rewrite Z.quot_quot by lia.
  pose proof (Z.quot_rem (t - d) (7 * 2) ltac:(lia)) as Q.
  pose proof (Z.rem_bound_abs (t - d) (7 * 2) ltac:(lia)) as B.
  revert Q B. generalize (Z.quot (t - d) (7 * 2)) (Z.rem (t - d) (7 * 2)). intros q r Q B. lia.
Qed.
Lemma fortnight_fine d : exists o, freq_last today (Biweekly d) = Ok o.
Proof.
  assert (exists x, freq_next today (Biweekly d) = Ok (Some x) /\ first_dayn <= dayn x + -14) as (x & E & F).
  { destruct (freq_next_total today (Biweekly d) T) as (o & E). revert E. cbn [freq_next]. unfold days_since.
    generalize (fortnight_bound (dayn today) (dayn d)). generalize (Z.quot (Z.quot (dayn today - dayn d) 7) 2). intros q Q E.
    destruct (add_days d (7 * ((q + 1) * 2))) as [x|] eqn:A; [|discriminate].
    exists x. split; [reflexivity|]. apply add_days_Some in A. exact (Q _ _ A far_from_start). }
  destruct (add_days_total x (-14)) as (l & L); [pose proof (dayn_bounds x) as B; split; [exact F|clear - B; lia]|].
  exists (Some l). unfold freq_last. rewrite E. cbn [bind]. rewrite L. reflexivity.
Qed.
Lemma monthly_fine n : 1 <= n <= 28 -> exists o, freq_last today (Monthly n) = Ok o.
Proof.
  intro S. destruct (monthly_next today n T) as (x & Hx & ((_ & M) & _) & Mid).
  unfold freq_last. cbn [freq_next]. rewrite Hx. cbn [bind].
  destruct (date_bounds today) as (Yt & Mt & _). destruct (date_bounds x) as (Yx & Mx & _).
  destruct (subtract_fine x 1) as (l & ->); [|lia| |cbn [bind]; eauto].
  + unfold midx in Mid. lia.
  + unfold monthly_due, due_day in M. pose proof (month_28 (year x) (month x) Mx).
    destruct (Z.leb_spec 1 n), (Z.leb_spec n (month_len (year x) (month x))); cbn [andb] in M; lia.
Qed.
Lemma bimonthly_fine d : day d <= 28 -> exists o, freq_last today (Bimonthly d) = Ok o.
Proof.
  intro S. destruct (bimonthly_next today d T) as (k & x & Hx & _ & (_ & D) & NL & _).
  unfold freq_last. rewrite Hx. cbn [bind].
  destruct (subtract_fine x 2) as (l & ->); [|lia|lia|cbn [bind]; eauto].
  destruct NL as [<-|NL]; [lia|]. unfold earlier in NL. lia.
Qed.
Lemma annual_fine d : min_year < year d < max_year -> ~ (month d = 2 /\ day d = 29) ->
  exists o, freq_last today (Annually d) = Ok o.
Proof.
  intros Y N. destruct (earlier_or today d) as [L|L].
  - destruct (annual_next_future today d L) as (Hn & _). unfold freq_last. rewrite Hn. cbn [bind].
    unfold with_year. destruct (date_bounds d) as (SY & SM & SD).
    destruct (make_date (year d - 1) (month d) (day d)) as (l & -> & _); [lia..| |cbn [unwrap bind]; eauto].
    destruct (Z.eq_dec (month d) 2) as [Q|Q].
    + rewrite Q in *. assert (28 <= month_len (year d - 1) 2) by (apply month_28; lia).
      assert (month_len (year d) 2 <= 29) by (unfold month_len; destruct (leap (year d)); lia). lia.
    + replace (month_len (year d - 1) (month d)) with (month_len (year d) (month d)); [lia|].
      clear - Q. unfold month_len. destruct (month d) as [|[[[]|[]|]|[[]|[]|]|]|]; try reflexivity; congruence.
  - destruct (annual_last today d L) as (l & -> & _); [lia|lia|exact N|]. eauto.
Qed.
Lemma last_fine f : steady f -> exists o, freq_last today f = Ok o.
Proof.
  destruct f as [|d|w|d|n|d|d]; cbn [steady]; intro S.
  - exists None. reflexivity.
  - unfold freq_last. cbn [freq_next]. destruct (date_leb d today); cbn [bind]; eauto.
  - destruct (weekly_last_Ok today w T) as (n & l & _ & L & _); [lia|]. eauto.
  - apply fortnight_fine.
  - apply monthly_fine, S.
  - apply bimonthly_fine, S.
  - apply annual_fine; apply S.
Qed.

(** ** Entries *)
Lemma moved_all_total d l : forall v, in_currency v -> steady (v_freq v) ->
  Forall (fun a => symbol a = symbol (v_amount v)) l -> exists w, moved_all today d v l w.
Proof.
  induction l as [|a l IH]; intros v C S F; [exists v; constructor|].
  inversion F as [|? ? Fa Fl]; subst. destruct (moved_total today v a d C Fa (last_fine _ S)) as (u & U).
  apply apply_amount_iff in U. destruct (IH u) as (w & W).
  - exact (moved_currency _ _ _ _ _ U C).
  - destruct (moved_same _ _ _ _ _ U) as (_ & _ & _ & _ & -> & _). exact S.
  - destruct (moved_same _ _ _ _ _ U) as (_ & -> & _). exact Fl.
  - exists w. econstructor; eassumption.
Qed.
Lemma blank_some e : (exists p, In p (e_postings e) /\ ~ blank p) -> get_blank_amount e <> Panic.
Proof.
  intros (p & Ip & Bp). unfold get_blank_amount. destruct (has_blank_posting e) eqn:B; [|discriminate].
  destruct (has_mixed_currencies e) eqn:M.
  - clear. generalize fzero. induction (e_postings e) as [|p ps IH]; intro x; [discriminate|]. cbn [blank_native].
    destruct (native_value p); [apply IH|]. destruct (get_amount p); [discriminate|apply IH].
  - pose proof (find_amount_written (e_postings e)) as W. destruct (find_amount (e_postings e)) as [[a rest]|] eqn:Fa.
    + apply (wp_true _ (fun _ => True)). apply wp_bind.
      rewrite (blank_rest_same (symbol a)); [exact I|reflexivity|].
      assert (~ mixed (e_postings e)) as N by (rewrite <- has_mixed_iff, M; discriminate).
      apply Forall_forall. intros b Ib. destruct (sym_dec (symbol b) (symbol a)) as [|Q]; [assumption|]. exfalso. apply N.
      exists b, a. rewrite W. repeat split; [right; exact Ib|left; reflexivity|exact Q].
    + exfalso. apply Bp. unfold blank. destruct (get_amount p) as [a|] eqn:G; [|reflexivity]. exfalso.
      assert (In a (written (e_postings e))) as Ia by (apply written_In; eauto). rewrite W in Ia. exact Ia.
Qed.
Lemma blank_fine e : acceptable (e_postings e) -> (forall p, e_postings e = [p] -> ~ blank p) -> get_blank_amount e <> Panic.
Proof.
  intros (L & _) One. destruct (e_postings e) as [|p1 ps] eqn:Ep.
  - unfold get_blank_amount, has_blank_posting. rewrite Ep. discriminate.
  - apply blank_some. rewrite Ep. destruct (get_amount p1) as [a1|] eqn:G1; [exists p1; split; [left; reflexivity|unfold blank; congruence]|].
    destruct ps as [|p2 ps]; [exfalso; exact (One p1 eq_refl G1)|]. exists p2. split; [right; left; reflexivity|]. intro G2.
    unfold blanks in L. cbn [filter] in L. rewrite G1, G2 in L. cbn in L. lia.
Qed.
Lemma env_process_fine v e : in_currency v -> steady (v_freq v) -> matches v e -> get_blank_amount e <> Panic ->
  env_process today v e <> Panic.
Proof.
  intros C S (M1 & M2) B. destruct (manual_dec e) as [M|M].
  - destruct (moved_all_total (e_date e) (posted_to v (e_postings e)) v C S) as (w & W).
    + apply Forall_forall. intros a Ia. apply posted_to_In in Ia. exact (M1 M a Ia).
    + apply (env_process_manual today v e w M) in W. rewrite W. discriminate.
  - unfold env_process. destruct (has_envelope_posting e) eqn:H; [apply has_envelope_posting_iff in H; contradiction|]. clear H.
    unfold infer. destruct (Nat.ltb (count_self v (e_postings e)) 1) eqn:E1; [discriminate|].
    destruct (Nat.ltb (count_auto v (e_postings e)) 1) eqn:E2; [discriminate|]. cbn [orb].
    specialize (M2 M).
    assert (exists p, In p (e_postings e) /\ own v p) as X1.
    { unfold count_self in E1. destruct (filter _ (e_postings e)) as [|p ps] eqn:F; [discriminate|]. exists p.
      assert (In p (p :: ps)) as Ip by (left; reflexivity). rewrite <- F in Ip. apply filter_In in Ip. rewrite own_iff in Ip. exact Ip. }
    assert (exists p, In p (e_postings e) /\ linked v p) as X2.
    { unfold count_auto in E2. destruct (filter _ (e_postings e)) as [|p ps] eqn:F; [discriminate|]. exists p.
      assert (In p (p :: ps)) as Ip by (left; reflexivity). rewrite <- F in Ip. apply filter_In in Ip. rewrite linked_iff in Ip. exact Ip. }
    apply (wp_true _ (fun _ => True)). apply wp_bind.
    set (sym := symbol (v_amount v)) in *.
    apply (wp_weaken _ (fun s => symbol (fst s) = sym /\ symbol (snd s) = sym)).
    + apply wp_fold; [|split; reflexivity]. intros [auto self] p Ip (Sa & Ss). cbn [fst snd] in *.
      unfold infer_step. apply wp_bind.
      apply (wp_weaken _ (fun a => own v p \/ linked v p -> symbol a = sym)).
      * unfold infer_amount. apply wp_bind.
        apply (wp_weaken _ (fun a => worth e p a)).
        { destruct (get_amount p) as [a|] eqn:G; [left; exact G|].
          apply wp_bind. destruct (get_blank_amount e) as [[a|]| | |] eqn:Gb; cbn; try exact I.
          - right. auto.
          - exact (blank_not_none _ _ Ip G Gb).
          - exact (B eq_refl). }
        intros a _ Wa. fold sym. destruct (ostr_eqb (symbol a) sym) eqn:Es; [intros _; apply ostr_eqb_eq; exact Es|].
        destruct sym as [y|] eqn:Ey; [exact I|]. destruct (native_value p) as [x|] eqn:Nx; [|exact I].
        cbn. intro O. apply native_iff in Nx. destruct Wa as [G|(G & _)]; [|exact (False_ind _ (native_amount _ _ Nx G))].
        destruct (M2 eq_refl X1 X2 p a Ip O G) as [Q|Q]; [exact Q|]. exfalso. exact (Q x Nx).
      * intros a _ Sy. destruct (str_eqb (get_account p) (v_account v)) eqn:Eo.
        { apply wp_bind. apply own_iff in Eo. specialize (Sy (or_introl Eo)). 
          unfold amount_add. rewrite Ss, Sy, ostr_eqb_refl. cbn. auto. }
        destruct (mem (get_account p) (v_auto v)) eqn:El; [|split; assumption].
        { apply wp_bind. assert (linked v p) as Lk by (apply linked_iff; rewrite Eo, El; reflexivity). specialize (Sy (or_intror Lk)).
          unfold amount_add. rewrite Sa, Sy, ostr_eqb_refl. cbn. auto. }
    + intros [auto self] _ (Sa & Ss). cbn [fst snd] in *. destruct (negb _); [|exact I].
      destruct (moved_total today v (mkAmount (if fltb (mag self) fzero then fneg (fmin (mag auto) (fabs (mag self))) else fmin (mag auto) (fabs (mag self))) sym) (e_date e) C eq_refl (last_fine _ S)) as (w & W).
      rewrite W. exact I.
Qed.

(** ** Accounts and the ledger *)
Lemma acc_process_fine a e : sound a -> (forall v, In v (all_envelopes a) -> steady (v_freq v) /\ matches v e) ->
  get_blank_amount e <> Panic -> acc_process today a e <> Panic.
Proof.
  intros (So & _) H B. apply (wp_true _ (fun _ => True)). unfold acc_process.
  assert (forall v, In v (all_envelopes a) -> wp (env_process today v e) (fun _ => True)) as K.
  { intros v Iv. apply wp_safe. destruct (H v Iv) as (St & Ma). destruct (So v Iv) as (_ & C). apply env_process_fine; assumption. }
  apply wp_bind. eapply wp_weaken; [apply wp_map; intros v Iv; apply K; unfold all_envelopes; apply in_or_app; auto|]. intros ex _ _.
  apply wp_bind. eapply wp_weaken; [apply wp_map; intros v Iv; apply K; unfold all_envelopes; apply in_or_app; auto|]. intros go _ _.
  apply wp_bind. eapply wp_weaken; [apply (wp_fold (fun _ => True)); [|exact I]|intros; exact I].
  intros p x Ix _. unfold real_step. destruct (_ && _); [|exact I]. destruct (get_amount x); [exact I|].
  apply wp_bind. eapply wp_weaken; [apply wp_safe; exact B|]. intros [o|] _ _; exact I.
Qed.
Lemma matches_same v0 v e : same_definition v0 v -> matches v0 e -> matches v e.
Proof.
  intros (N & A & _ & Au & _ & _ & _ & Ac) (M1 & M2). unfold matches, own, linked in *. rewrite N, A, Au, Ac. split; assumption.
Qed.

Section World.
Context (w0 : world) (j0 : str) (Pr : proper w0) (Sj : sound_journal w0 j0).
Definition fits (a : account) : Prop := exists a0, defined_in w0 j0 a0
  /\ forall v, In v (all_envelopes a) -> exists v0, In v0 (all_envelopes a0) /\ same_definition v0 v.
Record good_ledger (l : ledger) : Prop := mkGood {
  g_path : l_path l = j0;
  g_keys : well_keyed l;
  g_format : valid_format (l_format l);
  g_accounts : forall k a, In (k, a) (l_accounts l) -> sound a /\ fits a;
  g_worth : forall e p, In e (l_entries l) -> In p (e_postings e) -> exists x, worth e p x }.

Lemma fits_steady a v : fits a -> In v (all_envelopes a) -> steady (v_freq v).
Proof.
  intros (a0 & D & F) Iv. destruct (F v Iv) as (v0 & I0 & (_ & _ & _ & _ & -> & _)). exact (proj1 (good_accounts w0 j0 Sj a0 D v0 I0)).
Qed.
Lemma fits_same a u v : fits a -> In u (all_envelopes a) -> In v (all_envelopes a) -> v_name u = v_name v ->
  symbol (v_amount u) = symbol (v_amount v).
Proof.
  intros (a0 & D & F) Iu Iv E. destruct (F v Iv) as (v0 & I0 & (N0 & -> & _)). destruct (F u Iu) as (u0 & J0 & (M0 & -> & _)).
  apply (proj2 (good_accounts w0 j0 Sj a0 D v0 I0)); [exact J0|congruence].
Qed.
Lemma fits_process a e b : fits a -> acc_process today a e = Ok b -> fits b.
Proof.
  intros (a0 & D & F) H. exists a0. split; [exact D|]. intros v Iv.
  destruct (acc_process_envelopes _ _ _ _ _ H Iv) as (u & Iu & Hu). destruct (F u Iu) as (v0 & I0 & S0).
  exists v0. split; [exact I0|]. eapply same_definition_trans; [exact S0|]. exact (proj1 (env_process_inv _ _ _ _ Hu)).
Qed.

(** What does not depend on the entries. *)
Definition ready (l : ledger) : Prop :=
  l_path l = j0 /\ well_keyed l /\ valid_format (l_format l) /\ forall k a, In (k, a) (l_accounts l) -> sound a /\ fits a.
Lemma good_ready l : good_ledger l -> ready l.
Proof. intros [P K F A _]. split; [exact P|split; [exact K|split; assumption]]. Qed.
Lemma add_entry_ready l e : ready l -> (forall k a v, In (k, a) (l_accounts l) -> In v (all_envelopes a) -> matches v e) ->
  get_blank_amount e <> Panic -> wp (add_entry today l e) ready.
Proof.
  intros (Gp & Gk & Gf & Ga) M B.
  assert (add_entry today l e <> Panic) as NP.
  { apply (wp_true _ (fun _ => True)). unfold add_entry. apply wp_bind.
    eapply wp_weaken; [apply wp_map|intros; exact I]. intros [k a] Ia. apply wp_bind. cbn [snd fst].
    eapply wp_weaken; [apply wp_safe|intros; exact I]. destruct (Ga k a Ia) as (So & Fi).
    apply acc_process_fine; [exact So| |exact B]. intros v Iv. split; [exact (fits_steady a v Fi Iv)|exact (M k a v Ia Iv)]. }
  destruct (add_entry today l e) as [l'| | |] eqn:E; cbn; auto. clear NP.
  pose proof (add_entry_accounts _ _ _ _ E) as F2. destruct (add_entry_same _ _ _ _ E) as (Ep & Ef & _).
  split; [congruence|]. split; [exact (add_entry_well_keyed _ _ _ _ E Gk)|]. split; [rewrite Ef; exact Gf|].
  intros k b Ib. destruct (Forall2_In_r _ _ _ _ F2 Ib) as ([k' a] & Ia & _ & H). cbn [snd fst] in H.
  destruct (Ga k' a Ia) as (So & Fi). split; [exact (acc_process_sound _ _ _ _ H So)|exact (fits_process _ _ _ Fi H)].
Qed.
Lemma add_entry_fine l e : good_ledger l -> (forall k a v, In (k, a) (l_accounts l) -> In v (all_envelopes a) -> matches v e) ->
  get_blank_amount e <> Panic -> (forall c, In (Classic c) (e_postings e) -> In (c_account c) (account_names l)) ->
  wp (add_entry today l e) good_ledger.
Proof.
  intros G M B C. apply (wp_weaken _ _ _ (add_entry_ready l e (good_ready l G) M B)).
  intros l' E (Gp & Gk & Gf & Ga). pose proof (add_entry_accounts _ _ _ _ E) as F2.
  split; [exact Gp|exact Gk|exact Gf|exact Ga|].
  intros x p Ix Ip. unfold add_entry in E. apply bind_Ok in E as (accs & Ea & E). injection E as <-. cbn [l_entries] in Ix.
  assert (In x (l_entries l ++ [e])) as Ix'.
  { apply (Permutation.Permutation_in _ (Permutation.Permutation_sym (sort_entries_perm _)) Ix). }
  apply in_app_or in Ix' as [Ix'|[<-|[]]]; [exact (g_worth l G x p Ix' Ip)|].
  destruct p as [c|ep]; [|exists (ep_amount ep); left; reflexivity].
  specialize (C c Ip). apply in_map_iff in C as ((k & a) & Ek & Ia). cbn [fst] in Ek. subst k.
  destruct (Forall2_In_l _ _ _ _ F2 Ia) as ([k b] & _ & _ & H). cbn [snd] in H.
  destruct (acc_process_real _ _ _ _ H) as (xs & W & _).
  assert (a_name a = c_account c) as Nm.
  { destruct (g_keys l G) as (Nd & Km). apply Km. apply map_get_In; [exact Nd|exact Ia]. }
  destruct (Forall2_In_l _ _ _ (e, Classic c) W) as (y & _ & Y); [|exists y; exact Y].
  apply filter_In. split; [apply in_map; exact Ip|]. unfold to_classic. cbn [snd]. rewrite Nm. destruct (str_dec (c_account c) (c_account c)); congruence.
Qed.

(** ** Text *)
Definition dense (s : str) : Prop := forall a b c, s = a ++ 10%N :: b ++ 10%N :: c -> all_ws b -> all_ws a.
Definition ends (s : str) : Prop := forall a b, s = a ++ 10%N :: b -> all_ws b -> all_ws a.
Definition compact (s : str) : Prop := dense s /\ ends s /\ markfree s = true.
Definition body_line (l : str) : Prop := ~ In 10%N l /\ ~ all_ws l /\ markfree l = true.
Lemma compact_line l : ~ In 10%N l -> markfree l = true -> compact l.
Proof.
  intros N M. repeat split; [intros a b c E|intros a b E|exact M]; exfalso; apply N; rewrite E; apply in_elt.
Qed.
Lemma compact_more cur l : compact cur -> body_line l -> compact (cur ++ 10%N :: l).
Proof.
  intros (D & En & M) (N & W & Ml).
  assert (forall x y, cur ++ 10%N :: l = x ++ 10%N :: y -> exists z, y = z ++ l /\ (z = [] /\ cur = x \/ exists z', z = z' ++ [10%N] /\ cur = x ++ 10%N :: z')) as Cut.
  { intros x y E. apply app_split in E as [(m & E1 & E2)|(m & E1 & E2)].
    - destruct m as [|c m]; cbn in E2; injection E2 as ?; subst.
      + exists []. rewrite app_nil_r. auto.
      + exists (m ++ [10%N]). split; [rewrite <- app_assoc; reflexivity|right; exists m; auto].
    - destruct m as [|c m]; cbn in E2; injection E2 as ?; subst.
      + exists []. split; [reflexivity|]. left. split; [reflexivity|]. rewrite app_nil_r in *. symmetry. first [exact E1|reflexivity].
      + exfalso. apply N. rewrite ?H0. apply in_elt. }
  repeat split.
  - intros a b c E Wb. destruct (Cut _ _ E) as (z & Ez & [(-> & ->)|(z' & -> & Ec)]).
    + exfalso. cbn in Ez. apply N. rewrite <- Ez. apply in_elt.
    + rewrite <- app_assoc in Ez. cbn [app] in Ez. symmetry in Ez.
      assert ((a ++ 10%N :: z') ++ 10%N :: l = (a ++ 10%N :: b) ++ 10%N :: c) as E' by (rewrite <- !app_assoc; cbn; congruence).
      rewrite <- Ec in E'. destruct (Cut _ _ E') as (y & Ey & [(-> & Q)|(y' & -> & Q)]).
      * apply (En a b Q Wb).
      * rewrite <- app_assoc in Q. cbn [app] in Q. apply (D a b y' Q Wb).
  - intros a b E Wb. destruct (Cut _ _ E) as (z & Ez & _). exfalso. apply W. rewrite Ez in Wb. apply all_ws_app in Wb. apply Wb.
  - apply markfree_app; [exact M|exact Ml|discriminate].
Qed.
Lemma sections_compact cur ls ss : sections cur ls ss -> compact cur -> Forall body_line ls -> Forall compact ss.
Proof.
  induction 1 as [cur|cur l ls ss St Se IH|cur l ls ss St Se IH]; intros C F.
  - constructor; [exact C|constructor].
  - inversion F as [|? ? (N & W & M) Fl]; subst. constructor; [exact C|]. apply IH; [apply compact_line; assumption|exact Fl].
  - inversion F as [|? ? Fa Fl]; subst. apply IH; [apply compact_more; assumption|exact Fl].
Qed.
Lemma line_place n : forall t h pre b post, (List.length t <= n)%nat -> lines t = h :: pre ++ b :: post ->
  exists x y, t = x ++ 10%N :: y /\ (y = b /\ b <> [] \/ exists b' c, y = b' ++ 10%N :: c /\ b = strip_cr b').
Proof.
  induction n as [|n IH]; intros t h pre b post L E; (destruct (newline_cut t) as [N|(a & r & -> & N)]; [exfalso|]).
  1, 3: destruct t as [|c t]; [rewrite lines_nil in E; discriminate|];
    rewrite lines_one in E by (assumption || discriminate); destruct pre; discriminate.
  - rewrite app_length in L. cbn in L. lia.
  - rewrite lines_app in E by exact N. injection E as _ E. destruct pre as [|h' pre].
    + exists a, r. split; [reflexivity|]. cbn [app] in E. destruct (newline_cut r) as [N'|(a' & r' & -> & N')].
      * left. destruct r as [|c r]; [rewrite lines_nil in E; discriminate|].
        rewrite lines_one in E by (assumption || discriminate). injection E as <- _. split; [reflexivity|discriminate].
      * right. rewrite lines_app in E by exact N'. injection E as <- _. eauto.
    + destruct (IH r h' pre b post) as (x & y & -> & H); [rewrite app_length in L; cbn in L; lia|exact E|].
      exists (a ++ 10%N :: x), y. rewrite <- app_assoc. split; [reflexivity|exact H].
Qed.
Lemma compact_envelope s account dsym fmt : compact s -> parse_envelope s account dsym fmt <> Panic.
Proof.
  intros (D & _ & M) H. apply envelope_crash in H as (h & pre & b & post & _ & _ & _ & _ & _ & E & _ & _ & W).
  destruct (trim_spec s) as (w1 & w2 & Es & A1 & A2 & (T1 & T2)).
  assert (markfree (trim s) = true) as Mt by (apply markfree_trim; exact M).
  destruct (line_place _ _ _ _ _ _ (le_n _) E) as (x & y & Et & [(-> & Nb)|(b' & c & -> & ->)]).
  - assert (markfree b = true) as Mb.
    { rewrite Et in Mt. apply markfree_app_r in Mt. exact (markfree_app_r [10%N] b Mt). }
    rewrite remove_comments_markfree in W by exact Mb. rewrite Et, rev_app_distr in T2. cbn [rev] in T2.
    destruct (rev b) as [|c rb] eqn:Rb; [apply Nb; rewrite <- (rev_involutive b), Rb; reflexivity|].
    cbn [app] in T2. assert (all_ws (rev b)) as Wr by (apply all_ws_rev; exact W). rewrite Rb in Wr. apply all_ws_cons in Wr as (Wc & _).
    rewrite Wc in T2. discriminate.
  - assert (markfree b' = true) as Mb.
    { rewrite Et in Mt. apply markfree_app_r in Mt. apply (markfree_app_r [10%N]) in Mt. exact (markfree_app_l _ _ Mt). }
    rewrite remove_comments_markfree in W by (apply markfree_strip_cr; exact Mb).
    assert (all_ws b') as Wb.
    { destruct (strip_cr_spec b') as [Q|Q]; rewrite Q in *; [exact W|]. rewrite strip_cr_snoc in W. apply all_ws_app. split; [exact W|reflexivity]. }
    assert (all_ws (w1 ++ x)) as Wx.
    { apply (D (w1 ++ x) b' (c ++ w2)); [|exact Wb]. rewrite Es, Et, <- !app_assoc. cbn [app]. rewrite <- !app_assoc. reflexivity. }
    apply all_ws_app in Wx as (_ & Wx). rewrite Et in T1. destruct x as [|c1 x]; cbn [app] in T1; [discriminate|].
    apply all_ws_cons in Wx as (Wc & _). rewrite Wc in T1. discriminate.
Qed.
Lemma chunk_shape cur ls cs : chunks cur ls cs -> forall c, In c cs ->
  (exists ls', c = chunk_of cur ls' /\ incl ls' ls) \/ exists l ls', c = chunk_of l ls' /\ incl (l :: ls') ls.
Proof.
  induction 1 as [cur|cur l ls cs N C IH|cur l ls cs N C IH]; intros c Ic.
  - destruct Ic as [<-|[]]. left. exists []. unfold chunk_of. cbn. rewrite app_nil_r. split; [reflexivity|apply incl_refl].
  - destruct Ic as [<-|Ic].
    + left. exists []. unfold chunk_of. cbn. rewrite app_nil_r. split; [reflexivity|apply incl_nil_l].
    + right. destruct (IH c Ic) as [(ls' & -> & In1)|(l' & ls' & -> & In1)].
      * exists l, ls'. split; [reflexivity|]. apply incl_cons; [left; reflexivity|apply incl_tl; exact In1].
      * exists l', ls'. split; [reflexivity|apply incl_tl; exact In1].
  - destruct (IH c Ic) as [(ls' & -> & In1)|(l' & ls' & -> & In1)].
    + left. exists (l :: ls'). split; [unfold chunk_of; cbn [map List.concat]; rewrite <- app_assoc; reflexivity|].
      apply incl_cons; [left; reflexivity|apply incl_tl; exact In1].
    + right. exists l', ls'. split; [reflexivity|apply incl_tl; exact In1].
Qed.
Lemma chunk_lines ls : forall l h body, Forall (fun l => ~ In 10%N l) (l :: ls) -> lines (chunk_of l ls) = h :: body ->
  (h = l \/ h = strip_cr l) /\ Forall (fun b => exists l', In l' ls /\ (b = l' \/ b = strip_cr l')) body.
Proof.
  induction ls as [|l1 ls IH]; intros l h body F E; inversion F as [|? ? N Fl]; subst.
  - unfold chunk_of in E. cbn [map List.concat] in E. rewrite app_nil_r in E.
    destruct l as [|c l]; [rewrite lines_nil in E; discriminate|]. rewrite lines_one in E by (assumption || discriminate).
    injection E as <- <-. split; [left; reflexivity|constructor].
  - change (chunk_of l (l1 :: ls)) with (l ++ 10%N :: chunk_of l1 ls) in E. rewrite lines_app in E by exact N. injection E as <- <-.
    split; [right; reflexivity|]. destruct (lines (chunk_of l1 ls)) as [|h1 body] eqn:E1; [constructor|].
    destruct (IH l1 h1 body Fl E1) as (H1 & Hb). constructor.
    + exists l1. split; [left; reflexivity|exact H1].
    + eapply Forall_impl; [|exact Hb]. intros b (l' & I' & Q). exists l'. split; [right; exact I'|exact Q].
Qed.
Lemma all_ws_blank s : all_ws s <-> Forall blank_char s.
Proof. rewrite all_ws_In, Forall_forall. reflexivity. Qed.
Lemma content_line p t l : journal_file w0 j0 p -> files w0 p = Some t -> In l (contents (lines t)) -> body_line l.
Proof.
  intros J F Il. split; [|split].
  - unfold contents in Il. apply filter_In in Il as (Il & _). apply in_map_iff in Il as (l0 & <- & I0).
    apply content_no_lf. pose proof (lines_no_nl t) as N. rewrite Forall_forall in N. exact (N l0 I0).
  - intro W. apply all_ws_blank in W. exact (no_blank_lines w0 j0 Sj p t l J F Il W).
  - unfold contents in Il. apply filter_In in Il as (Il & _). apply in_map_iff in Il as (l0 & <- & I0). apply markfree_remove_comments.
Qed.
Lemma account_fine c dsym fmt : stands_in w0 j0 c -> parse_account c dsym fmt <> Panic.
Proof.
  intros (p & t & cs & J & F & C & Ic). unfold parse_account. destruct (lines c) as [|h body] eqn:E; [discriminate|].
  assert (Forall body_line body) as B.
  { assert (forall l ls, c = chunk_of l ls -> ~ In 10%N l -> incl ls (contents (lines t)) -> Forall body_line body) as K.
    { intros l ls -> Nl In1. apply chunk_lines in E as (_ & E).
      - eapply Forall_impl; [|exact E]. intros b (l' & I' & Q). destruct (content_line p t l' J F (In1 _ I')) as (N & W & M).
        destruct Q as [-> | ->]; [split; [exact N|split; assumption]|]. split; [apply strip_cr_no_nl; exact N|split; [|apply markfree_strip_cr; exact M]].
        intro W'. apply W. destruct (strip_cr_spec l') as [Q|Q]; [rewrite <- Q; exact W'|]. rewrite Q. apply all_ws_app. split; [exact W'|reflexivity].
      - constructor; [exact Nl|]. apply Forall_forall. intros l' I'. exact (proj1 (content_line p t l' J F (In1 _ I'))). }
    destruct (chunk_shape _ _ _ C c Ic) as [(ls & Ec & In1)|(l & ls & Ec & In1)].
    - exact (K [] ls Ec (fun x => x) In1).
    - apply (K l ls Ec); [|intros x Ix; apply In1; right; exact Ix]. apply (content_line p t l J F). apply In1. left. reflexivity. }
  apply (wp_true _ (fun _ => True)). apply wp_bind. unfold account_header. destruct (split_ws _) as [|k [|n [|? ?]]]; try exact I. cbn [wp].
  destruct (sections_total body []) as (ss & Ss). rewrite (account_fold _ _ _ _ _ Ss).
  apply (wp_fold (fun _ => True)); [|exact I]. intros a s Is _. unfold flush_envelope. destruct (trim s); [exact I|].
  apply wp_bind. eapply wp_weaken; [apply wp_safe; apply compact_envelope|].
  - pose proof (sections_compact _ _ _ Ss (compact_line [] (fun x => x) eq_refl) B) as Fc. rewrite Forall_forall in Fc. exact (Fc s Is).
  - intros v _ _. unfold add_envelope. destruct (v_type v); (destruct (existsb _ _); exact I).
Qed.

(** ** Loading *)
Definition good_state (s : lw) : Prop := good_ledger (fst s) /\ same_disk w0 (snd s) /\ dirs w0 (cwd (snd s)) = true.
Lemma entry_fine l c fmt : good_ledger l -> stands_in w0 j0 c -> ~ directive c ->
  wp (let! e := parse_entry c fmt decimal_symbol (account_names l) in add_entry today l e) good_ledger.
Proof.
  intros G Sc Nd. apply wp_bind. apply (wp_weaken _ (fun _ => True)).
  - apply wp_safe. intro P. apply parse_entry_Panic in P as (h & ls & El & Hp).
    destruct (good_headers w0 j0 Sj c h ls Sc Nd El) as (a & b & words & Ew & Nr).
    destruct Hp as [(dt & d & Q & _)|(dt & d & st & s & ws & Q & _ & _ & R)]; rewrite Ew in Q; [discriminate|].
    injection Q as _ _ <-. contradiction.
  - intros e Pe _. assert (recorded_in w0 j0 e) as Re by (exists c, fmt, (account_names l); auto).
    apply add_entry_fine; [exact G| | |].
    + intros k a v Ia Iv. destruct (g_accounts l G k a Ia) as (_ & (a0 & D & F)). destruct (F v Iv) as (v0 & I0 & S0).
      exact (matches_same _ _ _ S0 (all_match w0 j0 Sj a0 v0 e D I0 Re)).
    + apply blank_fine; [|intros p; apply (some_amount w0 j0 Sj e p Re)].
      apply parse_entry_Ok in Pe as (h & ls & _ & _ & _ & _ & A). exact A.
    + intros cl Ic. exact (entry_accounts _ _ _ _ _ _ Pe Ic).
Qed.
Lemma fits_parsed c fmt a : stands_in w0 j0 c -> keyword c "account" -> parse_account c decimal_symbol fmt = Ok a -> fits a.
Proof.
  intros Sc K E. exists a. split; [exists c, fmt; auto|]. intros v Iv. exists v. split; [exact Iv|apply same_definition_refl].
Qed.
Lemma chunk_fine inc s c : (forall f s, keyword c "include" -> value c = Some f -> good_state s -> wp (inc f s) good_state) -> good_state s -> stands_in w0 j0 c ->
  wp (parse_chunk today inc s c) good_state.
Proof.
  intros Hi (G & W) Sc. unfold parse_chunk. destruct (split_ws c) as [|k rest] eqn:Ek; [split; assumption|].
  assert (forall n : string, k = lit n -> keyword c n) as Kw by (intros n ->; unfold keyword; rewrite Ek; reflexivity).
  assert (forall n : string, keyword c n -> str_eqb k (lit n) = true) as Kw'.
  { intros n Kn. unfold keyword in Kn. rewrite Ek in Kn. injection Kn as ->. apply str_eqb_refl. }
  assert (forall r, wp r good_ledger -> wp (on_ledger s r) good_state) as On.
  { intros r Hr. unfold on_ledger. apply wp_bind. apply (wp_weaken _ _ _ Hr). intros l _ Gl. split; [exact Gl|exact W]. }
  destruct (str_eqb k (lit "account")) eqn:E1.
  { apply str_eqb_eq in E1. apply On. unfold ledger_parse_account.
    destruct (parse_account c decimal_symbol (l_format (fst s))) as [a| | |] eqn:Ea; cbn; auto; [|exact (account_fine _ _ _ Sc Ea)].
    split.
    - exact (g_path _ G).
    - apply (parse_account_well_keyed (fst s) c); [unfold ledger_parse_account; rewrite Ea; reflexivity|exact (g_keys _ G)].
    - exact (g_format _ G).
    - cbn [l_accounts]. intros k' b Ib. destruct (g_keys _ G) as (Nd & _).
      assert (NoDup (map fst (map_insert (a_name a) a (l_accounts (fst s))))) as Nd' by (apply map_insert_NoDup; exact Nd).
      apply map_get_In in Ib; [|exact Nd']. rewrite map_get_insert in Ib. destruct (str_dec (a_name a) k').
      + injection Ib as <-. split; [exact (parse_account_sound _ _ _ _ Ea)|exact (fits_parsed _ _ _ Sc (Kw "account"%string E1) Ea)].
      + apply map_get_In in Ib; [|exact Nd]. exact (g_accounts _ G _ _ Ib).
    - exact (g_worth _ G). }
  destruct (str_eqb k (lit "currency")) eqn:E2.
  { apply On. destruct (hd_error rest); [|exact I]. cbn. destruct G. split; assumption. }
  destruct (str_eqb k (lit "date_format")) eqn:E3.
  { apply str_eqb_eq in E3. apply On. destruct (hd_error rest) as [f|] eqn:Ev; [|exact I]. cbn. destruct G. split; try assumption.
    cbn [l_format]. apply (valid_formats w0 j0 Sj c f Sc (Kw "date_format"%string E3)). unfold value. rewrite Ek. exact Ev. }
  destruct (str_eqb k (lit "include")) eqn:E4.
  { apply str_eqb_eq in E4. destruct (hd_error rest) as [f|] eqn:Ev; [|exact I].
    apply Hi; [exact (Kw "include"%string E4)|unfold value; rewrite Ek; exact Ev|split; assumption]. }
  apply On. apply entry_fine; [exact G|exact Sc|].
  intros [K|[K|[K|K]]]; apply Kw' in K; congruence.
Qed.
Lemma load_fine fuel : forall p s, good_state s -> journal_file w0 j0 (located (cwd (snd s)) p) ->
  wp (add_from_file fuel today p s) good_state.
Proof.
  induction fuel as [|n IH]; intros p s G J; [exact I|]. cbn [add_from_file]. apply wp_bind. unfold read_file.
  destruct (files (snd s) (resolve (snd s) p)) as [t|] eqn:Ef; [|exact I]. cbn [wp]. apply wp_bind.
  destruct G as (G & W). apply (wp_weaken _ (fun w => same_disk w0 w /\ dirs w0 (cwd w) = true)).
  - pose proof (proper_same w0 (snd s) (proj1 W) (proj2 W) Pr) as Ps. unfold chdir_parent.
    destruct (components p) as [|c cs] eqn:Ec.
    + cbn. unfold resolve in Ef. rewrite Ec in Ef. cbn [resolve_aux] in Ef. destruct Ps as (P1 & P2 & P3 & _).
      destruct (is_absolute p); rewrite P3 in Ef by assumption; discriminate.
    + cbv zeta. destruct (_ && dirs (snd s) _) eqn:Ed; [|exact W]. apply andb_true_iff in Ed as (_ & Ed).
      cbn [wp cwd]. destruct W as ((W1 & W2) & _). split; [split; [exact W1|exact W2]|]. rewrite <- W2. exact Ed.
  - intros w1 _ W1. destruct (cut_up_total t) as (cs & C). rewrite (add_from_str_chunks _ _ _ _ _ C).
    apply wp_fold; [|split; [exact G|exact W1]]. intros s1 c Ic G1.
    assert (files w0 (located (cwd (snd s)) p) = Some t) as F0 by (rewrite <- (proj1 (proj1 W)); exact Ef).
    apply chunk_fine; [|exact G1|exists (located (cwd (snd s)) p), t, cs; auto].
    intros f s2 K V G2. apply IH; [exact G2|]. eapply journal_include; [exact J|exact F0|exists cs, c; auto|]. apply G2.
Qed.

(** ** Commands *)
Lemma fill_fine l w : good_ledger l -> wp (snd (fill_envelopes today l w)) good_ledger.
Proof.
  intro G. unfold fill_envelopes.
  destruct (fill_postings today l) as [ps| | |] eqn:E.
  2, 4: exact I.
  2: { exfalso. unfold fill_postings in E. apply bind_Panic in E as [E|(pss & _ & E)]; [|discriminate].
       revert E. apply (wp_true _ (fun _ => True)). apply wp_map. intros (k & a) Ia. cbn [snd]. destruct (g_accounts l G k a Ia) as ((So & _) & _).
       destruct (filling_postings_total today a T) as (ps & ->); [|exact I]. intros v Iv. exact (proj2 (So v Iv)). }
  destruct ps as [|p0 ps]; [exact G|]. set (e := fill_entry today (p0 :: ps)). unfold append_entry.
  assert (printable (l_format l) = true) as -> by (apply printable_iff; exact (g_format l G)).
  unfold append_file. destruct (files w (resolve w (l_path l))); [|exact I]. cbn [snd].
  assert (forall p, In p (e_postings e) -> exists ep, p = EnvPosting ep) as Ev.
  { intros p Ip. destruct (fill_postings_In _ _ _ _ E Ip) as (k & a & v & av & am & _ & _ & _ & -> & _). eauto. }
  apply add_entry_fine; [exact G| | |].
  - intros k a v Ia Iv. split.
    + intros _ am Ip. destruct (fill_postings_In _ _ _ _ E Ip) as (k' & a' & u & av & am' & Ia' & Iu & Fa & Q & _).
      injection Q as Qa Qn ->. rewrite (proj2 (proj2 (filling_amount_safe _ _ _ _ Fa))).
      destruct (g_accounts l G k a Ia) as ((So & _) & Fi). destruct (g_accounts l G k' a' Ia') as ((So' & _) & _).
      destruct (So v Iv) as (N1 & _). destruct (So' u Iu) as (N2 & _). destruct (g_keys l G) as (Nd & Km).
      pose proof (Km k a (proj2 (map_get_In k a _ Nd) Ia)) as K1. pose proof (Km k' a' (proj2 (map_get_In k' a' _ Nd) Ia')) as K2.
      assert (k' = k) as -> by congruence. apply (map_get_In k a _ Nd) in Ia. apply (map_get_In k a' _ Nd) in Ia'.
      assert (a' = a) as -> by congruence. symmetry. apply (fits_same a v u Fi Iv Iu). congruence.
    + intro N. exfalso. apply N. destruct (Ev p0 (or_introl eq_refl)) as (ep & ->). exists ep. left. reflexivity.
  - unfold get_blank_amount. destruct (has_blank_posting e) eqn:B; [|discriminate]. exfalso. apply has_blank_iff in B as (p & Ip & Bp).
    destruct (Ev p Ip) as (ep & ->). discriminate.
  - intros c Ic. destruct (Ev _ Ic) as (ep & Q). discriminate.
Qed.
Lemma fill_elsewhere l w : let w' := fst (fill_envelopes today l w) in
  (forall p, dirs w' p = dirs w p) /\ cwd w' = cwd w /\ forall q, q <> resolve w (l_path l) -> files w' q = files w q.
Proof.
  unfold fill_envelopes, append_entry, append_file.
  destruct (fill_postings today l) as [[|p ps]| | |]; try (cbn; auto; fail).
  destruct (files w (resolve w (l_path l))); [|cbn; auto]. destruct (printable _); [|cbn; auto]. cbn. split; [reflexivity|]. split; [reflexivity|].
  intros q N. destruct (path_eqb q (resolve w (l_path l))) eqn:E; [|reflexivity]. apply path_eqb_eq in E. contradiction.
Qed.
Lemma totals_fine l : good_ledger l -> exists m, get_totals l = Ok m.
Proof.
  intro G. unfold get_totals. pose proof (g_worth l G) as H. revert H. generalize (@nil (str * pool)).
  induction (l_entries l) as [|e es IH]; intros m H; cbn [fold_res]; [eauto|].
  assert (exists m', fold_res (totals_step e) (e_postings e) m = Ok m') as (m' & ->).
  { pose proof (fun p => H e p (or_introl eq_refl)) as He. clear H IH. revert m He. generalize (e_postings e) as ps.
    induction ps as [|p ps IH]; intros m He; cbn [fold_res]; [eauto|].
    assert (exists m', totals_step e m p = Ok m') as (m' & ->).
    { unfold totals_step. destruct (map_get _ m); [|eauto]. destruct (get_amount p) eqn:Ga; [eauto|].
      destruct (He p (or_introl eq_refl)) as (x & [Q|(_ & ->)]); [congruence|]. cbn. eauto. }
    cbn [bind]. apply IH. intros q Iq. apply He. right. exact Iq. }
  cbn [bind]. apply IH. intros x p Ix. apply H. right. exact Ix.
Qed.
Lemma show_account_fine a : show_account today a <> Panic.
Proof.
  apply (wp_true _ (fun _ => True)). unfold show_account. destruct (all_envelopes a) eqn:Ea; [exact I|].
  assert (forall v, wp (show_envelope today v) (fun _ => True)) as K.
  { intro v. unfold show_envelope. destruct (env_next_due_total today v T) as (d & ->). cbn [bind].
    destruct (make_bar_shape v (mag (mkAmount (fadd (mag (v_next v)) (fmin (mag (v_now v)) fzero)) (symbol (v_next v)))) 40) as (n & _ & ->); [cbv; discriminate|].
    cbn [bind]. destruct (make_bar_shape v (mag (mkAmount (fmax (mag (v_now v)) fzero) (symbol (v_now v)))) 40) as (n' & _ & ->); [cbv; discriminate|]. exact I. }
  assert (forall (title : str) vs, wp (match vs with [] => Ok [] | _ => let! ts := map_res (show_envelope today) vs in Ok (title ++ [10%N] ++ List.concat (map (fun t => t ++ [10%N]) ts)) end) (fun _ => True)) as K2.
  { intros title vs. destruct vs; [exact I|]. apply wp_bind. eapply wp_weaken; [apply wp_map; intros v _; apply K|intros; exact I]. }
  apply wp_bind. eapply wp_weaken; [apply K2|]. intros ex _ _. apply wp_bind. eapply wp_weaken; [apply K2|]. intros go _ _. exact I.
Qed.
Lemma command_fine x f l w : x_today x = today -> (f_cmd f = CmdRegister -> x_tty x = true) -> f_cmd f <> Import -> good_ledger l ->
  o_res (run_command x f l w) <> Panic.
Proof.
  intros Et Ty Ni G. unfold run_command. rewrite Et. destruct (f_cmd f); try discriminate; [| | |contradiction].
  - unfold show_balance. destruct (totals_fine l G) as (m & ->). discriminate.
  - assert (wp (show_envelopes today l) (fun _ => True)) as K.
    { unfold show_envelopes. apply wp_bind. eapply wp_weaken; [apply wp_map; intros a _; apply wp_safe; apply show_account_fine|intros; exact I]. }
    destruct (show_envelopes today l); [discriminate..|contradiction|discriminate].
  - unfold show_register. rewrite (Ty eq_refl).
    destruct (register_total (l_entries l) (l_format l) (f_begin f) (f_end f) None) as (t & ->); [| |discriminate].
    + apply printable_iff, (g_format l G).
    + intros e Ie _ p Ip. exact (g_worth l G e p Ie Ip).
Qed.
End World.
End Day.
