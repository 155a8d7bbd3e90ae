(** Proofs about the entries of records and about whole imports. *)
From Coq Require Import ZArith NArith List Bool String Permutation Lia.
From Verif Require Import Base Str F64 Date World Amount Posting Entry Envelope Account Ledger Importer
  SpecAmount SpecDate SpecEntry SpecEnvelope SpecLedger SpecRegister SpecImport
  StrFacts LineFacts AmountFacts PostingFacts EntryFacts AccountFacts EnvelopeFacts LedgerFacts LoadFacts IncludeFacts RegisterFacts
  ImportFacts SubstFacts ExpandFacts.
Import ListNotations.

(** ** Postings *)
Lemma complete_spec rec ps ps' : complete_postings rec ps = Ok ps' ->
  (2 <= List.length ps')%nat
  /\ ((2 <= List.length ps)%nat /\ ps' = ps
      \/ exists p a, ps = [p] /\ get_amount p = Some a
         /\ ps' = [p; blank_to (if fltb (mag a) fzero then "expenses:unknown"
                                else if fltb fzero (mag a) then "income:unknown" else "unknown")]).
Proof.
  destruct ps as [|p [|q ps]]; cbn [complete_postings].
  - discriminate.
  - destruct (get_amount p) as [a|] eqn:E; [|discriminate]. intro H. injection H as <-. split; [cbn; lia|].
    right. exists p, a. split; [reflexivity|]. split; [exact E|]. do 2 f_equal.
    destruct (fltb (mag a) fzero); [reflexivity|]. destruct (fltb fzero (mag a)); reflexivity.
  - intro H. injection H as <-. split; [cbn; lia|]. left. split; [cbn; lia|reflexivity].
Qed.

Lemma entry_of_record_Ok ord r rec accounts e : entry_of_record ord r rec accounts = Ok e ->
  exists vars d st ps ps', make_variables (r_fields r) rec [] = Ok vars
    /\ parse_date (inject ord vars (r_date r)) (r_format r) = Some d
    /\ parse_status (inject ord vars (r_status r)) = Ok st
    /\ Forall2 (fun ka p => import_posting ord vars r accounts ka = Ok p) (ord (accounts_or_default r)) ps
    /\ complete_postings rec (rev ps) = Ok ps'
    /\ e = new_entry d st (inject ord vars (r_desc r))
             (match trim (r_payee r) with [] => None | _ => Some (inject ord vars (r_payee r)) end) ps'
             (match trim (r_comment r) with [] => None | _ => Some (inject ord vars (r_comment r)) end).
Proof.
  unfold entry_of_record. intro H. apply bind_Ok in H as (vars & Hv & H). apply bind_Ok in H as (d & Hd & H).
  apply bind_Ok in H as (st & Hs & H). apply bind_Ok in H as (ps & Hp & H). apply bind_Ok in H as (ps' & Hc & H).
  injection H as <-. exists vars, d, st, ps, ps'. split; [exact Hv|]. split.
  - unfold ok_or in Hd. destruct (parse_date _ _); [congruence|discriminate].
  - split; [exact Hs|]. split; [apply map_res_Ok, Hp|]. split; [exact Hc|reflexivity].
Qed.

(** ** Whole imports *)
Lemma append_resolve today l w e w' r : append_entry today l w e = (w', r) -> forall p, resolve w' p = resolve w p.
Proof.
  unfold append_entry. pose proof (append_file_spec w (l_path l) (10%N :: show_entry (l_format l) e)) as S.
  destruct (files w (resolve w (l_path l))) as [old|].
  - destruct S as (w1 & E & C & _). rewrite E. intros H p. destruct (printable (l_format l)); injection H as <- _; [unfold resolve; rewrite C|]; reflexivity.
  - rewrite S. intros H p. injection H as <- _. reflexivity.
Qed.
Lemma add_entry_same today l e l' : add_entry today l e = Ok l' ->
  l_path l' = l_path l /\ l_format l' = l_format l /\ account_names l' = account_names l.
Proof.
  rewrite add_entry_accounts_eq. intro H. apply bind_Ok in H as (m & Hm & H). injection H as <-.
  cbn. split; [reflexivity|]. split; [reflexivity|]. unfold account_names. cbn. apply process_keys in Hm. exact Hm.
Qed.

Definition on_disk (w w' : world) (j : path) (text : str) : Prop :=
  files w' j = Some text /\ (forall q, q <> j -> files w' q = files w q)
  /\ (forall q, dirs w' q = dirs w q) /\ cwd w' = cwd w.

Lemma import_records_spec today mk recs : forall l w w' r old,
  import_records today mk l w recs = (w', r) -> files w (resolve w (l_path l)) = Some old ->
  exists first rest es, recs = first ++ rest /\ Forall2 (fun rec e => mk rec = Ok e) first es
    /\ on_disk w w' (resolve w (l_path l)) (old ++ appended (l_format l) es)
    /\ ((rest = [] /\ exists l', r = Ok l' /\ fold_res (add_entry today) es l = Ok l')
        \/ (exists rec rest', rest = rec :: rest' /\ fails_as (mk rec) r /\ exists l', fold_res (add_entry today) es l = Ok l')
        \/ (exists es0 e l', es = es0 ++ [e] /\ fold_res (add_entry today) es0 l = Ok l' /\ fails_as (add_entry today l' e) r)
        \/ (printable (l_format l) = false /\ es = [] /\ rest <> [] /\ r = Panic)).
Proof.
  induction recs as [|rec recs IH]; intros l w w' r old H F; cbn [import_records] in H.
  - injection H as <- <-. exists [], [], []. split; [reflexivity|]. split; [constructor|].
    split; [|left; split; [reflexivity|]; exists l; split; reflexivity].
    unfold appended. cbn. rewrite app_nil_r. unfold on_disk. auto.
  - destruct (mk rec) as [e| | |] eqn:M.
    2,3,4: injection H as <- <-; exists [], (rec :: recs), []; split; [reflexivity|]; split; [constructor|];
      split; [unfold appended; cbn; rewrite app_nil_r; unfold on_disk; auto|];
      right; left; exists rec, recs; split; [reflexivity|]; rewrite M; split; [reflexivity|]; exists l; reflexivity.
    destruct (append_entry today l w e) as [w1 r1] eqn:A.
    pose proof (append_resolve today l w e w1 r1 A) as R.
    unfold append_entry in A. pose proof (append_file_spec w (l_path l) (10%N :: show_entry (l_format l) e)) as Sp.
    rewrite F in Sp. destruct Sp as (w2 & E & C & Dd & Fj & Fo). rewrite E in A.
    destruct (printable (l_format l)) eqn:Pf.
    2:{ injection A as <- <-. injection H as <- <-. exists [], (rec :: recs), []. split; [reflexivity|]. split; [constructor|].
        split; [unfold appended; cbn; rewrite app_nil_r; unfold on_disk; auto|].
        right; right; right. repeat split; discriminate. }
    injection A as <- <-.
    assert (D1 : on_disk w w2 (resolve w (l_path l)) (old ++ appended (l_format l) [e])).
    { unfold on_disk, appended. cbn [map List.concat]. rewrite app_nil_r. auto. }
    destruct (add_entry today l e) as [l1| | |] eqn:B.
    2,3,4: injection H as <- <-; exists [rec], recs, [e]; split; [reflexivity|];
      split; [constructor; [exact M|constructor]|]; split; [exact D1|];
      right; right; left; exists [], e, l; split; [reflexivity|]; split; [reflexivity|]; rewrite B; reflexivity.
    destruct (add_entry_same today l e l1 B) as (Ep & Ef & _).
    assert (Fj' : files w2 (resolve w2 (l_path l1)) = Some (old ++ 10%N :: show_entry (l_format l) e)).
    { rewrite Ep, R. exact Fj. }
    destruct (IH l1 w2 w' r _ H Fj') as (first & rest & es & -> & F2 & (J & O & Ds & Cw) & Z).
    exists (rec :: first), rest, (e :: es). split; [reflexivity|]. split; [constructor; assumption|].
    rewrite Ep, R in J, O. rewrite Ef in J. split.
    + split; [|split; [|split]].
      * rewrite J. f_equal. unfold appended. cbn [map List.concat]. rewrite <- app_assoc. reflexivity.
      * intros q N. rewrite O by exact N. apply Fo. exact N.
      * intro q. rewrite Ds. apply Dd.
      * congruence.
    + destruct Z as [(-> & l' & -> & Z)|[(rec' & rest' & -> & Z & l' & Z')|[(es0 & e' & l' & -> & Z & Z')|(Z & _)]]].
      * left. split; [reflexivity|]. exists l'. split; [reflexivity|]. cbn [fold_res]. rewrite B. exact Z.
      * right; left. exists rec', rest'. split; [reflexivity|]. split; [exact Z|]. exists l'. cbn [fold_res]. rewrite B. exact Z'.
      * right; right; left. exists (e :: es0), e', l'. split; [reflexivity|]. split; [|exact Z']. cbn [fold_res]. rewrite B. exact Z.
      * rewrite Ef in Z. congruence.
Qed.
Lemma import_records_no_file today mk recs l w w' r :
  import_records today mk l w recs = (w', r) -> files w (resolve w (l_path l)) = None -> w' = w.
Proof.
  destruct recs as [|rec recs]; cbn [import_records]; intros H F; [congruence|].
  destruct (mk rec); try congruence. unfold append_entry in H.
  pose proof (append_file_spec w (l_path l) (10%N :: show_entry (l_format l) a)) as Sp. rewrite F in Sp. rewrite Sp in H. congruence.
Qed.

(** ** Loading again *)
Lemma reload_appended today inc es : forall old s0 l w,
  add_from_str today inc old s0 = Ok (l, w) ->
  Forall (fun e => journal_date (l_format l) (e_date e)) es -> Forall (writable_entry (account_names l)) es ->
  forall l2, fold_res (add_entry today) (map reread es) l = Ok l2 ->
  add_from_str today inc (old ++ appended (l_format l) es) s0 = Ok (l2, w).
Proof.
  induction es as [|e es IH]; intros old s0 l w H P F l2 G.
  - cbn in G. injection G as <-. unfold appended. cbn. rewrite app_nil_r. exact H.
  - cbn [map fold_res] in G. apply bind_Ok in G as (l1 & G1 & G). inversion F; subst. inversion P; subst.
    pose proof (load_appended today inc old s0 (l, w) e H H4 H2) as L. cbn [fst snd] in L. rewrite G1 in L. cbn [bind] in L.
    destruct (add_entry_same today l (reread e) l1 G1) as (_ & Ef & En).
    rewrite <- Ef in H5. rewrite <- En in H3.
    pose proof (IH _ _ _ _ L H5 H3 l2 G) as X. rewrite Ef in X.
    unfold appended in *. cbn [map List.concat]. rewrite <- app_assoc in X. exact X.
Qed.

Definition bare_entry (e e' : entry) : Prop :=
  e' = e \/ e' = mkEntry (e_date e) (e_status e) (e_desc e) (e_payee e) None (e_postings e).
Lemma insert_bare x x' l l' : bare_entry x x' -> Forall2 bare_entry l l' ->
  Forall2 bare_entry (insert_entry x l) (insert_entry x' l').
Proof.
  intros Bx B. assert (date_of : forall y y', bare_entry y y' -> e_date y' = e_date y) by (intros y y' [-> | ->]; reflexivity).
  induction B as [|y y' l l' By B IH]; cbn [insert_entry]; [constructor; [exact Bx|constructor]|].
  rewrite (date_of _ _ Bx), (date_of _ _ By). destruct (date_leb _ _); constructor; auto.
Qed.
Lemma sort_bare l l' : Forall2 bare_entry l l' -> Forall2 bare_entry (sort_entries l) (sort_entries l').
Proof. induction 1; cbn; [constructor|]. apply insert_bare; assumption. Qed.

Lemma exact_reread e : map to8_posting (e_postings e) = e_postings e -> bare_entry e (reread e).
Proof. intro H. right. unfold reread. rewrite H. reflexivity. Qed.
Lemma process_bare today a e e' : bare_entry e e' -> acc_process today a e' = acc_process today a e.
Proof.
  intros [-> | ->]; [reflexivity|]. set (e' := mkEntry _ _ _ _ _ _).
  assert (fold_same : forall T (f g : T -> posting -> res T) ps, (forall s p, f s p = g s p) -> forall s, fold_res f ps s = fold_res g ps s).
  { intros T f g ps H. induction ps as [|p ps IH]; intro s; cbn [fold_res]; [reflexivity|]. rewrite H. destruct (g s p); cbn [bind]; auto. }
  assert (forall ps x, blank_native e' ps x = blank_native e ps x) as N.
  { induction ps as [|p ps IH]; intro x; cbn [blank_native]; [reflexivity|]. destruct (native_value p); [apply IH|].
    destruct (get_amount p); [reflexivity|apply IH]. }
  assert (get_blank_amount e' = get_blank_amount e) as B.
  { unfold get_blank_amount. rewrite N. reflexivity. }
  assert (forall v, env_process today v e' = env_process today v e) as V.
  { intro v. unfold env_process. change (has_envelope_posting e') with (has_envelope_posting e).
    destruct (has_envelope_posting e); [reflexivity|]. unfold infer. change (e_postings e') with (e_postings e).
    change (e_date e') with (e_date e). destruct (_ || _); [reflexivity|].
    rewrite (fold_same _ (infer_step v e') (infer_step v e)); [reflexivity|]. intros s p. unfold infer_step, infer_amount.
    rewrite B. change (full_string e') with (full_string e). reflexivity. }
  unfold acc_process. change (e_postings e') with (e_postings e).
  rewrite (fold_same _ (real_step (a_name a) e') (real_step (a_name a) e)) by (intros s p; unfold real_step; rewrite B; reflexivity).
  assert (forall vs, map_res (fun v => env_process today v e') vs = map_res (fun v => env_process today v e) vs) as M.
  { induction vs as [|v vs IH]; cbn [map_res]; [reflexivity|]. rewrite V, IH. reflexivity. }
  rewrite !M. reflexivity.
Qed.
Lemma add_bare today l l' e e' l1 : uncommented l l' -> bare_entry e e' -> add_entry today l e = Ok l1 ->
  exists l1', add_entry today l' e' = Ok l1' /\ uncommented l1 l1'.
Proof.
  intros (Ep & Ef & Ea & Ec & Fe) B H. rewrite add_entry_accounts_eq in *. apply bind_Ok in H as (m & Hm & H). injection H as <-.
  exists (mkLedger (l_path l') (sort_entries (l_entries l' ++ [e'])) (l_format l') m (l_currency l')). split.
  - rewrite <- Ea. replace (map_res (process_pair today e') (l_accounts l)) with (map_res (process_pair today e) (l_accounts l)).
    + rewrite Hm. reflexivity.
    + clear -B. induction (l_accounts l) as [|x m IH]; [reflexivity|]. cbn [map_res]. rewrite IH. unfold process_pair at 1 3.
      rewrite (process_bare today (snd x) e e' B). reflexivity.
  - repeat split; cbn; auto. apply sort_bare. apply Forall2_app; [exact Fe|]. constructor; [exact B|constructor].
Qed.
Lemma fold_bare today es : forall l l' l1, uncommented l l' ->
  Forall (fun e => map to8_posting (e_postings e) = e_postings e) es ->
  fold_res (add_entry today) es l = Ok l1 ->
  exists l1', fold_res (add_entry today) (map reread es) l' = Ok l1' /\ uncommented l1 l1'.
Proof.
  induction es as [|e es IH]; intros l l' l1 U F H; cbn [fold_res map] in *.
  - injection H as <-. eauto.
  - inversion F; subst. apply bind_Ok in H as (l0 & H0 & H).
    destruct (add_bare today l l' e (reread e) l0 U (exact_reread e H2) H0) as (l0' & E & U').
    rewrite E. cbn [bind]. exact (IH _ _ _ U' H3 H).
Qed.
Lemma uncommented_refl l : uncommented l l.
Proof. repeat split; auto. induction (l_entries l); constructor; auto. Qed.

(** ** Orders of hash maps *)
Lemma map_get_lookup {A} k (m : list (str * A)) :
  map_get k m = option_map snd (List.find (fun x => if str_dec (fst x) k then true else false) m).
Proof.
  unfold map_get. induction m as [|(k' & v) m IH]; [reflexivity|]. cbn [find fst].
  destruct (str_dec k' k) as [-> |N]; [rewrite str_eqb_refl; reflexivity|].
  destruct (str_eqb k' k) eqn:E; [apply str_eqb_eq in E; contradiction|]. exact IH.
Qed.
Lemma import_posting_text ord vars r accounts ka :
  import_posting ord vars r accounts ka = parse_posting (inject ord vars (posting_text r ka)) (r_decimal r) accounts.
Proof.
  unfold import_posting, posting_text, amounts_or_default. rewrite map_get_lookup.
  destruct (find _ _); reflexivity.
Qed.
Lemma make_variables_combine fields : forall rec acc, NoDup (map fst (acc ++ combine fields rec)) ->
  make_variables fields rec acc = Ok (acc ++ combine fields rec).
Proof.
  induction fields as [|f fields IH]; intros [|v rec] acc D; cbn [make_variables combine] in *; try (rewrite app_nil_r; reflexivity).
  assert (~ In f (map fst acc)) as N.
  { rewrite map_app in D. cbn [map fst] in D. apply NoDup_remove_2 in D. intro I. apply D. apply in_or_app. left. exact I. }
  assert (map_get f acc = None) as ->.
  { clear -N. induction acc as [|(k & x) acc IH]; [reflexivity|]. cbn [map fst] in N. unfold map_get in *. cbn [find fst].
    destruct (str_eqb k f) eqn:E; [apply str_eqb_eq in E; exfalso; apply N; left; exact E|]. apply IH. intro I. apply N. right. exact I. }
  assert (map_insert f v acc = acc ++ [(f, v)]) as ->.
  { clear -N. induction acc as [|(k & x) acc IH]; [reflexivity|]. cbn [map fst map_insert app] in *.
    destruct (str_eqb k f) eqn:E; [apply str_eqb_eq in E; exfalso; apply N; left; exact E|]. f_equal. apply IH. intro I. apply N. right. exact I. }
  rewrite IH by (rewrite <- app_assoc; exact D). rewrite <- app_assoc. reflexivity.
Qed.

Lemma inject_good ord ord' vars s : (forall l, Permutation (ord l) l) -> (forall l, Permutation (ord' l) l) ->
  good_vars vars -> good_text vars s -> inject ord vars s = inject ord' vars s.
Proof.
  intros O O' (D & F) (ps & -> & G & W). rewrite (inject_template ord), (inject_template ord'); auto.
Qed.

Lemma complete_perm rec ps ps' qs : Permutation ps ps' -> complete_postings rec ps = Ok qs ->
  exists qs', complete_postings rec ps' = Ok qs' /\ Permutation qs qs'.
Proof.
  intros P H. pose proof (Permutation_length P) as Le. destruct ps as [|p [|p2 ps]].
  - discriminate.
  - apply Permutation_length_1_inv in P. subst ps'. exists qs. split; [exact H|reflexivity].
  - destruct ps' as [|q [|q2 ps']]; cbn in Le; try lia. cbn in H. injection H as <-. exists (q :: q2 :: ps'). split; [reflexivity|exact P].
Qed.

Lemma record_orders ord ord' r rec accounts e : (forall l, Permutation (ord l) l) -> (forall l, Permutation (ord' l) l) ->
  good_vars (combine (r_fields r) rec) -> Forall (good_text (combine (r_fields r) rec)) (rule_texts r) ->
  entry_of_record ord r rec accounts = Ok e ->
  exists e', entry_of_record ord' r rec accounts = Ok e' /\ same_but_order e e'.
Proof.
  intros O O' G T H. apply entry_of_record_Ok in H as (vars & d & st & ps & ps' & Hv & Hd & Hs & Hp & Hc & ->).
  rewrite make_variables_combine in Hv by (cbn [app]; apply G). cbn [app] in Hv. injection Hv as <-.
  set (vars := combine (r_fields r) rec) in *.
  assert (I : forall s, In s (rule_texts r) -> inject ord' vars s = inject ord vars s).
  { intros s Is. apply inject_good; auto. rewrite Forall_forall in T. exact (T s Is). }
  assert (Hp' : map_res (import_posting ord vars r accounts) (ord (accounts_or_default r)) = Ok ps) by (apply map_res_Ok, Hp).
  assert (P : Permutation (ord (accounts_or_default r)) (ord' (accounts_or_default r))).
  { eapply Permutation_trans; [apply O|apply Permutation_sym, O']. }
  pose proof (map_res_perm (import_posting ord vars r accounts) _ _ P) as Bo. rewrite Hp' in Bo.
  destruct (map_res (import_posting ord vars r accounts) (ord' (accounts_or_default r))) as [qs| | |] eqn:Eq; try contradiction.
  cbn [both] in Bo.
  assert (P2 : Permutation (rev ps) (rev qs)).
  { eapply Permutation_trans; [apply Permutation_sym, Permutation_rev|]. eapply Permutation_trans; [exact Bo|apply Permutation_rev]. }
  destruct (complete_perm _ _ _ _ P2 Hc) as (qs' & Hc' & P3).
  assert (Eq' : map_res (import_posting ord' vars r accounts) (ord' (accounts_or_default r)) = Ok qs).
  { apply map_res_Ok. apply map_res_Ok in Eq.
    assert (Hin : forall ka, In ka (ord' (accounts_or_default r)) -> In ka (account_rules r)).
    { intros ka Ik. eapply Permutation_in; [apply O'|exact Ik]. }
    clear -I Eq Hin. revert Hin. induction Eq as [|ka q kas qs0 E Eq IH]; intro Hin; constructor.
    - rewrite import_posting_text in *. rewrite I; [exact E|]. unfold rule_texts. apply in_or_app. right. apply in_map, Hin. left. reflexivity.
    - apply IH. intros ka' Ik. apply Hin. right. exact Ik. }
  unfold entry_of_record. rewrite make_variables_combine by (cbn [app]; apply G). cbn [app bind]. fold vars.
  rewrite !I by (unfold rule_texts; cbn; tauto).
  rewrite Hd. cbn [ok_or bind]. rewrite Hs. cbn [bind]. rewrite Eq'. cbn [bind]. rewrite Hc'. cbn [bind].
  eexists. split; [reflexivity|]. unfold same_but_order, new_entry. cbn. repeat split; try reflexivity. exact P3.
Qed.
