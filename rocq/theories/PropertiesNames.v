(** Property C126: names are only names. *)
From Coq Require Import ZArith NArith List Bool String Lia.
From Verif Require Import Base Str F64 Date Amount Posting Entry Envelope Account Register Ledger SpecRegister SpecNames StrFacts RegisterFacts PropertiesLedger PropertiesCli PropertiesImport.
Import ListNotations.

Lemma alike_bind {A B C D} (f : A -> B) (g : C -> D) r r' k k' : alike f r r' ->
  (forall a, alike g (k a) (k' (f a))) -> alike g (bind r k) (bind r' k').
Proof. destruct r, r'; cbn; try contradiction; trivial. intros -> H. apply H. Qed.
Lemma alike_fold {A B C D} (f : A -> B) (g : C -> D) s s' :
  (forall c a, alike g (s c a) (s' (g c) (f a))) -> forall l c, alike g (fold_res s l c) (fold_res s' (map f l) (g c)).
Proof. intro H. induction l as [|a l IH]; intro c; [reflexivity|]. cbn [map fold_res]. eapply alike_bind; [apply H|exact IH]. Qed.
Lemma alike_map {A B C D} (f : A -> B) (g : C -> D) s s' :
  (forall a, alike g (s a) (s' (f a))) -> forall l, alike (map g) (map_res s l) (map_res s' (map f l)).
Proof.
  intro H. induction l as [|a l IH]; [reflexivity|]. cbn [map map_res]. eapply alike_bind; [apply H|]. intro c.
  eapply alike_bind; [apply IH|]. reflexivity.
Qed.
Lemma map_existsb {A B} (f : A -> B) p l : existsb p (map f l) = existsb (fun a => p (f a)) l.
Proof. induction l; [reflexivity|]. cbn. f_equal. assumption. Qed.
Lemma existsb_same {A} (p q : A -> bool) l : (forall a, p a = q a) -> existsb p l = existsb q l.
Proof. intro H. induction l as [|a l IH]; [reflexivity|]. cbn. rewrite H, IH. reflexivity. Qed.
Lemma map_filter {A B} (f : A -> B) p q l : (forall a, p (f a) = q a) -> filter p (map f l) = map f (filter q l).
Proof. intro H. induction l as [|a l IH]; [reflexivity|]. cbn. rewrite H, IH. destruct (q a); reflexivity. Qed.

Section Renamed.
Variables (n : naming) (today : date).
Hypothesis D : distinct n.

Lemma eqb_inj f a b : one_to_one f -> str_eqb (f a) (f b) = str_eqb a b.
Proof. intro I1. destruct (str_eqb_spec a b) as [->|N]; [apply str_eqb_refl|]. destruct (str_eqb_spec (f a) (f b)) as [E|_]; [elim N; apply I1, E|reflexivity]. Qed.
Lemma eqb_account a b : str_eqb (n_account n a) (n_account n b) = str_eqb a b.
Proof. apply eqb_inj, D. Qed.
Lemma eqb_envelope a b : str_eqb (n_envelope n a) (n_envelope n b) = str_eqb a b.
Proof. apply eqb_inj, D. Qed.
Lemma eqb_symbol a b : ostr_eqb (option_map (n_symbol n) a) (option_map (n_symbol n) b) = ostr_eqb a b.
Proof. destruct a, b; try reflexivity. cbn [option_map ostr_eqb]. apply eqb_inj, D. Qed.
Lemma mem_account a l : mem (n_account n a) (map (n_account n) l) = mem a l.
Proof. unfold mem. rewrite map_existsb. apply existsb_same. intro. apply eqb_account. Qed.

Lemma re_add a b : alike (re_amount n) (amount_add a b) (amount_add (re_amount n a) (re_amount n b)).
Proof. unfold amount_add. cbn [re_amount symbol]. rewrite eqb_symbol. destruct (ostr_eqb _ _); reflexivity || exact I. Qed.
Lemma re_sub_assign a b : alike (re_amount n) (amount_sub_assign a b) (amount_sub_assign (re_amount n a) (re_amount n b)).
Proof. unfold amount_sub_assign. cbn [re_amount symbol]. rewrite eqb_symbol. destruct (ostr_eqb _ _); reflexivity || exact I. Qed.
Lemma re_update s f a p : pool_update (option_map (n_symbol n) s) f (re_amount n a) (map (re_amount n) p) = map (re_amount n) (pool_update s f a p).
Proof.
  induction p as [|b p IH]; [reflexivity|]. cbn [map pool_update]. cbn [re_amount symbol mag]. rewrite eqb_symbol, IH. destruct (ostr_eqb _ _); reflexivity.
Qed.
Lemma re_pool_add p a : pool_add (map (re_amount n) p) (re_amount n a) = map (re_amount n) (pool_add p a).
Proof. apply re_update. Qed.
Lemma re_pool_sub p a : pool_sub (map (re_amount n) p) (re_amount n a) = map (re_amount n) (pool_sub p a).
Proof. apply (re_update _ _ (amount_neg a)). Qed.
Lemma re_pool_minus p a : pool_minus (map (re_amount n) p) (re_amount n a) = map (re_amount n) (pool_minus p a).
Proof. apply (re_pool_add p (amount_neg a)). Qed.
Lemma re_only p s : pool_only (map (re_amount n) p) (option_map (n_symbol n) s) = re_amount n (pool_only p s).
Proof.
  unfold pool_only. induction p as [|b p IH]; [reflexivity|]. cbn [map find]. cbn [re_amount symbol]. rewrite eqb_symbol.
  destruct (ostr_eqb _ _); [reflexivity|exact IH].
Qed.

Lemma re_get_amount p : get_amount (re_posting n p) = option_map (re_amount n) (get_amount p).
Proof. destruct p; reflexivity. Qed.
Lemma re_get_account p : get_account (re_posting n p) = n_account n (get_account p).
Proof. destruct p; reflexivity. Qed.
Lemma re_is_envelope p : is_envelope (re_posting n p) = is_envelope p.
Proof. destruct p; reflexivity. Qed.
Lemma re_native p : native_value (re_posting n p) = native_value p.
Proof.
  destruct p as [[[a|] c k b]|]; try reflexivity. cbn. unfold classic_native. cbn. destruct (symbol a); [|reflexivity]. cbn.
  destruct k as [[k|k]|]; [| |reflexivity]; cbn; destruct (symbol k); reflexivity.
Qed.
Lemma re_has_blank e : has_blank_posting (re_entry n e) = has_blank_posting e.
Proof. unfold has_blank_posting. cbn. rewrite map_existsb. apply existsb_same. intro p. rewrite re_get_amount. destruct (get_amount p); reflexivity. Qed.
Lemma re_has_envelope e : has_envelope_posting (re_entry n e) = has_envelope_posting e.
Proof. unfold has_envelope_posting. cbn. rewrite map_existsb. apply existsb_same. apply re_is_envelope. Qed.
Lemma re_find ps : find_amount (map (re_posting n) ps) = option_map (fun ar => (re_amount n (fst ar), map (re_posting n) (snd ar))) (find_amount ps).
Proof. induction ps as [|p ps IH]; [reflexivity|]. cbn [map find_amount]. rewrite re_get_amount. destruct (get_amount p); [reflexivity|exact IH]. Qed.
Lemma re_mixed e : has_mixed_currencies (re_entry n e) = has_mixed_currencies e.
Proof.
  unfold has_mixed_currencies. cbn [re_entry e_postings]. rewrite re_find. destruct (find_amount _) as [[a rest]|]; [|reflexivity]. cbn [option_map fst snd].
  rewrite map_existsb. apply existsb_same. intro p. rewrite re_get_amount. destruct (get_amount p); [|reflexivity]. cbn [option_map re_amount symbol].
  rewrite eqb_symbol. reflexivity.
Qed.
Lemma re_blank_native e : forall ps m, alike (fun m => m) (blank_native e ps m) (blank_native (re_entry n e) (map (re_posting n) ps) m).
Proof.
  induction ps as [|p ps IH]; intro m; [reflexivity|]. cbn [map blank_native]. rewrite re_native, re_get_amount.
  destruct (native_value p); [apply IH|]. destruct (get_amount p); [exact I|apply IH].
Qed.
Lemma re_blank_rest : forall ps a, alike (re_amount n) (blank_rest ps a) (blank_rest (map (re_posting n) ps) (re_amount n a)).
Proof.
  induction ps as [|p ps IH]; intro a; [reflexivity|]. cbn [map blank_rest]. rewrite re_get_amount. destruct (get_amount p); [|apply IH].
  cbn [option_map]. eapply alike_bind; [apply re_sub_assign|apply IH].
Qed.
Lemma re_blank e : alike (option_map (re_amount n)) (get_blank_amount e) (get_blank_amount (re_entry n e)).
Proof.
  unfold get_blank_amount. rewrite re_has_blank, re_mixed. destruct (has_blank_posting e); [|reflexivity]. destruct (has_mixed_currencies e).
  - eapply alike_bind; [apply re_blank_native|]. reflexivity.
  - cbn [re_entry e_postings]. rewrite re_find. destruct (find_amount _) as [[a rest]|]; [|exact I]. cbn [option_map fst snd].
    eapply alike_bind; [apply (re_blank_rest rest (amount_neg a))|]. reflexivity.
Qed.
Lemma re_blank_unwrap e : alike (re_amount n) (let! o := get_blank_amount e in unwrap o) (let! o := get_blank_amount (re_entry n e) in unwrap o).
Proof. eapply alike_bind; [apply re_blank|]. intros [a|]; reflexivity || exact I. Qed.

(** ** Envelopes *)
Lemma re_apply v a d : alike (re_envelope n) (apply_amount today v a d) (apply_amount today (re_envelope n v) (re_amount n a) d).
Proof.
  unfold apply_amount. eapply (alike_bind (re_envelope n)); [|reflexivity]. cbn [re_amount mag re_envelope v_freq].
  assert (forall a, alike (re_envelope n) (let! m := amount_add (v_now v) a in Ok (set_now v m))
    (let! m := amount_add (v_now (re_envelope n v)) (re_amount n a) in Ok (set_now (re_envelope n v) m))) as Now
    by (intro b; eapply alike_bind; [apply re_add|reflexivity]).
  assert (forall a, alike (re_envelope n) (let! m := amount_add (v_next v) a in Ok (set_next v m))
    (let! m := amount_add (v_next (re_envelope n v)) (re_amount n a) in Ok (set_next (re_envelope n v) m))) as Next
    by (intro b; eapply alike_bind; [apply re_add|reflexivity]).
  destruct (fltb (mag a) fzero); [apply Now|]. destruct (fltb fzero (mag a)); [|reflexivity].
  destruct (freq_last today (v_freq v)) as [[l|]| | |]; cbn [bind]; try exact I; [destruct (date_ltb d l); [apply Now|apply Next]|apply Next].
Qed.
Lemma re_manual v e : alike (re_envelope n) (process_manual today v e) (process_manual today (re_envelope n v) (re_entry n e)).
Proof.
  unfold process_manual, envelope_postings. cbn [re_entry e_postings e_date]. rewrite (map_filter _ _ is_envelope) by apply re_is_envelope.
  apply alike_fold. intros w [c|p]; [reflexivity|]. cbn [re_posting manual_step re_envelope v_account v_name ep_account ep_envelope ep_amount].
  rewrite eqb_account, eqb_envelope. destruct (_ && _); [apply re_apply|reflexivity].
Qed.
Lemma re_infer_amount v e p : alike (re_amount n) (infer_amount v e p) (infer_amount (re_envelope n v) (re_entry n e) (re_posting n p)).
Proof.
  unfold infer_amount. eapply (alike_bind (re_amount n)).
  - rewrite re_get_amount. destruct (get_amount p); [reflexivity|apply re_blank_unwrap].
  - intro a. cbn [re_envelope v_amount re_amount symbol]. rewrite eqb_symbol, re_native. destruct (ostr_eqb _ _); [reflexivity|].
    destruct (symbol (v_amount v)); [exact I|]. cbn [option_map]. destruct (native_value p); reflexivity || exact I.
Qed.
Lemma re_infer v e : alike (re_envelope n) (infer today v e) (infer today (re_envelope n v) (re_entry n e)).
Proof.
  unfold infer.
  assert (count_self (re_envelope n v) (e_postings (re_entry n e)) = count_self v (e_postings e)) as ->.
  { unfold count_self. cbn [re_entry e_postings re_envelope v_account].
    rewrite (map_filter _ _ (fun p => str_eqb (get_account p) (v_account v))) by (intro; rewrite re_get_account; apply eqb_account). apply map_length. }
  assert (count_auto (re_envelope n v) (e_postings (re_entry n e)) = count_auto v (e_postings e)) as ->.
  { unfold count_auto. cbn [re_entry e_postings re_envelope v_account v_auto].
    rewrite (map_filter _ _ (fun p => negb (str_eqb (get_account p) (v_account v)) && mem (get_account p) (v_auto v)))
      by (intro; rewrite re_get_account, eqb_account, mem_account; reflexivity). apply map_length. }
  destruct (_ || _); [reflexivity|].
  eapply (alike_bind (fun s => (re_amount n (fst s), re_amount n (snd s)))).
  - cbn [re_entry e_postings]. change (mkAmount fzero (symbol (v_amount (re_envelope n v))), mkAmount fzero (symbol (v_amount (re_envelope n v))))
      with ((fun s : amount * amount => (re_amount n (fst s), re_amount n (snd s))) (mkAmount fzero (symbol (v_amount v)), mkAmount fzero (symbol (v_amount v)))).
    apply alike_fold. intros [x y] p. unfold infer_step. eapply alike_bind; [apply re_infer_amount|]. intro a. cbn [fst snd].
    rewrite re_get_account. cbn [re_envelope v_account v_auto]. rewrite eqb_account, mem_account.
    destruct (str_eqb _ _); [eapply alike_bind; [apply re_add|reflexivity]|]. destruct (mem _ _); [eapply alike_bind; [apply re_add|reflexivity]|reflexivity].
  - intros [x y]. cbn [fst snd re_amount mag]. destruct (negb _); [|reflexivity]. apply (re_apply v (mkAmount _ (symbol (v_amount v)))).
Qed.
Lemma re_process v e : alike (re_envelope n) (env_process today v e) (env_process today (re_envelope n v) (re_entry n e)).
Proof. unfold env_process. rewrite re_has_envelope. destruct (has_envelope_posting e); [apply re_manual|apply re_infer]. Qed.
Lemma re_real a e p x : alike (map (re_amount n)) (real_step a e p x) (real_step (n_account n a) (re_entry n e) (map (re_amount n) p) (re_posting n x)).
Proof.
  unfold real_step. rewrite re_get_account, eqb_account, re_is_envelope, re_get_amount. destruct (_ && _); [|reflexivity].
  destruct (get_amount x); [cbn [option_map alike]; apply re_pool_add|]. cbn [option_map]. eapply alike_bind; [apply re_blank|].
  intros [b|]; [apply re_pool_add|reflexivity].
Qed.
Lemma re_acc_process a e : alike (re_account n) (acc_process today a e) (acc_process today (re_account n a) (re_entry n e)).
Proof.
  unfold acc_process. cbn [re_account a_expenses a_goals a_name a_real].
  eapply alike_bind; [apply (alike_map (re_envelope n) (re_envelope n)); intro; apply re_process|]. intro ex.
  eapply alike_bind; [apply (alike_map (re_envelope n) (re_envelope n)); intro; apply re_process|]. intro go.
  eapply alike_bind; [apply (alike_fold (re_posting n) (map (re_amount n))); intros; apply re_real|]. reflexivity.
Qed.
Lemma re_sort es : sort_entries (map (re_entry n) es) = map (re_entry n) (sort_entries es).
Proof.
  unfold sort_entries. induction es as [|e es IH]; [reflexivity|]. cbn [map fold_right]. rewrite IH. generalize (fold_right insert_entry [] es). intro l.
  induction l as [|x l IH2]; [reflexivity|]. cbn [map insert_entry]. cbn [re_entry e_date]. destruct (date_leb _ _); [reflexivity|]. cbn [map]. f_equal. exact IH2.
Qed.
Lemma re_add_entry l e : alike (re_ledger n) (add_entry today l e) (add_entry today (re_ledger n l) (re_entry n e)).
Proof.
  unfold add_entry. cbn [re_ledger l_accounts l_entries l_path l_format l_currency].
  eapply alike_bind; [apply (alike_map (fun ka => (n_account n (fst ka), re_account n (snd ka))) (fun ka => (n_account n (fst ka), re_account n (snd ka))))|].
  - intros [k a]. cbn [fst snd]. eapply alike_bind; [apply re_acc_process|]. reflexivity.
  - intro accs. cbn [alike]. unfold re_ledger. cbn [l_accounts l_entries l_path l_format l_currency]. f_equal. rewrite <- re_sort, map_app. reflexivity.
Qed.

(** ** Moves *)
Lemma re_filling_amount v a : alike (re_amount n) (filling_amount today v a) (filling_amount today (re_envelope n v) (re_amount n a)).
Proof.
  unfold filling_amount. cbn [re_amount re_envelope v_amount symbol mag v_last v_funding]. rewrite eqb_symbol. destruct (negb _); [exact I|].
  change (env_next_due today (re_envelope n v)) with (env_next_due today v).
  change (env_next_due today _) with (env_next_due today v). destruct (env_next_due today v) as [[due|]| | |]; cbn [bind]; try exact I; [|reflexivity].
  eapply (alike_bind (re_amount n)); [apply (re_add (v_amount v) (amount_neg (v_next v)))|]. intro rem.
  destruct (date_eqb (v_last v) today); [reflexivity|]. destruct (v_funding v); reflexivity.
Qed.
Lemma re_available a : available_value (re_account n a) = map (re_amount n) (available_value a).
Proof.
  unfold available_value, all_envelopes. cbn [re_account a_expenses a_goals a_real]. rewrite <- map_app. generalize (a_expenses a ++ a_goals a), (a_real a).
  induction l as [|v l IH]; intro p; [reflexivity|]. cbn [map fold_left]. rewrite <- IH. f_equal. cbn [re_envelope v_next v_now]. rewrite !re_pool_minus. reflexivity.
Qed.
Lemma re_filling a : alike (map (re_posting n)) (filling_postings today a) (filling_postings today (re_account n a)).
Proof.
  unfold filling_postings. eapply (alike_bind (fun st => (map (re_amount n) (fst st), map (re_posting n) (snd st)))); [|intros [av ps]; reflexivity].
  rewrite re_available. unfold all_envelopes. cbn [re_account a_expenses a_goals]. rewrite <- map_app, <- map_rev.
  apply (alike_fold (re_envelope n) (fun st => (map (re_amount n) (fst st), map (re_posting n) (snd st))) _ _ ) with (c := (available_value a, [])).
  intros [av ps] v. unfold filling_step. cbn [fst snd].
  eapply (alike_bind (fun ep => mkEnvPosting (n_account n (ep_account ep)) (n_envelope n (ep_envelope ep)) (re_amount n (ep_amount ep)))).
  - unfold filling_posting. cbn [re_envelope v_amount re_amount symbol]. rewrite re_only. eapply alike_bind; [apply re_filling_amount|]. reflexivity.
  - intro ep. cbn [alike fst snd ep_amount]. rewrite re_pool_sub, map_app. reflexivity.
Qed.
Lemma re_fill l : alike (map (re_posting n)) (fill_postings today l) (fill_postings today (re_ledger n l)).
Proof.
  unfold fill_postings. eapply alike_bind.
  - apply (alike_map (fun ka => (n_account n (fst ka), re_account n (snd ka))) (map (re_posting n))). intros [k a]. apply re_filling.
  - intro pss. cbn [alike]. rewrite <- concat_map. apply map_filter. intro p. unfold keep_posting. rewrite re_get_amount. destruct (get_amount p); reflexivity.
Qed.

(** ** Totals and the register *)
Lemma re_get {A B} (g : A -> B) k m : map_get (n_account n k) (map (fun kp => (n_account n (fst kp), g (snd kp))) m) = option_map g (map_get k m).
Proof. induction m as [|[k' v] m IH]; [reflexivity|]. cbn [map map_get fst snd]. rewrite eqb_account. destruct (str_eqb k' k); [reflexivity|exact IH]. Qed.
Lemma re_insert {A B} (g : A -> B) k v m : map_insert (n_account n k) (g v) (map (fun kp => (n_account n (fst kp), g (snd kp))) m)
  = map (fun kp => (n_account n (fst kp), g (snd kp))) (map_insert k v m).
Proof. induction m as [|[k' w] m IH]; [reflexivity|]. cbn [map map_insert fst snd]. rewrite eqb_account. destruct (str_eqb k' k); [reflexivity|]. cbn [map fst snd]. f_equal. exact IH. Qed.
Lemma re_get_totals l : alike (re_totals n) (get_totals l) (get_totals (re_ledger n l)).
Proof.
  unfold get_totals. cbn [re_ledger l_entries]. apply (alike_fold (re_entry n) (re_totals n) _ _) with (c := []). intros m e. cbn [re_entry e_postings].
  apply alike_fold. clear m. intros m p. unfold totals_step. rewrite re_get_account, re_get_amount. rewrite (re_get _ _ m : map_get _ (re_totals n m) = _).
  destruct (map_get _ m) as [pl|]; cbn [option_map].
  - destruct (get_amount p); cbn [option_map].
    + cbn [alike]. refine (eq_trans _ (re_insert (map (re_amount n)) _ _ _)). f_equal. apply re_pool_add.
    + eapply alike_bind; [apply re_blank|]. intros [b|]; cbn [option_map alike]; [|reflexivity].
      refine (eq_trans _ (re_insert (map (re_amount n)) _ _ _)). f_equal. apply re_pool_add.
  - cbn [alike]. refine (eq_trans _ (re_insert (map (re_amount n)) _ _ _)). f_equal. destruct (get_amount p); reflexivity.
Qed.
Lemma re_set_insert s l : set_insert (n_account n s) (map (n_account n) l) = map (n_account n) (set_insert s l).
Proof. unfold set_insert. rewrite mem_account. destruct (mem s l); [reflexivity|]. rewrite map_app. reflexivity. Qed.
Lemma re_zero_pool p : pool_is_zero (map (re_amount n) p) = pool_is_zero p.
Proof. unfold pool_is_zero. induction p; [reflexivity|]. cbn. f_equal. assumption. Qed.
Lemma re_register_loop m m' e : (forall a, is_focused m' (n_account n a) = is_focused m a) -> forall ps pos neg foc,
  alike (fun x => (map (n_account n) (fst (fst x)), map (n_account n) (snd (fst x)), map (re_amount n) (snd x))) (register_loop e m ps pos neg foc)
    (register_loop (re_entry n e) m' (map (re_posting n) ps) (map (n_account n) pos) (map (n_account n) neg) (map (re_amount n) foc)).
Proof.
  intro F. induction ps as [|p ps IH]; intros pos neg foc; [reflexivity|]. cbn [map register_loop].
  eapply (alike_bind (re_amount n)); [rewrite re_get_amount; destruct (get_amount p); [reflexivity|apply re_blank_unwrap]|].
  intro a. rewrite re_get_account, F. cbn [re_amount mag]. rewrite !re_set_insert.
  rewrite re_pool_add.
  specialize (IH (if fltb fzero (mag a) then set_insert (get_account p) pos else pos)
    (if fltb fzero (mag a) then neg else if fltb (mag a) fzero then set_insert (get_account p) neg else neg)
    (if is_focused m (get_account p) then pool_add foc a else foc)).
  destruct (fltb fzero (mag a)), (fltb (mag a) fzero), (is_focused m (get_account p)); exact IH.
Qed.
Lemma re_register m m' fmt e : (forall a, is_focused m' (n_account n a) = is_focused m a) ->
  match as_register_data e fmt m, as_register_data (re_entry n e) fmt m' with
  | Ok d, Ok d' => re_row n d d'
  | Err _, Err _ | Panic, Panic | Loop, Loop => True
  | _, _ => False
  end.
Proof.
  intro F. unfold as_register_data. pose proof (re_register_loop m m' e F (e_postings e) [] [] []) as H. cbn [map] in H. cbn [re_entry e_postings e_date e_status e_desc e_payee].
  change (re_entry n e) with (mkEntry (e_date e) (e_status e) (e_desc e) (e_payee e) (e_comment e) (map (re_posting n) (e_postings e))) in H.
  destruct (register_loop e m _ _ _ _) as [[[pos neg] foc]| | |], (register_loop _ m' _ _ _ _) as [[[pos' neg'] foc']| | |]; cbn [alike] in H; try contradiction; try exact I.
  cbn [fst snd] in H. injection H as -> -> ->. cbn [bind]. rewrite re_zero_pool. destruct (pool_is_zero foc); [exact I|].
  destruct (printable fmt); [|exact I]. cbn. repeat split.
Qed.
Lemma re_validate_loop c c' : forall ps b syms, alike (fun x => (fst x, map (n_symbol n) (snd x))) (validate_loop c ps b syms)
  (validate_loop c' (map (re_posting n) ps) b (map (n_symbol n) syms)).
Proof.
  induction ps as [|p ps IH]; intros b syms; [reflexivity|]. cbn [map validate_loop]. rewrite re_get_amount. destruct (get_amount p) as [a|]; cbn [option_map].
  - cbn [re_amount symbol]. destruct (symbol a) as [s|]; [|apply IH]. cbn [option_map].
    replace (add_symbol (map (n_symbol n) syms) (n_symbol n s)) with (map (n_symbol n) (add_symbol syms s)); [apply IH|].
    unfold add_symbol, mem. rewrite map_existsb, (existsb_same (fun a => str_eqb (n_symbol n s) (n_symbol n a)) (str_eqb s)) by (intro; apply eqb_inj, D).
    destruct (existsb _ syms); reflexivity.
  - destruct (Nat.ltb 1 (S b)); [exact I|apply IH].
Qed.
End Renamed.

Theorem C126_valid : forall n c e, distinct n -> alike (fun u => u) (validate_entry c e) (validate_entry c (re_entry n e)).
Proof.
  intros n c e D. unfold validate_entry. eapply alike_bind; [apply (re_validate_loop n D c c (e_postings e) 0 [])|].
  intros [b syms]. cbn [fst snd]. rewrite map_length. destruct (_ && _); reflexivity || exact I.
Qed.
Print Assumptions C126_valid.
Theorem C126_entry : forall n today l e, distinct n ->
  alike (re_ledger n) (add_entry today l e) (add_entry today (re_ledger n l) (re_entry n e)).
Proof. intros n today l e D. apply re_add_entry, D. Qed.
Print Assumptions C126_entry.
Theorem C126_entries : forall n today l es, distinct n ->
  alike (re_ledger n) (fold_res (add_entry today) es l) (fold_res (add_entry today) (map (re_entry n) es) (re_ledger n l)).
Proof. intros n today l es D. apply alike_fold. intros. apply C126_entry, D. Qed.
Print Assumptions C126_entries.
Theorem C126_moves : forall n today l, distinct n ->
  alike (map (re_posting n)) (fill_postings today l) (fill_postings today (re_ledger n l)).
Proof. intros n today l D. apply re_fill, D. Qed.
Print Assumptions C126_moves.
Theorem C126_totals : forall n l, distinct n -> alike (re_totals n) (get_totals l) (get_totals (re_ledger n l)).
Proof. intros n l D. apply re_get_totals, D. Qed.
Print Assumptions C126_totals.
Theorem C126_register : forall n m m' fmt e, distinct n -> (forall a, in_focus m' (n_account n a) = in_focus m a) ->
  match as_register_data e fmt m, as_register_data (re_entry n e) fmt m' with
  | Ok d, Ok d' => re_row n d d'
  | Err _, Err _ | Panic, Panic | Loop, Loop => True
  | _, _ => False
  end.
Proof. intros n m m' fmt e D F. apply re_register; [exact D|]. intro a. rewrite !focused_in. apply F. Qed.
Print Assumptions C126_register.

(** A journal, and the same with a letter before every name. *)
Definition named (a v c : string) : ledger :=
  loaded ["account " ++ a ++ "assets:bank"; "  expense " ++ v ++ "food due every friday"; "    for " ++ a ++ "expenses:food"; "    amount 70 " ++ c ++ "EUR"; "    funding aggressive";
          "account " ++ a ++ "expenses:food"; "account " ++ a ++ "income:pay";
          "2024/03/01 * pay"; "  " ++ a ++ "assets:bank  500 " ++ c ++ "EUR"; "  " ++ a ++ "income:pay";
          "2024/03/02 * bread"; "  " ++ a ++ "assets:bank  -4 " ++ c ++ "EUR"; "  " ++ a ++ "expenses:food";
          "2024/03/03 * move"; "  envelope " ++ a ++ "assets:bank " ++ v ++ "food 10 " ++ c ++ "EUR"]%string.
Definition letters : naming := mkNaming (fun s => 97%N :: s) (fun s => 101%N :: s) (fun s => 99%N :: s).
Definition printed_ledger (l : ledger) : list str :=
  map (show_entry (l_format l)) (l_entries l)
  ++ match fill_postings today l with Ok ps => map show_posting ps | _ => [] end
  ++ match get_totals l with Ok m => map (fun kp => fst kp ++ show_pool (snd kp)) m | _ => [] end.
Example C126_case : distinct letters
  /\ printed_ledger (re_ledger letters (named "" "" "")) = printed_ledger (named "a" "e" "c")
  /\ List.length (printed_ledger (named "a" "e" "c")) = 7.
Proof.
  split; [repeat split; intros a b H; injection H; trivial|]. split; vm_compute; reflexivity.
Qed.
