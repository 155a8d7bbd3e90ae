(** Balance assertions and the currency setting have no effect. *)
From Coq Require Import ZArith NArith List Bool String.
From Verif Require Import Base Str F64 Date World Amount Posting Entry Envelope Account Register Ledger SpecReadme.
Import ListNotations.

Definition fp (p : posting) : posting :=
  match p with
  | Classic c => Classic (mkClassic (c_amount c) (c_account c) (c_cost c) None)
  | EnvPosting e => EnvPosting e
  end.
Definition fe (e : entry) : entry :=
  mkEntry (e_date e) (e_status e) (e_desc e) (e_payee e) (e_comment e) (map fp (e_postings e)).
Definition fl (l : ledger) : ledger :=
  mkLedger (l_path l) (map fe (l_entries l)) (l_format l) (l_accounts l) [].

Lemma alike_posting_iff p q : alike_posting p q <-> fp p = fp q.
Proof.
  destruct p as [[a b c d]|a], q as [[a' b' c' d']|z]; cbn; split; intro H; try discriminate; try (destruct H; fail).
  - destruct H as (-> & -> & ->). reflexivity.
  - injection H as -> -> ->. auto.
  - subst. reflexivity.
  - injection H as ->. reflexivity.
Qed.
Lemma Forall2_map {A B} (R : A -> A -> Prop) (f : A -> B) l : (forall x y, R x y <-> f x = f y) ->
  forall m, Forall2 R l m <-> map f l = map f m.
Proof.
  intro H. induction l as [|x l IH]; intros [|y m]; cbn; split; intro F; try reflexivity; try discriminate; try constructor; inversion F; subst.
  - apply H in H3. apply IH in H5. congruence.
  - apply H. congruence.
  - apply IH. congruence.
Qed.
Lemma alike_entry_iff e f : alike_entry e f <-> fe e = fe f.
Proof.
  unfold alike_entry, fe. rewrite (Forall2_map _ fp _ alike_posting_iff). split.
  - intros (-> & -> & -> & -> & -> & ->). reflexivity.
  - intro H. injection H as -> -> -> -> -> ->. auto 10.
Qed.
Lemma alike_iff l m : alike l m <-> fl l = fl m.
Proof.
  unfold alike, fl. rewrite (Forall2_map _ fe _ alike_entry_iff). split.
  - intros (-> & -> & -> & ->). reflexivity.
  - intro H. injection H as -> -> -> ->. auto 10.
Qed.
Lemma fp_idem p : fp (fp p) = fp p. Proof. destruct p; reflexivity. Qed.
Lemma fe_idem e : fe (fe e) = fe e.
Proof. unfold fe. cbn. rewrite map_map. f_equal. apply map_ext, fp_idem. Qed.
Lemma fl_idem l : fl (fl l) = fl l.
Proof. unfold fl. cbn. rewrite map_map. f_equal. apply map_ext, fe_idem. Qed.

Lemma fp_amount p : get_amount (fp p) = get_amount p. Proof. destruct p; reflexivity. Qed.
Lemma fp_account p : get_account (fp p) = get_account p. Proof. destruct p; reflexivity. Qed.
Lemma fp_envelope p : is_envelope (fp p) = is_envelope p. Proof. destruct p; reflexivity. Qed.
Lemma fp_native p : native_value (fp p) = native_value p. Proof. destruct p; reflexivity. Qed.

Lemma existsb_map {A B} (f : A -> B) g l : existsb g (map f l) = existsb (fun x => g (f x)) l.
Proof. induction l as [|x l IH]; [reflexivity|]. cbn. rewrite IH. reflexivity. Qed.
Lemma existsb_ext' {A} (f g : A -> bool) l : (forall x, f x = g x) -> existsb f l = existsb g l.
Proof. intro H. induction l as [|x l IH]; [reflexivity|]. cbn. rewrite IH, H. reflexivity. Qed.
Lemma filter_map {A B} (f : A -> B) g l : filter g (map f l) = map f (filter (fun x => g (f x)) l).
Proof. induction l as [|x l IH]; [reflexivity|]. cbn. rewrite IH. destruct (g (f x)); reflexivity. Qed.

Lemma f_blank e : has_blank_posting (fe e) = has_blank_posting e.
Proof. unfold has_blank_posting, fe. cbn [e_postings]. rewrite existsb_map. apply existsb_ext'. intro p. rewrite fp_amount. reflexivity. Qed.
Lemma f_has_env e : has_envelope_posting (fe e) = has_envelope_posting e.
Proof. unfold has_envelope_posting, fe. cbn [e_postings]. rewrite existsb_map. apply existsb_ext'. intro p. apply fp_envelope. Qed.
Lemma f_envs e : envelope_postings (fe e) = envelope_postings e.
Proof.
  unfold envelope_postings, fe. cbn [e_postings]. induction (e_postings e) as [|[c|p] l IH]; [reflexivity| |]; cbn; [exact IH|]. f_equal. exact IH.
Qed.
Lemma f_find ps : find_amount (map fp ps) = match find_amount ps with Some (a, r) => Some (a, map fp r) | None => None end.
Proof. induction ps as [|p ps IH]; [reflexivity|]. cbn. rewrite fp_amount. destruct (get_amount p); [reflexivity|exact IH]. Qed.
Lemma f_mixed e : has_mixed_currencies (fe e) = has_mixed_currencies e.
Proof.
  unfold has_mixed_currencies, fe. cbn [e_postings]. rewrite f_find. destruct (find_amount (e_postings e)) as [[a r]|]; [|reflexivity].
  rewrite existsb_map. apply existsb_ext'. intro p. rewrite fp_amount. reflexivity.
Qed.
(** Results that are the same apart from what their errors quote. *)
Definition plain {A} (r : res A) : res A := match r with Err e => Err (bare e) | _ => r end.
Lemma plain_bind {A B} (r s : res A) (f g : A -> res B) : plain r = plain s -> (forall a, plain (f a) = plain (g a)) ->
  plain (bind r f) = plain (bind s g).
Proof. intros H K. destruct r, s; cbn in *; try discriminate; try reflexivity; [injection H as ->; apply K|congruence]. Qed.
Lemma plain_fold {A C} (f g : C -> A -> res C) l : (forall c x, plain (f c x) = plain (g c x)) ->
  forall c, plain (fold_res f l c) = plain (fold_res g l c).
Proof. intro H. induction l as [|x l IH]; intro c; [reflexivity|]. cbn [fold_res]. apply plain_bind; [apply H|exact IH]. Qed.
Lemma plain_map_res {A B} (f g : A -> res B) l : (forall x, plain (f x) = plain (g x)) -> plain (map_res f l) = plain (map_res g l).
Proof. intro H. induction l as [|x l IH]; [reflexivity|]. cbn [map_res]. apply plain_bind; [apply H|]. intro b. apply plain_bind; [exact IH|reflexivity]. Qed.

Lemma f_blank_native e e' ps : forall acc, plain (blank_native e' (map fp ps) acc) = plain (blank_native e ps acc).
Proof. induction ps as [|p ps IH]; intro acc; [reflexivity|]. cbn. rewrite fp_native, fp_amount. destruct (native_value p), (get_amount p); auto. Qed.
Lemma f_blank_rest ps : forall acc, blank_rest (map fp ps) acc = blank_rest ps acc.
Proof.
  induction ps as [|p ps IH]; intro acc; [reflexivity|]. cbn. rewrite fp_amount. destruct (get_amount p) as [a|]; [|apply IH].
  destruct (amount_sub_assign acc a); cbn [bind]; auto.
Qed.
Lemma f_blank_amount e : plain (get_blank_amount (fe e)) = plain (get_blank_amount e).
Proof.
  unfold get_blank_amount. rewrite f_blank, f_mixed. change (e_postings (fe e)) with (map fp (e_postings e)). rewrite f_find.
  destruct (has_blank_posting e); [|reflexivity]. destruct (has_mixed_currencies e).
  - apply plain_bind; [apply f_blank_native|reflexivity].
  - destruct (find_amount (e_postings e)) as [[a r]|]; [|reflexivity]. rewrite f_blank_rest. reflexivity.
Qed.

Lemma f_register_loop e m ps : forall pos neg foc,
  plain (register_loop (fe e) m (map fp ps) pos neg foc) = plain (register_loop e m ps pos neg foc).
Proof.
  induction ps as [|p ps IH]; intros; [reflexivity|]. cbn [register_loop map]. rewrite fp_amount, fp_account.
  apply plain_bind; [|intro a; apply IH]. destruct (get_amount p); [reflexivity|]. apply plain_bind; [apply f_blank_amount|reflexivity].
Qed.
Lemma f_register_data e fmt m : plain (as_register_data (fe e) fmt m) = plain (as_register_data e fmt m).
Proof.
  unfold as_register_data. change (e_postings (fe e)) with (map fp (e_postings e)).
  apply plain_bind; [apply f_register_loop|]. intros [[pos neg] foc]. reflexivity.
Qed.
Lemma f_lens fmt m st e : lens_step fmt m st (fe e) = lens_step fmt m st e.
Proof.
  unfold lens_step. destruct st as [[ml total] acc]. pose proof (f_register_data e fmt m) as H.
  destruct (as_register_data (fe e) fmt m), (as_register_data e fmt m); cbn in H; try discriminate; try reflexivity. injection H as ->. reflexivity.
Qed.
Lemma fold_res_map {A B C} (g : A -> B) (f : C -> B -> res C) l : forall c, fold_res f (map g l) c = fold_res (fun c x => f c (g x)) l c.
Proof. induction l as [|x l IH]; intro c; [reflexivity|]. cbn. destruct (f c (g x)); cbn [bind]; auto. Qed.
Lemma fold_res_ext {A C} (f g : C -> A -> res C) l : (forall c x, f c x = g c x) -> forall c, fold_res f l c = fold_res g l c.
Proof. intro H. induction l as [|x l IH]; intro c; [reflexivity|]. cbn. rewrite H. destruct (g c x); cbn [bind]; auto. Qed.
Lemma f_register_filter b e m x : register_filter b e m (fe x) = register_filter b e m x.
Proof. unfold register_filter, fe. cbn [e_postings e_date]. rewrite existsb_map. f_equal. apply existsb_ext'. intro p. rewrite fp_account. reflexivity. Qed.
Lemma f_display tty es fmt b e m : register_display tty (map fe es) fmt b e m = register_display tty es fmt b e m.
Proof.
  unfold register_display, maximum_lengths. destruct tty; [|reflexivity]. rewrite filter_map.
  rewrite (filter_ext _ (register_filter b e m)) by (intro; apply f_register_filter).
  rewrite fold_res_map. rewrite (fold_res_ext _ (lens_step fmt m)) by (intros; apply f_lens). reflexivity.
Qed.

Lemma f_count (g : posting -> bool) ps : (forall p, g (fp p) = g p) -> List.length (filter g (map fp ps)) = List.length (filter g ps).
Proof. intro H. rewrite filter_map, map_length. f_equal. apply filter_ext. exact H. Qed.
Lemma f_infer_step v e s p : plain (infer_step v (fe e) s (fp p)) = plain (infer_step v e s p).
Proof.
  unfold infer_step, infer_amount. rewrite fp_amount, fp_account, fp_native. apply plain_bind; [|reflexivity].
  apply plain_bind; [destruct (get_amount p); [reflexivity|]; apply plain_bind; [apply f_blank_amount|reflexivity]|].
  intro a. destruct (ostr_eqb _ _); [reflexivity|]. destruct (symbol (v_amount v)); [reflexivity|]. destruct (native_value p); reflexivity.
Qed.
Lemma f_env_process today v e : plain (env_process today v (fe e)) = plain (env_process today v e).
Proof.
  unfold env_process. rewrite f_has_env. destruct (has_envelope_posting e).
  - unfold process_manual. rewrite f_envs. reflexivity.
  - unfold infer, count_self, count_auto. change (e_postings (fe e)) with (map fp (e_postings e)).
    rewrite !f_count by (intro; rewrite fp_account; reflexivity). rewrite fold_res_map.
    destruct (_ || _); [reflexivity|]. apply plain_bind; [apply plain_fold; intros; apply f_infer_step|]. intros [auto self]. reflexivity.
Qed.
Lemma f_acc_process today a e : plain (acc_process today a (fe e)) = plain (acc_process today a e).
Proof.
  unfold acc_process. apply plain_bind; [apply plain_map_res; intro; apply f_env_process|]. intro ex.
  apply plain_bind; [apply plain_map_res; intro; apply f_env_process|]. intro go.
  apply plain_bind; [|reflexivity]. change (e_postings (fe e)) with (map fp (e_postings e)). rewrite fold_res_map.
  apply plain_fold. intros p x. unfold real_step. rewrite fp_account, fp_envelope, fp_amount. destruct (_ && _); [|reflexivity].
  destruct (get_amount x); [reflexivity|]. apply plain_bind; [apply f_blank_amount|reflexivity].
Qed.
Lemma f_totals l : plain (get_totals (fl l)) = plain (get_totals l).
Proof.
  unfold get_totals, fl. cbn [l_entries]. rewrite fold_res_map. apply plain_fold. intros m e.
  change (e_postings (fe e)) with (map fp (e_postings e)). rewrite fold_res_map. apply plain_fold. intros c p.
  unfold totals_step. rewrite fp_account, fp_amount. destruct (map_get _ _); [|reflexivity]. destruct (get_amount p); [reflexivity|].
  apply plain_bind; [apply f_blank_amount|reflexivity].
Qed.
Lemma f_insert e l : map fe (insert_entry e l) = insert_entry (fe e) (map fe l).
Proof. induction l as [|x l IH]; [reflexivity|]. cbn. destruct (date_leb (e_date e) (e_date x)); cbn; [reflexivity|]. rewrite IH. reflexivity. Qed.
Lemma f_sort l : map fe (sort_entries l) = sort_entries (map fe l).
Proof. unfold sort_entries. induction l as [|x l IH]; [reflexivity|]. cbn. rewrite f_insert, IH. reflexivity. Qed.

(** ** Outcomes *)
Definition rmap {A B} (g : A -> B) (r : res A) : res B := plain (let! a := r in Ok (g a)).
Lemma outcomes_iff {A} (g : A -> A) (R : A -> A -> Prop) r s : (forall a b, R a b <-> g a = g b) ->
  (outcomes R r s <-> rmap g r = rmap g s).
Proof. intro H. destruct r, s; cbn; split; intro F; try discriminate; try (destruct F; fail); auto; try congruence; [apply H in F; congruence|apply H; congruence]. Qed.

Lemma f_add_entry today l e : rmap fl (add_entry today l e) = plain (add_entry today (fl l) (fe e)).
Proof.
  unfold rmap, add_entry. unfold fl at 2. cbn [l_accounts]. symmetry.
  assert (B : forall (r : res (list (str * account))), (let! a := let! accs := r in Ok (mkLedger (l_path l) (sort_entries (l_entries l ++ [e])) (l_format l) accs (l_currency l)) in Ok (fl a))
    = let! accs := r in Ok (fl (mkLedger (l_path l) (sort_entries (l_entries l ++ [e])) (l_format l) accs (l_currency l)))) by (intros []; reflexivity).
  rewrite B. apply plain_bind; [apply plain_map_res; intro; apply plain_bind; [apply f_acc_process|reflexivity]|].
  intro accs. unfold fl. cbn. rewrite f_sort, map_app. reflexivity.
Qed.
(** A step does not look at what is forgotten. *)
Definition gl (s : lw) : lw := (fl (fst s), snd s).
Definition blind {A} (g : A -> A) (f : A -> res A) : Prop := forall s, rmap g (f (g s)) = rmap g (f s).
Lemma gl_idem s : gl (gl s) = gl s. Proof. unfold gl. cbn. rewrite fl_idem. reflexivity. Qed.
Lemma blind_step {A} (g : A -> A) (f : A -> res A) s t : blind g f -> g s = g t -> rmap g (f s) = rmap g (f t).
Proof. intros H E. rewrite <- (H s), <- (H t), E. reflexivity. Qed.
Lemma blind_fold {A B} (g : A -> A) (f : A -> B -> res A) l : (forall s, g (g s) = g s) ->
  (forall b, blind g (fun s => f s b)) -> blind g (fold_res f l).
Proof.
  intros I H. induction l as [|b l IH]; intro s; cbn; [rewrite I; reflexivity|].
  specialize (H b s). cbn in H. destruct (f s b) as [u| | |], (f (g s) b) as [t| | |]; cbn in *; try discriminate; auto.
  injection H as H. apply blind_step; assumption.
Qed.

Lemma f_names l : account_names (fl l) = account_names l. Proof. reflexivity. Qed.
Lemma blind_chunk today inc chunk : (forall f, blind gl (inc f)) -> blind gl (fun s => parse_chunk today inc s chunk).
Proof.
  intros H [l w]. unfold parse_chunk, gl. cbn [fst snd]. destruct (split_ws chunk) as [|k r]; [cbn; rewrite fl_idem; reflexivity|].
  cbv zeta. destruct (str_eqb k (lit "account")).
  { unfold on_ledger, ledger_parse_account. cbn [l_format fl]. destruct (parse_account chunk decimal_symbol (l_format l)); cbn; [|reflexivity..].
    unfold fl. cbn. rewrite map_map. rewrite (map_ext _ fe) by apply fe_idem. reflexivity. }
  destruct (str_eqb k (lit "currency")).
  { destruct (hd_error r); cbn; [|reflexivity]. unfold fl. cbn. rewrite map_map, (map_ext _ fe) by apply fe_idem. reflexivity. }
  destruct (str_eqb k (lit "date_format")).
  { destruct (hd_error r); cbn; [|reflexivity]. unfold fl. cbn. rewrite map_map, (map_ext _ fe) by apply fe_idem. reflexivity. }
  destruct (str_eqb k (lit "include")).
  { destruct (hd_error r) as [f|]; [|reflexivity]. exact (H f (l, w)). }
  unfold on_ledger, ledger_parse_entry. cbn [l_format fl]. rewrite f_names.
  destruct (parse_entry chunk (l_format l) decimal_symbol (account_names l)) as [e| | |]; [|reflexivity..]. cbn [bind snd].
  pose proof (f_add_entry today (fl l) e) as E1. pose proof (f_add_entry today l e) as E2. rewrite fl_idem, <- E2 in E1.
  destruct (add_entry today l e), (add_entry today (fl l) e); cbn in *; try discriminate; try reflexivity; congruence.
Qed.

Definition gs (st : str * lw) : str * lw := (fst st, gl (snd st)).
Lemma blind_line today inc line : (forall f, blind gl (inc f)) -> blind gs (fun st => line_step today inc st line).
Proof.
  intros H [chunk s]. unfold line_step, gs. cbn [fst snd]. destruct (remove_comments (trim_end line)) as [|c r]; [cbn; rewrite gl_idem; reflexivity|].
  destruct (is_ws c); [cbn; rewrite gl_idem; reflexivity|].
  pose proof (blind_chunk today inc chunk H s) as E. cbv beta in E.
  destruct (parse_chunk today inc s chunk), (parse_chunk today inc (gl s) chunk); cbn in *; try discriminate; try reflexivity; congruence.
Qed.
Lemma blind_str today inc text : (forall f, blind gl (inc f)) -> blind gl (add_from_str today inc text).
Proof.
  intros H s. unfold add_from_str.
  assert (I : forall st, gs (gs st) = gs st) by (intro; unfold gs; cbn; rewrite gl_idem; reflexivity).
  assert (E : rmap gs (fold_res (line_step today inc) (lines text) ([], gl s)) = rmap gs (fold_res (line_step today inc) (lines text) ([], s)))
    by exact (blind_fold gs (line_step today inc) (lines text) I (fun b => blind_line today inc b H) ([], s)).
  destruct (fold_res (line_step today inc) (lines text) ([], s)) as [[c t]| | |],
           (fold_res (line_step today inc) (lines text) ([], gl s)) as [[c' t']| | |]; cbn [rmap plain bind] in *; try discriminate; try reflexivity; try congruence.
  unfold gs in E. cbn [fst snd] in E. assert (E1 : c' = c) by congruence. assert (E2 : gl t' = gl t) by congruence. subst c'.
  apply (blind_step gl (fun s => parse_chunk today inc s c)); [apply blind_chunk, H|exact E2].
Qed.
Lemma blind_file today : forall fuel p, blind gl (add_from_file fuel today p).
Proof.
  induction fuel as [|fuel IH]; intros p [l w]; [reflexivity|]. cbn [add_from_file gl fst snd].
  destruct (read_file w p) as [t| | |]; [|reflexivity..]. cbn [bind]. destruct (chdir_parent w p) as [w'| | |]; [|reflexivity..]. cbn [bind].
  exact (blind_str today (add_from_file fuel today) t IH (l, w')).
Qed.
