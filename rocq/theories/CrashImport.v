(** Proofs that imports do not crash. *)
From Coq Require Import ZArith NArith List Bool String Lia.
From Verif Require Import Base Str F64 Date World Amount Posting Entry Envelope Account Register Ledger Importer Cli
  SpecAmount SpecDate SpecEntry SpecEnvelope SpecLedger SpecRegister SpecImport SpecCrash
  StrFacts LineFacts EntryFacts LedgerFacts IncludeFacts DateFormat ImportFacts ExpandFacts CrashFacts.
Import ListNotations.

(** ** Rules *)
Lemma ws_blank c : is_ws c = true <-> blank_char c.
Proof. reflexivity. Qed.
Lemma not_blank c : ~ blank_char c -> is_ws c = false.
Proof. intro N. destruct (is_ws c) eqn:E; [exfalso; apply N; exact E|reflexivity]. Qed.
Lemma apply_rule_safe inc line r k v : include_name k = false -> (k = lit "decimal" \/ k = lit "decimal_symbol" -> v <> []) ->
  apply_rule inc line r (k, v) <> Panic.
Proof.
  unfold include_name. intros Ni Dv. unfold apply_rule. cbn [fst snd]. destruct (str_eqb _ _).
  - unfold reset_rule. rewrite Ni. intro E.
    repeat match goal with H : (if is_name k ?n then _ else _) = _ |- _ => destruct (is_name k n); [discriminate|] end.
    destruct (strip_prefix (lit "amount") k); [discriminate|]. destruct (strip_prefix (lit "account") k); discriminate.
  - unfold set_rule. rewrite Ni. intro E.
    destruct (is_name k ["decimal_symbol"; "decimal"]%string) eqn:D.
    + do 3 match goal with H : (if is_name k ?n then _ else _) = _ |- _ => destruct (is_name k n); [discriminate|] end.
      destruct (Nat.ltb _ _); [discriminate|]. destruct v; [|discriminate]. apply Dv; [|reflexivity].
      unfold is_name in D. cbn [existsb] in D. rewrite orb_false_r in D. apply orb_true_iff in D as [D|D]; apply str_eqb_eq in D; auto.
    + repeat match goal with H : (if is_name k ?n then _ else _) = _ |- _ => destruct (is_name k n); [first [discriminate|destruct (parse_i32 v); discriminate]|] end.
      destruct (strip_prefix (lit "amount") k); [discriminate|]. destruct (strip_prefix (lit "account") k); discriminate.
Qed.
Lemma trim_start_word a k : Forall blank_char a -> Forall (fun c => ~ blank_char c) k -> trim_start (a ++ k) = k.
Proof.
  intros Fa Fk. induction Fa as [|c a Hc _ IH]; cbn [app].
  - destruct Fk as [|c k Hc _]; [reflexivity|]. cbn [trim_start]. rewrite (not_blank c Hc). reflexivity.
  - cbn [trim_start]. apply ws_blank in Hc. rewrite Hc. exact IH.
Qed.
(** A good rule reads a value, includes a file or fails. *)
Lemma good_rule_cases l : good_rule l ->
  (forall inc inc' r, add_from_line inc r l <> Panic /\ add_from_line inc r l = add_from_line inc' r l)
  \/ exists f, includes_file l f /\ forall inc r, add_from_line inc r l = inc f r.
Proof.
  intros [a k Fa Fk|a k c b Fa Nk Fk Hc Ac Dv].
  - left. intros inc inc' r. unfold add_from_line. rewrite (trim_start_word a k Fa Fk).
    rewrite (position_none is_ws k); [split; [discriminate|reflexivity]|]. eapply Forall_impl; [|exact Fk]. apply not_blank.
  - assert (forall inc r, add_from_line inc r (a ++ k ++ c :: b) = apply_rule inc (k ++ c :: b) r (k, trim_start b)) as E.
    { intros inc r. apply add_from_line_eq; [apply all_ws_blank; exact Fa| | |exact Hc|exact Ac].
      - split; [exact Nk|]. apply forallb_forall. intros x Ix. rewrite Forall_forall in Fk. rewrite (not_blank x (proj1 (Fk x Ix))). reflexivity.
      - eapply Forall_impl; [|exact Fk]. intros x (_ & N). exact N. }
    destruct (include_name k) eqn:Ik.
    + right. exists (trim_start b). split.
      * destruct (trim_start_spec b) as (z & Eb & Wz & Hz). exists a, k, c, z. rewrite <- Eb.
        split; [reflexivity|]. split; [exact Fa|]. split; [apply include_names; exact Ik|]. split; [exact Hc|].
        split; [apply all_ws_blank; exact Wz|]. intros h t Q W. rewrite Q in Hz. apply ws_blank in W. congruence.
      * intros inc r. rewrite E. apply apply_include. exact Ik.
    + left. intros inc inc' r. rewrite !E. split; [|apply apply_rule_free; exact Ik].
      apply apply_rule_safe; [exact Ik|]. intros D Q. apply (Dv D). destruct (trim_start_spec b) as (z & Eb & Wz & _).
      rewrite Q, app_nil_r in Eb. rewrite Eb. apply all_ws_blank. exact Wz.
Qed.

Lemma fold_ext {A T} (f g : T -> A -> res T) l : (forall s a, In a l -> f s a = g s a) -> forall s, fold_res f l s = fold_res g l s.
Proof.
  induction l as [|a l IH]; intros H s; [reflexivity|]. cbn [fold_res]. rewrite (H s a (or_introl eq_refl)).
  destruct (g s a); cbn [bind]; try reflexivity. apply IH. intros s' b Ib. apply H. right. exact Ib.
Qed.
Lemma header_safe l : (exists p, first_pattern l p) -> header_patterns l <> Panic.
Proof. intros (p & F). rewrite (first_pattern_ok _ _ F). discriminate. Qed.
(** Reading items: no crash, and only included files matter. *)
Lemma items_safe inc is : Forall sound_item is ->
  (forall l f r, ruled is l -> includes_file l f -> inc f r <> Panic) ->
  forall r, fold_res (item_step inc) is r <> Panic.
Proof.
  intros G Hi r. apply (wp_true _ (fun _ => True)). apply wp_fold; [|exact I]. intros s i Ii _. rewrite Forall_forall in G. specialize (G i Ii).
  assert (forall l, good_rule l -> ruled is l -> forall r, add_from_line inc r l <> Panic) as K.
  { intros l Gl Rl r'. destruct (good_rule_cases l Gl) as [H|(f & If & H)]; [exact (proj1 (H inc inc r'))|]. rewrite H. exact (Hi l f r' Rl If). }
  destruct i as [l|h ps rs]; cbn [item_step].
  - apply wp_safe. apply K; [exact G|left; exact Ii].
  - destruct G as (Hh & Hr). apply wp_bind. eapply wp_weaken; [apply wp_safe; apply header_safe; exact Hh|]. intros p _ _.
    apply wp_bind. apply (wp_weaken _ (fun _ => True)); [|intros; exact I]. apply wp_fold; [|exact I]. intros r' l Il _. apply wp_safe. rewrite Forall_forall in Hr.
    apply K; [exact (Hr l Il)|right; exists h, ps, rs; auto].
Qed.
Lemma items_ext inc inc' is : Forall sound_item is ->
  (forall l f r, ruled is l -> includes_file l f -> inc f r = inc' f r) ->
  forall r, fold_res (item_step inc) is r = fold_res (item_step inc') is r.
Proof.
  intros G Hi. apply fold_ext. intros s i Ii. rewrite Forall_forall in G. specialize (G i Ii).
  assert (forall l, good_rule l -> ruled is l -> forall r, add_from_line inc r l = add_from_line inc' r l) as K.
  { intros l Gl Rl r'. destruct (good_rule_cases l Gl) as [H|(f & If & H)]; [exact (proj2 (H inc inc' r'))|]. rewrite !H. exact (Hi l f r' Rl If). }
  destruct i as [l|h ps rs]; cbn [item_step].
  - apply K; [exact G|left; exact Ii].
  - destruct G as (_ & Hr). destruct (header_patterns h); cbn [bind]; try reflexivity.
    rewrite (fold_ext (add_from_line inc) (add_from_line inc') rs); [reflexivity|]. intros r' l Il. rewrite Forall_forall in Hr.
    apply K; [exact (Hr l Il)|right; exists h, ps, rs; auto].
Qed.

Section import.
Context (today : date) (T0 : (min_year + 3 < year today)%Z) (T : (year today < max_year)%Z).
Context (w0 : world) (j0 : str) (Pr : proper w0) (Sj : sound_journal w0 j0).
Context (x : context) (Tx : x_today x = today) (c r : str) (Si : sound_import x w0 j0 c r).
(** A world after loading and filling. *)
Context (w : world) (Wd : forall p, dirs w p = dirs w0 p) (Wc : dirs w0 (cwd w) = true).
Context (Wf : forall q, (forall d, dirs w0 d = true -> q <> located d j0) -> files w q = files w0 q).

Lemma rules_same q : rules_file w0 (cwd w) r q -> files w q = files w0 q.
Proof. intro R. apply Wf. intros d D. apply (apart _ _ _ _ _ Si (cwd w)); auto. Qed.
Lemma items_good q t is : rules_file w0 (cwd w) r q -> files w0 q = Some t -> layout (rule_lines t) is -> Forall sound_item is.
Proof. intros R F L. apply Forall_forall. intros i Ii. exact (good_rules _ _ _ _ _ Si (cwd w) q t is i Wc R F L Ii). Qed.
Let w1 : world := mkWorld (files w0) (dirs w0) (cwd w).
Lemma rules_files n : forall p rs, rules_file w0 (cwd w) r (located (cwd w) p) ->
  rules_from_file n w p rs <> Panic /\ rules_from_file n w p rs = rules_from_file n w1 p rs.
Proof.
  induction n as [|n IH]; intros p rs R; [split; [discriminate|reflexivity]|]. cbn [rules_from_file]. unfold read_file.
  change (resolve w p) with (located (cwd w) p). change (resolve w1 p) with (located (cwd w) p). cbn [w1 files]. rewrite (rules_same _ R).
  destruct (files w0 (located (cwd w) p)) as [t|] eqn:F; [|split; [discriminate|reflexivity]]. cbn [bind].
  destruct (layout_total (rule_lines t)) as (is & L). rewrite !(rules_layout _ _ _ _ L). pose proof (items_good _ _ _ R F L) as G.
  assert (forall l f, ruled is l -> includes_file l f -> rules_file w0 (cwd w) r (located (cwd w) f)) as Ri by (intros l f Rl If; eapply rules_include; eauto).
  split.
  - apply items_safe; [exact G|]. intros l f r' Rl If. exact (proj1 (IH f r' (Ri l f Rl If))).
  - apply items_ext; [exact G|]. intros l f r' Rl If. exact (proj2 (IH f r' (Ri l f Rl If))).
Qed.
Lemma rules_main_file t n : files w0 (located (cwd w) r) = Some t -> parse_rules n w t <> Panic /\ parse_rules n w t = parse_rules n w1 t.
Proof.
  intro F. unfold parse_rules. destruct (layout_total (rule_lines t)) as (is & L). rewrite !(rules_layout _ _ _ _ L).
  pose proof (items_good _ _ _ (rules_main _ _ _) F L) as G.
  assert (forall l f, ruled is l -> includes_file l f -> rules_file w0 (cwd w) r (located (cwd w) f)) as Ri.
  { intros l f Rl If. eapply rules_include; [apply rules_main|exact F|exact L|exact Rl|exact If]. }
  split.
  - apply items_safe; [exact G|]. intros l f r' Rl If. exact (proj1 (rules_files n f r' (Ri l f Rl If))).
  - apply items_ext; [exact G|]. intros l f r' Rl If. exact (proj2 (rules_files n f r' (Ri l f Rl If))).
Qed.

(** ** Records *)
Lemma record_safe rs names rec : import_record (x_lower x) (x_ord x) rs names rec <> Panic.
Proof.
  apply (wp_true _ (fun _ => True)). unfold import_record, entry_of_record. apply wp_bind. apply (wp_weaken _ (fun _ => True)).
  { apply wp_safe. generalize (r_fields (select_rules (x_lower x) rec rs)) (@nil (str * str)). clear. intro fs. revert rec.
    induction fs as [|f fs IH]; intros rec acc; [discriminate|]. destruct rec as [|v rec]; [discriminate|]. cbn [make_variables].
    destruct (map_get f acc); [discriminate|apply IH]. }
  intros vars _ _. apply wp_bind. apply (wp_weaken _ (fun _ => True)); [unfold ok_or; destruct (parse_date _ _); exact I|]. intros d _ _.
  apply wp_bind. apply (wp_weaken _ (fun _ => True)).
  { unfold parse_status. repeat first [exact I|match goal with |- wp (match ?e with _ => _ end) _ => destruct e end]. }
  intros st _ _. apply wp_bind. apply (wp_weaken _ (fun _ => True)).
  { apply wp_map. intros ka _. apply wp_safe. apply parse_posting_total. }
  intros ps _ _. apply wp_bind. apply (wp_weaken _ (fun _ => True)); [|intros; exact I].
  unfold complete_postings. destruct (rev ps) as [|p [|p' ps']]; [exact I| |exact I]. destruct (get_amount p); exact I.
Qed.
Lemma collect_In l : forall l', collect_records l = Ok l' -> forall rec, In rec l' -> In (Some rec) l.
Proof.
  induction l as [|[y|] l IH]; intros l' E rec I; [injection E as <-; destruct I| |discriminate]. cbn [collect_records] in E.
  apply bind_Ok in E as (l2 & E2 & E). injection E as <-. destruct I as [->|I]; [left; reflexivity|right; exact (IH l2 E2 rec I)].
Qed.
Lemma collect_safe l : collect_records l <> Panic.
Proof.
  apply (wp_true _ (fun _ => True)). induction l as [|[y|] l IH]; [exact I| |exact I]. cbn [collect_records]. apply wp_bind.
  apply (wp_weaken _ _ _ IH). intros; exact I.
Qed.
Lemma records_safe mk recs : (forall rec, In rec recs -> mk rec <> Panic) ->
  (forall rec e, In rec recs -> mk rec = Ok e -> imported x w0 c r e) ->
  forall l w', ready w0 j0 l -> snd (import_records today mk l w' recs) <> Panic.
Proof.
  induction recs as [|rec recs IH]; intros Mk Im l w' G; [discriminate|]. cbn [import_records].
  pose proof (Mk rec (or_introl eq_refl)) as Np. destruct (mk rec) as [e| | |] eqn:E; cbn [snd]; try discriminate; [|contradiction].
  specialize (Im rec e (or_introl eq_refl) E) as Ie.
  assert (wp (snd (append_entry today l w' e)) (ready w0 j0)) as A.
  { unfold append_entry. destruct G as (Gp & Gk & Gf & Ga).
    assert (printable (l_format l) = true) as -> by (apply printable_iff; exact Gf).
    unfold append_file. destruct (files w' (resolve w' (l_path l))); [|exact I]. cbn [snd].
    apply (add_entry_ready today T T0 w0 j0 Sj); [split; auto| |].
    - intros k a v Ia Iv. destruct (Ga k a Ia) as (_ & (a0 & D & F)). destruct (F v Iv) as (v0 & I0 & S0).
      exact (matches_same _ _ _ S0 (imports_match _ _ _ _ _ Si a0 v0 e D I0 Ie)).
    - apply blank_some. exact (imports_amount _ _ _ _ _ Si e Ie). }
  destruct (append_entry today l w' e) as [w2 [l2| | |]]; cbn [snd] in *; try discriminate; [|contradiction].
  apply IH; [intros; apply Mk; right; assumption| |exact A]. intros rec' e' I'. apply Im. right. exact I'.
Qed.
Lemma import_safe l rf : ready w0 j0 l -> r = match rf with Some p => p | None => c ++ lit ".rules" end ->
  snd (import_csv (x_fuel x) today (x_lower x) (x_ord x) (x_csv x) l w c rf) <> Panic.
Proof.
  intros G Er. unfold import_csv.
  assert (wp (open_importer (x_fuel x) w (x_csv x) c rf) (fun o => forall rec e, In rec (snd o) ->
            import_record (x_lower x) (x_ord x) (fst o) (account_names l) rec = Ok e -> imported x w0 c r e)) as O.
  { unfold open_importer. rewrite <- Er. apply wp_bind. unfold read_file at 1. change (resolve w c) with (located (cwd w) c).
    rewrite (Wf (located (cwd w) c)) by (intros d D; apply (apart _ _ _ _ _ Si (cwd w)); auto).
    destruct (files w0 (located (cwd w) c)) as [tc|] eqn:Fc; [|exact I]. cbn [wp]. apply wp_bind.
    unfold read_file at 1. change (resolve w r) with (located (cwd w) r). rewrite (rules_same _ (rules_main _ _ _)).
    destruct (files w0 (located (cwd w) r)) as [tr|] eqn:Fr; [|exact I]. cbn [wp]. apply wp_bind.
    destruct (rules_main_file tr (x_fuel x) Fr) as (Np & Eq).
    eapply wp_weaken; [apply wp_safe; exact Np|]. intros rs Ers _. apply wp_bind.
    eapply wp_weaken; [apply wp_safe; apply collect_safe|]. intros recs Erecs _ rec e Ir Ee. cbn [fst snd] in *.
    exists (cwd w), tr, tc, rs, (account_names l), rec. split; [exact Wc|]. split; [exact Fr|]. split; [exact Fc|].
    split; [rewrite <- Ers; symmetry; exact Eq|]. split; [|exact Ee]. apply (collect_In _ _ Erecs) in Ir. unfold skip_records in Ir.
    destruct (r_skip rs <? 0)%Z; [destruct Ir|]. rewrite <- (firstn_skipn (Z.to_nat (r_skip rs))). apply in_or_app. right. exact Ir. }
  destruct (open_importer _ _ _ _ _) as [[rs recs]| | |]; cbn [snd]; try discriminate; [|contradiction].
  apply records_safe; [intros; apply record_safe|exact O|exact G].
Qed.
End import.
