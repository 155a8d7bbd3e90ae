(** Property C125: the columns of a csv file. *)
From Coq Require Import ZArith NArith List Bool String Permutation Lia.
From Verif Require Import Base Str F64 Date Amount Posting Entry Envelope Account World Register Ledger Importer Csv Cli
  SpecAmount SpecDate SpecEntry SpecEnvelope SpecLedger SpecImport SpecCsv SpecCli SpecRun SpecCrash SpecAgain SpecRules SpecParts SpecColumns
  StrFacts EntryFacts LedgerFacts SubstFacts ImportFacts RuleFacts RunFacts ExpandFacts
  PropertiesLedger PropertiesCsv PropertiesImport PropertiesRules PropertiesCli PropertiesRun PropertiesParts.
Import ListNotations.
Local Open Scope list_scope.
Local Notation matches := SpecImport.matches.

Lemma relabelled_deep fs fs' (P : rules -> rules -> Prop) :
  (forall r r', relabelled fs fs' r r' ->
     Forall2 (fun b b' => fst b = fst b' /\ P (snd b) (snd b')) (r_subrules r) (r_subrules r') -> P r r') ->
  forall r r', relabelled fs fs' r r' -> P r r'.
Proof.
  intro C. fix IH 3. intros r r' H. apply (C r r' H). destruct H as [r r' _ _ _ _ _ _ _ _ _ _ _ _ F].
  exact ((fix go l l' (F : Forall2 (fun b b' => fst b = fst b' /\ relabelled fs fs' (snd b) (snd b')) l l') {struct F}
           : Forall2 (fun b b' => fst b = fst b' /\ P (snd b) (snd b')) l l' :=
           match F with
           | Forall2_nil _ => Forall2_nil _
           | Forall2_cons b b' (conj e h) F' => Forall2_cons b b' (conj e (IH _ _ h)) (go _ _ F')
           end) _ _ F).
Qed.

Lemma select_relabelled lower fs fs' rec rec' r r' : relabelled fs fs' r r' ->
  (forall x, within r x -> forall ps b, In (ps, b) (r_subrules x) -> (matches lower rec ps <-> matches lower rec' ps)) ->
  within r (select_rules lower rec r) /\ relabelled fs fs' (select_rules lower rec r) (select_rules lower rec' r').
Proof.
  intro R. revert r r' R. refine (relabelled_deep fs fs' _ _). intros r r' R IH H.
  assert (forall ps b, In (ps, b) (r_subrules r) -> (matches lower rec ps <-> matches lower rec' ps)) as M by (apply H; constructor).
  assert (forall ps b, In (ps, b) (r_subrules r) -> forall x, within b x -> within r x) as Wb by (intros; eapply within_block; eauto).
  assert (within r r) as Ws by constructor.
  destruct r as [ac am co de fo da dc fi pa sk st subs], r' as [ac' am' co' de' fo' da' dc' fi' pa' sk' st' subs'].
  cbn [select_rules r_subrules] in *. set (r := mkRules ac am co de fo da dc fi pa sk st subs) in *.
  set (r' := mkRules ac' am' co' de' fo' da' dc' fi' pa' sk' st' subs') in *.
  assert (forall ps b, In (ps, b) subs -> In (ps, b) (r_subrules r)) as Su by auto. clearbody r r'.
  induction IH as [|[ps b] [ps' b'] l l' [E K] F IHF]; [split; assumption|]. cbn [fst snd] in E, K. subst ps'.
  assert (applies_to lower ps rec' = applies_to lower ps rec) as ->.
  { apply eq_true_iff_eq. rewrite !applies_iff. symmetry. exact (M ps b (or_introl eq_refl)). }
  destruct (applies_to lower ps rec).
  - destruct K as [W1 K]; [|split; [eapply Wb; [left; reflexivity|exact W1]|exact K]].
    intros x W. apply H. eapply Wb; [left; reflexivity|exact W].
  - apply IHF; auto; intros; [eapply M|eapply Wb|apply Su]; try (right; eassumption); assumption.
Qed.

Section Text.
Context (few all : list (str * str)) (In_ : incl few all) (Gv : good_vars all) (Nd : NoDup (map fst few)).
Lemma few_lookup n : In n (map fst few) -> lookup few n = lookup all n.
Proof.
  intro I. apply in_map_iff in I as ((m & v) & <- & I). cbn [fst]. rewrite (lookup_in few m v Nd I).
  symmetry. apply lookup_in; [apply Gv|apply In_, I].
Qed.
Lemma few_meaning ps : Forall (plain_piece few) ps -> meaning few ps = meaning all ps.
Proof.
  unfold meaning. induction 1 as [|p ps H _ IH]; [reflexivity|]. cbn [map List.concat]. rewrite IH.
  destruct p; [reflexivity|]. rewrite few_lookup by exact H. reflexivity.
Qed.
Lemma few_text ord s : (forall l, Permutation (ord l) l) -> text_for few all s -> inject ord few s = inject ord all s.
Proof.
  intros O (ps & -> & F & W).
  assert (forall n, In n (map fst few) -> In n (map fst all)) as Im.
  { intros n I. apply in_map_iff in I as (v & <- & I). apply in_map, In_, I. }
  rewrite (inject_template ord few), (inject_template ord all); auto; try (apply Gv).
  - apply few_meaning, F.
  - apply Forall_forall. intros p I. rewrite Forall_forall in F. specialize (F p I). destruct p; [exact F|apply Im, F].
  - apply Forall_forall. intros v I. destruct Gv as (_ & G). rewrite Forall_forall in G. apply G, In_, I.
  - intros t1 a mid b t2 E I. apply (W t1 a mid b t2 E). rewrite <- few_meaning; [apply Im, I|].
    rewrite Forall_forall in F. apply Forall_forall. intros p Ip. apply F. subst ps. rewrite in_app_iff. right. right. rewrite in_app_iff. left. exact Ip.
Qed.
End Text.

Lemma entry_narrowed ord fs fs' rec rec' accounts r r' : (forall l, Permutation (ord l) l) -> relabelled fs fs' r r' ->
  incl (combine fs' rec') (combine fs rec) -> good_vars (combine fs rec) -> NoDup (map fst (combine fs' rec')) ->
  Forall (text_for (combine fs' rec') (combine fs rec)) (rule_texts r) ->
  entry_of_record ord r' rec' accounts = entry_of_record ord r rec accounts.
Proof.
  intros O R Ic Gv Nd T. destruct R as [r r' E1 E2 E3 E4 E5 E6 E7 E8 E9 E10 E11 E12 _].
  unfold entry_of_record. rewrite E11, E12. rewrite !make_variables_combine by (cbn [app]; first [exact Nd|apply Gv]). cbn [app bind].
  set (few := combine fs' rec') in *. set (all := combine fs rec) in *.
  assert (I : forall s, In s (rule_texts r) -> inject ord few s = inject ord all s).
  { intros s Is. apply (few_text few all Ic Gv Nd ord s O). rewrite Forall_forall in T. exact (T s Is). }
  rewrite <- E3, <- E4, <- E5, <- E6, <- E8, <- E10. rewrite !I by (unfold rule_texts; cbn; tauto).
  assert (accounts_or_default r' = accounts_or_default r) as Ea by (unfold accounts_or_default; rewrite E1; reflexivity). rewrite Ea.
  assert (map_res (import_posting ord few r' accounts) (ord (accounts_or_default r)) = map_res (import_posting ord all r accounts) (ord (accounts_or_default r))) as ->.
  { assert (Hin : forall ka, In ka (ord (accounts_or_default r)) -> In ka (account_rules r)) by (intros ka Ik; eapply Permutation_in; [apply O|exact Ik]).
    revert Hin. generalize (ord (accounts_or_default r)) as l. induction l as [|ka l IH]; intro Hin; [reflexivity|]. cbn [map_res].
    rewrite IH by (intros; apply Hin; right; assumption). rewrite !import_posting_text.
    assert (posting_text r' ka = posting_text r ka) as -> by (unfold posting_text; rewrite E2; reflexivity). rewrite <- E7, I; [reflexivity|].
    unfold rule_texts. apply in_or_app. right. apply in_map, Hin. left. reflexivity. }
  assert (ord (accounts_or_default r) <> []) as Ne.
  { intro Q. pose proof (O (accounts_or_default r)) as P. rewrite Q in P. apply Permutation_nil in P. unfold accounts_or_default in P. destruct (r_accounts r); discriminate. }
  destruct (ok_or _ _); cbn [bind]; [|reflexivity..]. destruct (parse_status _); cbn [bind]; [|reflexivity..].
  destruct (map_res _ _) as [ps| | |] eqn:Em; cbn [bind]; [|reflexivity..].
  assert (complete_postings rec' (rev ps) = complete_postings rec (rev ps)) as ->; [|reflexivity].
  assert (rev ps <> []) as Np.
  { destruct (ord (accounts_or_default r)) as [|ka l]; [contradiction|]. cbn [map_res] in Em. apply bind_Ok in Em as (p & _ & Em). apply bind_Ok in Em as (ps' & _ & Em). injection Em as <-.
    intro Q. apply (f_equal (@List.length _)) in Q. rewrite rev_length in Q. discriminate. }
  destruct (rev ps); [contradiction|reflexivity].
Qed.

(** ** C125 *)
Theorem C125_record_partial : forall lower ord r r' fs fs' rec rec' accounts,
  (forall l, Permutation (ord l) l) -> relabelled fs fs' r r' -> narrowed lower r fs fs' rec rec' ->
  import_record lower ord r' accounts rec' = import_record lower ord r accounts rec.
Proof.
  intros lower ord r r' fs fs' rec rec' accounts O R (Ic & Gv & Nd & K).
  destruct (select_relabelled lower fs fs' rec rec' r r' R) as [W R']; [intros y Wy; apply (K y Wy)|].
  unfold import_record. eapply entry_narrowed; try eassumption. apply (K _ W).
Qed.
Print Assumptions C125_record_partial.

(** ** Rules *)
Lemma line_name l i name : position is_ws (trim_start l) = Some i -> slice_to i (trim_start l) = Ok name ->
  name <> [] -> Forall (fun c => (c < 128)%N) name -> hd_error (split_ws l) = Some name.
Proof.
  intros P Hn N A. apply position_Some in P as (a & c & b & E & La & Fa & Hc).
  unfold slice_to in Hn. destruct (split_at_byte i (trim_start l)) as [(a' & b')|] eqn:S; [|discriminate].
  injection Hn as ->. apply split_at_spec in S as (E' & B). rewrite bytes_ascii in B by exact A.
  assert (a = name) as ->.
  { rewrite E in E'. rewrite <- La in B. clear -E' B. revert name E' B.
    induction a as [|x a IH]; intros [|y n] E B; cbn in *; try lia; [reflexivity|]. injection E as <- E.
    f_equal. apply IH; [exact E|lia]. }
  destruct (trim_start_spec l) as (w & Ew & W & _). rewrite Ew, E, split_ws_ws by exact W. rewrite split_ws_tok; [reflexivity| |exact Hc].
  split; [exact N|]. apply no_ws_In. intros x I. rewrite Forall_forall in Fa. apply Fa, I.
Qed.
Section Labels.
Context (fs fs' : list str).
Lemma apply_relabelled inc k r r' nv : relabelled fs fs' r r' -> include_name (fst nv) = false -> fst nv <> lit "fields" ->
  both (relabelled fs fs') (apply_rule inc k r nv) (apply_rule inc k r' nv).
Proof.
  intros R Ni Nf. destruct R as [r r' E1 E2 E3 E4 E5 E6 E7 E8 E9 E10 E11 E12 F].
  assert (is_name (fst nv) ["fields"]%string = false) as Nf'.
  { unfold is_name. cbn [existsb]. rewrite orb_false_r. destruct (str_eqb_spec (fst nv) (lit "fields")); [contradiction|reflexivity]. }
  unfold apply_rule, reset_rule, set_rule. unfold include_name in Ni. rewrite Ni, Nf', <- E1, <- E2.
  rule_cases; cbn [both]; auto; constructor; cbn; auto.
Qed.
Lemma line_relabelled inc r r' l : relabelled fs fs' r r' -> ~ includes_rules l -> hd_error (split_ws l) <> Some (lit "fields") ->
  both (relabelled fs fs') (add_from_line inc r l) (add_from_line inc r' l).
Proof.
  intros R Ni Nf. unfold add_from_line. destruct (position is_ws (trim_start l)) as [i|] eqn:P; [|reflexivity].
  destruct (slice_to i (trim_start l)) as [name| | |] eqn:Hn; try reflexivity; [|exact I..]. cbn [bind].
  destruct (slice_from (S i) (trim_start l)) as [rest| | |]; try reflexivity; [|exact I..]. cbn [bind].
  change (both (relabelled fs fs') (apply_rule inc (trim_start l) r (name, trim_start rest)) (apply_rule inc (trim_start l) r' (name, trim_start rest))).
  apply apply_relabelled; [exact R| |]; cbn [fst].
  - apply not_true_iff_false. intro X. apply Ni.
    destruct (first_token l i name P Hn X) as (w & c & b & -> & W & Hc & _ & _ & T).
    exists name. rewrite split_ws_ws by exact W. rewrite split_ws_tok by assumption. split; [reflexivity|apply include_names, X].
  - intros ->. apply Nf. apply (line_name l i (lit "fields") P Hn); [discriminate|repeat constructor].
Qed.
Definition free_line (l : str) : Prop := ~ includes_rules l /\ hd_error (split_ws l) <> Some (lit "fields").
Lemma lines_relabelled inc rs : Forall free_line rs -> forall r r', relabelled fs fs' r r' ->
  both (relabelled fs fs') (fold_res (add_from_line inc) rs r) (fold_res (add_from_line inc) rs r').
Proof.
  induction 1 as [|l rs (Ni & Nf) _ IH]; intros r r' R; cbn [fold_res]; [exact R|].
  pose proof (line_relabelled inc r r' l R Ni Nf) as B.
  destruct (add_from_line inc r l), (add_from_line inc r' l); cbn [both bind] in *; try contradiction; try exact I. apply IH, B.
Qed.
Lemma push_relabelled r r' ps b b' : relabelled fs fs' r r' -> relabelled fs fs' b b' ->
  relabelled fs fs' (push_subrules r (ps, b)) (push_subrules r' (ps, b')).
Proof.
  intros [] B. constructor; cbn; auto. apply Forall2_app; [assumption|]. constructor; [split; [reflexivity|exact B]|constructor].
Qed.
Lemma items_relabelled inc ls is : layout ls is -> Forall free_line ls -> forall r r', relabelled fs fs' r r' ->
  both (relabelled fs fs') (fold_res (item_step inc) is r) (fold_res (item_step inc) is r').
Proof.
  induction 1 as [|l ls is Nb L IH|l ps rs ls is Sb Fp Fr E Nx L IH]; intros F r r' R; [exact R| |].
  - inversion F as [|? ? (Ni & Nf) F']; subst. cbn [fold_res item_step]. pose proof (line_relabelled inc r r' l R Ni Nf) as B.
    destruct (add_from_line inc r l), (add_from_line inc r' l); cbn [both bind] in *; try contradiction; try exact I. apply IH; assumption.
  - inversion F as [|x xs _ F']; subst. apply Forall_app in F' as (_ & F'). apply Forall_app in F' as (Frs & Fls).
    cbn [fold_res item_step]. destruct (header_patterns l); cbn [bind]; try exact I.
    pose proof (lines_relabelled inc rs Frs r r' R) as B.
    destruct (fold_res (add_from_line inc) rs r), (fold_res (add_from_line inc) rs r'); cbn [both bind] in *; try contradiction; try exact I.
    apply IH; [exact Fls|]. apply push_relabelled; assumption.
Qed.
End Labels.
Lemma names_line inc line fs : names_columns line fs -> add_from_line inc default_rules line = Ok (set_fields default_rules fs).
Proof.
  intros (v & v' & ps & -> & P & N & C & S). rewrite written_rule_eq.
  2:{ split; [split; [discriminate|repeat constructor; intro B; discriminate]|]. split; [repeat constructor|discriminate]. }
  cbn [fst snd]. apply past_blanks_iff in P. subst v'. apply between_commas_iff in C. subst ps.
  assert (trim (trim_start v) = trim v) as E.
  { destruct (trim_start_spec v) as (a & Ev & A & _). rewrite Ev at 2. unfold trim. f_equal. symmetry. apply trim_start_ws, A. }
  unfold apply_rule. cbn [fst snd]. rewrite E. destruct (str_eqb_spec (trim v) (lit "-")) as [T|_]; [exfalso; apply N, stripped_iff; congruence|].
  change (set_rule inc (written_rule (lit "fields", v)) default_rules (lit "fields") (trim_start v))
    with (@Ok rules (set_fields default_rules (map trim (split_on (chr ",") (trim_start v))))).
  do 2 f_equal. induction S as [|p n ps ns H _ IH]; [reflexivity|]. cbn [map]. apply stripped_iff in H. congruence.
Qed.
Theorem C125_rules : forall fuel w t t' fs fs' ls r, headed t fs ls -> headed t' fs' ls ->
  parse_rules fuel w t = Ok r -> exists r', parse_rules fuel w t' = Ok r' /\ relabelled fs fs' r r'.
Proof.
  intros fuel w t t' fs fs' ls r (f & El & Nf & Fr) (f' & El' & Nf' & _) H. unfold parse_rules in *.
  assert (forall g gs, names_columns g gs -> ~ starts_block g) as Ns.
  { intros g gs (v & _ & _ & -> & _) (q & Q). discriminate Q. }
  destruct (layout_total ls) as (is & L).
  rewrite (rules_layout _ _ t (Root f :: is)) in H by (rewrite El; constructor; [exact (Ns _ _ Nf)|exact L]).
  rewrite (rules_layout _ _ t' (Root f' :: is)) by (rewrite El'; constructor; [exact (Ns _ _ Nf')|exact L]).
  cbn [fold_res item_step] in *. rewrite (names_line _ _ _ Nf) in H. rewrite (names_line _ _ _ Nf'). cbn [bind] in *.
  assert (relabelled fs fs' (set_fields default_rules fs) (set_fields default_rules fs')) as R by (constructor; try reflexivity; constructor).
  pose proof (items_relabelled fs fs' (rules_from_file fuel w) ls is L Fr _ _ R) as B. rewrite H in B.
  destruct (fold_res _ is (set_fields default_rules fs')) as [r'| | |]; cbn [both] in B; try contradiction. exists r'. split; [reflexivity|exact B].
Qed.
Print Assumptions C125_rules.

(** ** Runs *)
Lemma records_ext today mk mk' : forall recs recs', Forall2 (fun a b => mk b = mk' a) recs recs' -> forall l w,
  import_records today mk l w recs' = import_records today mk' l w recs.
Proof.
  induction 1 as [|a b recs recs' E _ IH]; intros l w; [reflexivity|]. cbn [import_records]. rewrite E. destruct (mk' a); [|reflexivity..].
  destruct (append_entry today l w a0) as [w' [l'| | |]]; [apply IH|reflexivity..].
Qed.
Theorem C125_run_partial : forall x f w l w2 c c' r r' tr tr' rs fs fs' ls tc tc' titles titles' recs recs',
  (forall l, Permutation (x_ord x l) l) -> x_csv x = csv_reader ->
  f_cmd f = Import -> f_csv f = Some c -> f_rules f = Some r -> ready x f w l w2 ->
  files w2 (resolve w2 r) = Some tr -> headed tr fs ls -> files w2 (resolve w2 r') = Some tr' -> headed tr' fs' ls ->
  parse_rules (x_fuel x) w2 tr = Ok rs ->
  r_skip rs = Z.of_nat (List.length titles) -> List.length titles' = List.length titles ->
  files w2 (resolve w2 c) = Some tc -> table tc titles recs -> files w2 (resolve w2 c') = Some tc' -> table tc' titles' recs' ->
  Forall2 (narrowed (x_lower x) rs fs fs') recs recs' ->
  execute x (with_files f c' r') w = execute x f w.
Proof.
  intros x f w l w2 c c' r r' tr tr' rs fs fs' ls tc tc' titles titles' recs recs' O Xc Cm Cs Ru Re Fr H Fr' H' Pr Sk Le Fc T Fc' T' N.
  assert (ready x (with_files f c' r') w l w2) as Re'.
  { assert (forall p, chosen x f p -> chosen x (with_files f c' r') p) as Ch
      by (intros p [q A|q A B|q A B C]; [apply by_flag|apply by_silverfox|apply by_ledger]; assumption).
    inversion Re as [p l0 w1 C L Nm|p l0 w1 l1 w3 C L Nm Fi]; subst; [eapply ready_still|eapply ready_filled]; try eassumption; apply Ch, C. }
  rewrite (ready_run _ _ _ _ _ Re), (ready_run _ _ _ _ _ Re'). unfold run_command. cbn [with_files f_cmd f_csv f_rules]. rewrite Cm, Cs, Ru.
  f_equal. destruct (C125_rules _ _ _ _ _ _ _ _ H H' Pr) as (rs' & Pr' & R).
  assert (r_skip rs' = Z.of_nat (List.length titles')) as Sk' by (rewrite Le, <- Sk; destruct R; congruence).
  unfold import_csv, open_importer, read_file. rewrite Fc, Fc', Fr, Fr'. cbn [bind]. rewrite Pr, Pr'. cbn [bind].
  rewrite Xc, (table_read _ _ _ _ T Sk), (table_read _ _ _ _ T' Sk'). cbn [bind].
  apply records_ext. clear -N R O. induction N as [|a b la lb K _ IH]; constructor; [|exact IH].
  eapply C125_record_partial; eassumption.
Qed.
Print Assumptions C125_run_partial.

(** Without the condition on the blocks: a pattern is looked for in all fields
    written after each other, so it can be found across two of them. *)
Definition sides (columns : list string) : world :=
  world_of [(j, text bank);
            ([lit "r"], text (["fields date, description, kind, amount"; "skip 0"; "account assets:bank"]%string ++ ["if bc"; " description found"]%string));
            ([lit "s"], text (["fields " ++ hd "" columns; "skip 0"; "account assets:bank"]%string ++ ["if bc"; " description found"]%string));
            ([lit "c"], text ["2024/03/01,xb,cy,5"]%string); ([lit "d"], text (tl columns))] [[]] [].
Definition one_run (c r : string) : flags := mkFlags (Some (lit "/j")) Import true (Some (lit c)) (Some (lit r)) None None.
Theorem C125_refuted : exists x f w l w2 c c' r r' tr tr' fs fs' ls tc tc' rec rec',
  (forall l, Permutation (x_ord x l) l) /\ x_csv x = csv_reader
  /\ f_cmd f = Import /\ f_csv f = Some c /\ f_rules f = Some r /\ ready x f w l w2
  /\ files w2 (resolve w2 r) = Some tr /\ headed tr fs ls /\ files w2 (resolve w2 r') = Some tr' /\ headed tr' fs' ls
  /\ files w2 (resolve w2 c) = Some tc /\ x_csv x tc = [Some rec] /\ files w2 (resolve w2 c') = Some tc' /\ x_csv x tc' = [Some rec']
  /\ Permutation (combine fs rec) (combine fs' rec') /\ good_vars (combine fs rec)
  /\ o_res (execute x f w) = Ok tt /\ o_res (execute x (with_files f c' r') w) = Ok tt
  /\ ~ same_disk (o_world (execute x f w)) (o_world (execute x (with_files f c' r') w)).
Proof.
  set (w := sides ["date, kind, description, amount"; "2024/03/01,cy,xb,5"]%string).
  destruct (from_file 5 today (lit "/j") w) as [(l & w2)| | |] eqn:E; [|vm_compute in E; discriminate..].
  set (ls := rule_lines (text ["skip 0"; "account assets:bank"; "if bc"; " description found"]%string)).
  set (tail := ["skip 0"; "account assets:bank"; "if bc"; " description found"]%string).
  exists reading, (one_run "/c" "/r"), w, l, w2, (lit "/c"), (lit "/d"), (lit "/r"), (lit "/s"),
    (text ("fields date, description, kind, amount"%string :: tail)), (text ("fields date, kind, description, amount"%string :: tail)),
    (map lit ["date"; "description"; "kind"; "amount"]%string), (map lit ["date"; "kind"; "description"; "amount"]%string), ls,
    (text ["2024/03/01,xb,cy,5"]%string), (text ["2024/03/01,cy,xb,5"]%string),
    (rec_of ["2024/03/01"; "xb"; "cy"; "5"]%string), (rec_of ["2024/03/01"; "cy"; "xb"; "5"]%string).
  assert (Forall (fun l => ~ includes_rules l /\ hd_error (split_ws l) <> Some (lit "fields")) ls) as Fr.
  { match goal with |- Forall _ ?l => let v := eval vm_compute in l in change l with v end.
    repeat constructor; try (intros (k & Hk & Q); vm_compute in Hk; injection Hk as <-; destruct Q; discriminate); vm_compute; discriminate. }
  assert (forall v fs, map trim (split_on (chr ",") (trim_start v)) = fs -> trim v <> lit "-" -> names_columns (written_rule (lit "fields", v)) fs) as Nc.
  { intros v fs <- N. exists v, (trim_start v), (split_on (chr ",") (trim_start v)). split; [reflexivity|]. split; [apply past_blanks_iff; reflexivity|].
    split; [intro H; apply stripped_iff in H; congruence|]. split; [apply between_commas_iff; reflexivity|].
    induction (split_on (chr ",") (trim_start v)); constructor; [apply stripped_iff; reflexivity|assumption]. }
  split; [reflexivity|]. split; [reflexivity|]. split; [reflexivity|]. split; [reflexivity|]. split; [reflexivity|].
  split; [eapply ready_still; [apply by_flag; reflexivity|exact E|reflexivity]|].
  split; [vm_compute in E; injection E as _ <-; vm_compute; reflexivity|].
  split; [exists (written_rule (lit "fields", lit "date, description, kind, amount")); split; [vm_compute; reflexivity|]; split; [apply Nc; [vm_compute; reflexivity|vm_compute; discriminate]|exact Fr]|].
  split; [vm_compute in E; injection E as _ <-; vm_compute; reflexivity|].
  split; [exists (written_rule (lit "fields", lit "date, kind, description, amount")); split; [vm_compute; reflexivity|]; split; [apply Nc; [vm_compute; reflexivity|vm_compute; discriminate]|exact Fr]|].
  split; [vm_compute in E; injection E as _ <-; vm_compute; reflexivity|]. split; [vm_compute; reflexivity|].
  split; [vm_compute in E; injection E as _ <-; vm_compute; reflexivity|]. split; [vm_compute; reflexivity|].
  split; [cbn; constructor; apply perm_swap|].
  split.
  { split.
    - vm_compute. repeat constructor; cbn; intuition discriminate.
    - repeat constructor; vm_compute; intuition discriminate. }
  split; [vm_compute; reflexivity|]. split; [vm_compute; reflexivity|].
  intros (F & _). specialize (F j). apply (f_equal (option_map (@List.length _))) in F. vm_compute in F. discriminate F.
Qed.
Print Assumptions C125_refuted.

(** Two columns exchanged, and one that is not used left out. *)
Example C125_case :
  forallb (fun columns =>
    match files (o_world (execute reading (one_run "/d" "/s") (sides columns))) j,
          files (o_world (execute reading (one_run "/d" "/s") (sides ["date, description, kind, amount"; "2024/03/01,xb,k,5"]%string))) j with
    | Some t, Some t' => str_eqb t t' && Nat.ltb (List.length (text bank)) (List.length t)
    | _, _ => false
    end)
  [["amount, kind,date, description"; "5,k,2024/03/01,xb"]; ["description, amount, date"; "xb,5,2024/03/01"]]%string = true.
Proof. vm_compute. reflexivity. Qed.

(** The conditions on rules and record of the theorems, for a record without
    one of its columns. *)
Lemma no_ref few all s : plain s -> text_for few all s.
Proof.
  intro P. exists [Text s]. split; [cbn; symmetry; apply app_nil_r|]. split; [constructor; [exact P|constructor]|].
  intros [|x [|y t1]] a mid b t2 E; discriminate E.
Qed.
Lemma one_ref few all n s : plain s -> In n (map fst few) -> text_for few all (s ++ (37%N :: n) ++ [37%N]).
Proof.
  intros P H. exists [Text s; Ref n]. split; [cbn; rewrite app_nil_r; reflexivity|]. split; [constructor; [exact P|constructor; [exact H|constructor]]|].
  intros [|x [|y [|z t1]]] a mid b t2 E; try discriminate E; injection E; intros; try discriminate; destruct mid; discriminate.
Qed.
Example C125_conditions :
  let t := text ["fields date, description, kind, amount"; "skip 0"; "account assets:bank"; "if xb"; " description on %date%"]%string in
  exists rs, parse_rules 5 (sides []) t = Ok rs /\ r_subrules rs <> []
  /\ narrowed (x_lower reading) rs (map lit ["date"; "description"; "kind"; "amount"]%string) (map lit ["amount"; "description"; "date"]%string)
       (rec_of ["2024/03/01"; "xb"; "k"; "5"]%string) (rec_of ["5"; "xb"; "2024/03/01"]%string).
Proof.
  intro t. destruct (parse_rules 5 (sides []) t) as [rs| | |] eqn:E; [|vm_compute in E; discriminate..].
  exists rs. split; [reflexivity|]. vm_compute in E. injection E as <-. split; [discriminate|]. split; [|split; [|split]].
  - intros v H. vm_compute in H. vm_compute. intuition.
  - split; [vm_compute; repeat constructor; cbn; intuition discriminate|repeat constructor; vm_compute; intuition discriminate].
  - vm_compute. repeat constructor; cbn; intuition discriminate.
  - assert (forall s n, plain (lit s) -> In (lit n) (map fst (combine (map lit ["amount"; "description"; "date"]%string) (rec_of ["5"; "xb"; "2024/03/01"]%string))) ->
      text_for (combine (map lit ["amount"; "description"; "date"]%string) (rec_of ["5"; "xb"; "2024/03/01"]%string))
        (combine (map lit ["date"; "description"; "kind"; "amount"]%string) (rec_of ["2024/03/01"; "xb"; "k"; "5"]%string)) (lit s ++ (37%N :: lit n) ++ [37%N])) as O
      by (intros; apply one_ref; assumption).
    assert (forall s, plain s -> text_for (combine (map lit ["amount"; "description"; "date"]%string) (rec_of ["5"; "xb"; "2024/03/01"]%string))
        (combine (map lit ["date"; "description"; "kind"; "amount"]%string) (rec_of ["2024/03/01"; "xb"; "k"; "5"]%string)) s) as O'
      by (intros; apply no_ref; assumption).
    intros x W. inversion W as [q|q ps b y Hi Wb]; subst; clear W.
    + split.
      * match goal with |- Forall ?P ?l => set (Q := P) in *; let v := eval vm_compute in l in change l with v end.
        apply Forall_forall. intros s Hs. repeat destruct Hs as [<-|Hs]; try contradiction Hs.
        all: first [apply (O ""%string "date"%string); vm_compute; intuition discriminate
          |apply (O ""%string "description"%string); vm_compute; intuition discriminate
          |apply (O "assets:bank "%string "amount"%string); vm_compute; intuition discriminate
          |apply O'; vm_compute; intuition discriminate|idtac].
      * intros ps b [K|[]]. injection K as <- <-. split; intros (p & Hp & _); exists p; (split; [exact Hp|]); destruct Hp as [<-|[]]; vm_compute; reflexivity.
    + destruct Hi as [K|[]]. injection K as <- <-. inversion Wb as [q|q ps2 b2 y Hi2 _]; subst; [|destruct Hi2]. split; [|intros ps b []].
      match goal with |- Forall ?P ?l => set (Q := P) in *; let v := eval vm_compute in l in change l with v end.
      apply Forall_forall. intros s Hs. repeat destruct Hs as [<-|Hs]; try contradiction Hs.
      all: first [apply (O ""%string "date"%string); vm_compute; intuition discriminate
          |apply (O "on "%string "date"%string); vm_compute; intuition discriminate
          |apply (O "assets:bank "%string "amount"%string); vm_compute; intuition discriminate
          |apply O'; vm_compute; intuition discriminate|idtac].
Qed.
