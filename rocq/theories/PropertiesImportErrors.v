(** Property C106: what the error messages of an import say. *)
From Coq Require Import ZArith NArith List Bool String Lia.
From Verif Require Import Base Str F64 Date Amount Posting Entry Envelope Account World Register Ledger Importer Cli
  SpecAmount SpecDate SpecEntry SpecLedger SpecInclude SpecCli SpecImport SpecCrash SpecErrors SpecImportErrors
  StrFacts EntryFacts LedgerFacts LoadFacts IncludeFacts AccountFacts CrashFacts ErrorFacts ImportErrorFacts
  PropertiesLedger PropertiesCli PropertiesErrors.
From Verif Require Errors.
Import ListNotations.
Local Open Scope list_scope.

Theorem C106_reason : forall x args f j w e, proper w -> (forall l v, In v (x_ord x l) -> In v l) ->
  parse_args args = Some (Ok f) -> journal_path x f = Some j -> f_cmd f = Import -> o_res (main x args w) = Err e ->
  reason w j e \/ (f_csv f = None /\ e = EBasic NoCsvFile)
  \/ exists c w1, f_csv f = Some c /\ reached w w1 j /\ import_reason x w j w1 c (rules_for f c) e.
Proof.
  intros x args f j w e Pr O P J C. unfold main. rewrite P. unfold execute. rewrite J.
  pose proof (from_file_says w j (x_today x) (x_fuel x) Pr) as H.
  destruct (from_file (x_fuel x) (x_today x) j w) as [(l & w1)|e0| |] eqn:L; try discriminate.
  2:{ intro Q. injection Q as <-. left. exact H. }
  destruct H as ((Lp & Le & Fi) & (Sf & Sd) & Dc). cbn [fst snd] in *.
  assert (forall l' w', l_path l' = j -> (forall k a, In (k, a) (l_accounts l') -> fits w j a) -> reached w w' j ->
    o_res (run_command x f l' w') = Err e -> (f_csv f = None /\ e = EBasic NoCsvFile)
    \/ exists c w1, f_csv f = Some c /\ reached w w1 j /\ import_reason x w j w1 c (rules_for f c) e) as R.
  { intros l' w' Lp' F' Re. unfold run_command. rewrite C. destruct (f_csv f) as [c|]; [|cbn; intro Q; injection Q as <-; left; auto].
    right. exists c, w'. split; [reflexivity|]. split; [exact Re|].
    assert (dirs w' (cwd w') = true) as D' by (destruct Re as (R1 & R2 & _); rewrite R1; exact R2).
    pose proof (import_says x w j w' c (rules_for f c) O l' (f_rules f) D' eq_refl Lp' F') as S.
    unfold done in H. destruct (import_csv _ _ _ _ _ _ _ _ _) as (w2 & [l2|e2| |]); cbn in H |- *; try discriminate. injection H as <-. exact S. }
  assert (reached w w1 j) as R1.
  { split; [intro p; rewrite Sd; reflexivity|]. split; [exact Dc|]. split; [intros q N; rewrite Sf; exact N|].
    intros q t F. exists []. rewrite app_nil_r, Sf. split; [exact F|]. intro Q. destruct (Q eq_refl). }
  destruct (f_no_move f); [intro Q; right; exact (R l w1 Lp Fi R1 Q)|]. unfold fill_envelopes.
  pose proof (fill_silent (x_today x) l) as Fs. destruct (fill_postings (x_today x) l) as [ps|e0| |] eqn:Fp; try discriminate; [|destruct (Fs e0 eq_refl)].
  destruct ps as [|p0 ps]; [intro Q; right; exact (R l w1 Lp Fi R1 Q)|]. set (y := fill_entry (x_today x) (p0 :: ps)).
  assert (forall p, In p (p0 :: ps) -> exists ep, p = EnvPosting ep) as Ev.
  { intros p Ip. destruct (fill_postings_In _ _ _ _ Fp Ip) as (k & a & v & av & am & _ & _ & _ & -> & _). eauto. }
  unfold append_entry. rewrite Lp. pose proof (append_file_spec w1 j (10%N :: show_entry (l_format l) y)) as A.
  destruct (files w1 (resolve w1 j)) as [old|] eqn:Fo; [|rewrite A; cbn; intro Q; injection Q as <-; left; left; reflexivity].
  destruct A as (w2 & -> & Cw & Dw & F2 & F2').
  destruct (printable _); [|discriminate]. pose proof (fill_entry_says (x_today x) l (p0 :: ps) Ev ltac:(discriminate)) as As. fold y in As.
  destruct (add_entry (x_today x) l y) as [l2|e0| |] eqn:Ea; try discriminate; [|destruct (As e0 eq_refl)].
  intro Q. right. apply (R l2 w2); [| | |exact Q].
  - unfold add_entry in Ea. apply bind_Ok in Ea as (accs & _ & Ea). injection Ea as <-. exact Lp.
  - clear As Q. intros k b Ib. unfold add_entry in Ea. apply bind_Ok in Ea as (accs & E & Ea). injection Ea as <-. cbn [l_accounts] in Ib. apply EnvelopeFacts.map_res_Ok in E.
    revert Fi E Ib. generalize (l_accounts l) as m. intros m F E. induction E as [|(k1 & a1) (k2 & a2) m m' H E IH]; [intros []|].
    cbn [fst snd] in H. apply bind_Ok in H as (a3 & Ha & H). injection H as <- <-. intros [Qe|Ib].
    + injection Qe as <- <-. eapply fits_process; [|exact Ha]. apply (F k1). left. reflexivity.
    + apply IH; [|exact Ib]. intros k' a' I'. apply (F k'). right. exact I'.
  - split; [intro p; rewrite Dw, Sd; reflexivity|]. split; [rewrite Cw; exact Dc|].
    assert (forall q, {q = resolve w1 j} + {q <> resolve w1 j}) as Dec.
    { intro q. destruct (path_eqb q (resolve w1 j)) eqn:E; [left; apply path_eqb_eq; exact E|right; intro X; apply path_eqb_eq in X; congruence]. }
    split.
    + intros q N. destruct (Dec q) as [->|Nq]; [rewrite <- Sf in N; congruence|]. rewrite (F2' q Nq), Sf. exact N.
    + intros q t F. destruct (Dec q) as [->|Nq].
      * rewrite <- Sf, Fo in F. injection F as <-. eexists. split; [exact F2|]. intros _. rewrite Cw. reflexivity.
      * exists []. rewrite (F2' q Nq), Sf, app_nil_r. split; [exact F|]. intro X. destruct (X eq_refl).
Qed.
Print Assumptions C106_reason.

Definition blamed (rules : list string) (rs : list (list string)) : res unit :=
  o_res (main (ctx [] (PropertiesImport.csv_of rs)) (map lit ["i"; "-f"; "/j"; "--csv"; "/c"]%string)
    (world_of [(j, text PropertiesImport.bank); ([lit "c"], []); ([lit "c.rules"], text rules)] [[]] [])).
Example C106_case :
  let ok := ["fields date, description, amount"; "account assets:bank"; "skip 0"]%string in
  blamed (ok ++ ["colour red"]%string) [] = Err (EParse (UnknownRule (lit "colour") (lit "colour red")))
  /\ blamed (ok ++ ["if x"; "  status"]%string) [] = Err (EParse (RuleNoValue (lit "status")))
  /\ blamed (ok ++ ["if x"; "  if y"; "  payee z"]%string) [] = Err (EParse NestedSubrules)
  /\ blamed (ok ++ ["include /more"]%string) [] = Err (EFile (lit "/more"))
  /\ blamed (ok ++ ["date 3.%date%"]%string) [["1.2"; "x"; "4"]]%string = Err (EParse (ImportDate (lit "3.1.2") (lit "%Y/%m/%d")))
  /\ blamed (ok ++ ["status <%description%>"]%string) [["2024/03/01"; "x"; "4"]]%string = Err (EParse (UnknownStatus (lit "<x>")))
  /\ blamed (ok ++ ["account bank:%description%"]%string) [["2024/03/01"; "x"; "4"]]%string = Err (EValidation (UndefinedAccount (lit "bank:x")))
  /\ blamed (ok ++ ["fields date"]%string) [["2024/03/01"; "x"; "4"; "y"]]%string = Err (EParse (DuplicateField (lit "date")))
  /\ blamed ok [["2024/03/01"; "x"; "4"]]%string = Ok tt.
Proof. vm_compute. repeat split; reflexivity. Qed.
