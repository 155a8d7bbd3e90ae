(** Properties C102 to C105: what the error messages say. *)
From Coq Require Import ZArith NArith List Bool String Lia.
From Verif Require Import Base Str F64 Date Amount Posting Entry Envelope Account World Register Ledger Importer Cli
  SpecAmount SpecDate SpecEntry SpecLedger SpecInclude SpecCli SpecCrash SpecErrors
  StrFacts EntryFacts LedgerFacts LoadFacts IncludeFacts AccountFacts ErrorFacts
  PropertiesLedger PropertiesCli PropertiesRun PropertiesInclude.
From Verif Require Errors.
Import ListNotations.
Local Open Scope list_scope.

(** ** C102 *)

(** Every error comes with an explanation. *)
Theorem C102_explained : forall why,
  (forall e, exists m, Errors.message (Errors.parse_report why e) = Some m /\ m <> [])
  /\ (forall e, exists m, Errors.message (Errors.validation_report e) = Some m /\ m <> [])
  /\ (forall e, exists m, Errors.message (Errors.processing_report e) = Some m /\ m <> [])
  /\ (forall e, Errors.basic_text e <> []).
Proof.
  intro why. split; [|split; [|split]]; intros []; try (eexists; split; [reflexivity|discriminate]); discriminate.
Qed.
Print Assumptions C102_explained.

(** The message has the explanation at its end, and quotes what the error is
    about. *)
Lemma part_mid a s b : part s (a ++ s ++ b).
Proof. exists a, b. reflexivity. Qed.
Lemma part_l s a b : part s a -> part s (a ++ b).
Proof. intros (x & y & ->). exists x, (y ++ b). rewrite <- !app_assoc. reflexivity. Qed.
Lemma part_r s a b : part s b -> part s (a ++ b).
Proof. intros (x & y & ->). exists (a ++ x), y. rewrite <- !app_assoc. reflexivity. Qed.
Lemma part_c s c b : part s b -> part s (c :: b).
Proof. apply (part_r s [c]). Qed.
Lemma part_quoted s : part s (Errors.quoted s).
Proof. apply part_mid. Qed.
Definition of_report (why : cause -> str) (e : err) : option (str * Errors.report) :=
  match e with
  | EParse p => Some (match Errors.context (Errors.parse_report why p) with
      | Some _ => lit "silverfox couldn't understand the following:"
      | None => lit "silverfox ran across an issue in your journal: " end, Errors.parse_report why p)
  | EValidation v => Some (match Errors.context (Errors.validation_report v) with
      | Some _ => lit "the following is invalid to silverfox:"
      | None => lit "silverfox flagged your journal file as invalid: " end, Errors.validation_report v)
  | EProcessing p => Some (match Errors.context (Errors.processing_report p) with
      | Some _ => lit "looks like your journal is all valid, but this couldn't be processed:"
      | None => lit "your journal is valid, but silverfox couldn't process this: " end, Errors.processing_report p)
  | EBasic _ | EFile _ => None
  end.
Theorem C102_text : forall why e intro r, of_report why e = Some (intro, r) ->
  exists m, Errors.message r = Some m /\ Errors.display why e =
    match Errors.context r with
    | Some c => intro ++ text [""; ""]%string ++ nl ++ c ++ nl ++ nl ++ m
    | None => intro ++ m
    end.
Proof.
  intros why e intro r H. destruct (C102_explained why) as (H1 & H2 & H3 & _).
  destruct e as [p|v|p|b|p]; try discriminate; injection H as <- <-; cbn [Errors.display];
    [destruct (H1 p) as (m & E & _)|destruct (H2 v) as (m & E & _)|destruct (H3 p) as (m & E & _)];
    exists m; (split; [exact E|]); unfold Errors.display_parse, Errors.display_validation, Errors.display_processing, Errors.display_report;
    rewrite E; match goal with |- context [Errors.context ?x] => destruct (Errors.context x) end; rewrite <- ?app_assoc; reflexivity.
Qed.
Print Assumptions C102_text.
Theorem C102_quotes : forall why e s, In s (mentions e) -> part s (Errors.display why e).
Proof.
  intros why e s H. assert (forall c m a b, part s c \/ part s m -> part s (a ++ b ++ c ++ b ++ m)) as Two.
  { intros c m a b [Q|Q]; apply part_r, part_r; [apply part_l, Q|apply part_r, part_r, Q]. }
  assert (forall m a b, part s m -> part s (a ++ b ++ m)) as One by (intros m a b Q; apply part_r, part_r, Q).
  destruct e as [p|v|p|b|p].
  - destruct p; cbn [mentions] in H; try contradiction; repeat (destruct H as [H|H]); try contradiction; subst;
      cbn [Errors.display Errors.parse_report Errors.about Errors.says];
      unfold Errors.display_parse, Errors.display_report; cbn [Errors.context Errors.message];
      first [apply Two; left; apply part_refl|apply Two; right|apply One];
      repeat first [apply part_quoted|apply part_refl|apply part_l; apply part_quoted|apply part_l; apply part_refl|apply part_r].
  - destruct v; cbn [mentions] in H; try contradiction; repeat (destruct H as [H|H]); try contradiction; subst;
      cbn [Errors.display Errors.validation_report Errors.about Errors.says];
      unfold Errors.display_validation, Errors.display_report; cbn [Errors.context Errors.message];
      first [apply Two; left; apply part_refl|apply Two; right|apply One];
      repeat first [apply part_quoted|apply part_refl|apply part_l; apply part_quoted|apply part_l; apply part_refl|apply part_r].
  - destruct p; cbn [mentions] in H; repeat (destruct H as [H|H]); try contradiction; subst;
      cbn [Errors.display Errors.processing_report Errors.about Errors.says];
      unfold Errors.display_processing, Errors.display_report; cbn [Errors.context Errors.message];
      first [apply Two; left; apply part_refl|apply Two; right];
      repeat first [apply part_quoted|apply part_refl|apply part_l; apply part_quoted|apply part_l; apply part_refl|apply part_r].
  - destruct b; cbn [mentions] in H; try contradiction; destruct H as [H|H]; try contradiction; subst; cbn [Errors.display Errors.basic_text];
      repeat first [apply part_quoted|apply part_l; apply part_quoted|apply part_r].
  - destruct H as [<-|[]]. cbn [Errors.display]. apply part_r, part_r, part_r, part_r, part_l, part_refl.
Qed.
Print Assumptions C102_quotes.

(** Each value is in its place in the sentence about it. *)
Definition heads (s t : str) : Prop := exists b, t = s ++ b.
Lemma heads_part s t : heads s t -> part s t.
Proof. intros (b & ->). exists [], b. reflexivity. Qed.
Lemma heads_nil t : heads [] t.
Proof. exists t. reflexivity. Qed.
Lemma heads_cons c s t : heads s t -> heads (c :: s) (c :: t).
Proof. intros (b & ->). exists b. reflexivity. Qed.
Lemma heads_app x s t : heads s t -> heads (x ++ s) (x ++ t).
Proof. intros (b & ->). exists b. rewrite <- app_assoc. reflexivity. Qed.
Ltac found := first
  [apply heads_part; solve [repeat first [apply heads_nil|apply heads_cons|apply heads_app]]
  |apply part_c; found|apply part_r; found].
Theorem C102_places : forall why e, part (sentence e) (Errors.display why e).
Proof.
  intros why e.
  destruct e as [[]|[]|[]|[]|]; cbn [sentence];
    try match goal with |- part [] ?x => exists [], x; reflexivity end;
    cbn [Errors.display Errors.parse_report Errors.validation_report Errors.processing_report Errors.basic_text Errors.about Errors.says];
    unfold Errors.display_parse, Errors.display_validation, Errors.display_processing, Errors.display_report;
    cbn [Errors.context Errors.message]; unfold Errors.quoted;
    repeat match goal with
    | |- context [lit ?x] => let y := eval vm_compute in (lit x) in change (lit x) with y
    | |- context [Errors.text_lines ?x] => let y := eval vm_compute in (Errors.text_lines x) in change (Errors.text_lines x) with y
    end;
    repeat first [rewrite <- !app_assoc|progress (cbn [app])]; found.
Qed.
Print Assumptions C102_places.
Example C102_places_case :
  sentence (EParse (PropertyBlank (lit "for") (lit "rent") (lit "assets:bank")))
    = lit "the property `for` to an envelope (`rent` in assets:bank) is blank"
  /\ sentence (EParse (EntryDate (lit "24-1-1") (lit "%Y/%m/%d") (lit "24-1-1 ! a")))
    = lit "couldn't parse date `24-1-1` with format `%Y/%m/%d`".
Proof. vm_compute. auto. Qed.

(** A run writes one message if it ends with an error, none otherwise, and with
    an error nothing else. *)
Theorem C102_run : forall why x args w,
  match o_res (main x args w) with
  | Err e => o_out (main x args w) = [] /\ complaint why (main x args w) = Errors.display why e ++ nl
  | _ => complaint why (main x args w) = []
  end.
Proof.
  intros why x args w. unfold complaint. destruct (o_res (main x args w)) as [[]| | |] eqn:E; try reflexivity. split; [|reflexivity].
  revert E. unfold main. destruct (parse_args args) as [[f| | |]|]; try discriminate; try reflexivity.
  unfold execute. destruct (journal_path x f); [|reflexivity]. destruct (from_file _ _ _ _) as [(l & w1)| | |]; try reflexivity.
  assert (forall l' w', o_res (run_command x f l' w') = Err e -> o_out (run_command x f l' w') = []) as R.
  { intros l' w'. unfold run_command, printed.
    destruct (f_cmd f); repeat match goal with |- context [match ?r with _ => _ end] => destruct r end; try discriminate; reflexivity. }
  destruct (f_no_move f); [apply R|]. destruct (fill_envelopes _ _ _) as (w2 & [l2| | |]); try reflexivity. apply R.
Qed.
Print Assumptions C102_run.
Definition said (args : list string) (ls : list string) : str :=
  complaint (fun _ => lit "No such file") (main (ctx [] (fun _ => [])) (map lit args) (world_of [(j, text ls)] [[]] [])).
Example C102_case :
  said ["b"; "-f"; "/j"]%string ["account a"; "2024/01/02 * x"; "  b 1"]%string
  = text ["silverfox flagged your journal file as invalid: the account `b` is not defined in your journal"; ""]%string
  /\ said ["b"; "-f"; "/j"]%string ["account a b"]%string
  = text ["silverfox couldn't understand the following:"; ""; "account a b"; ""; "accounts can't have spaces in them; use underscores instead: _"; ""]%string
  /\ said ["b"; "-f"; "/k"]%string [] = text ["silverfox encountered an i/o error: No such file"; "(file: /k)"; ""]%string
  /\ said ["s"; "-f"; "/j"]%string ["account a"]%string
  = text ["the `summary` subcommand is recognized by silverfox, but not supported yet. sorry :("; ""]%string
  /\ said ["b"; "-f"; "/j"]%string ["account a"; "2024/01/02 * x"; "  a 1"; "  a -1"]%string = [].
Proof. vm_compute. repeat split; reflexivity. Qed.

(** ** C103 *)

(** What the error of a journal is about stands in the journal. *)
Theorem C103_reason : forall fuel today j w e, proper w -> from_file fuel today j w = Err e -> reason w j e.
Proof. intros fuel td j w e Pr E. pose proof (from_file_says w j td fuel Pr) as H. rewrite E in H. exact H. Qed.
Print Assumptions C103_reason.

(** And the same for the error of a run that is not about the arguments. *)
Theorem C103_run : forall x args f j w e, proper w -> parse_args args = Some (Ok f) -> journal_path x f = Some j ->
  f_cmd f <> Import -> o_res (main x args w) = Err e -> reason w j e \/ e = EBasic (NotSupported (command_name (f_cmd f))).
Proof.
  intros x args f j w e Pr P J N. unfold main. rewrite P. unfold execute. rewrite J.
  pose proof (from_file_says w j (x_today x) (x_fuel x) Pr) as H.
  destruct (from_file (x_fuel x) (x_today x) j w) as [(l & w1)|e0| |] eqn:L; try discriminate.
  2:{ intro Q. injection Q as <-. left. exact H. }
  destruct H as ((Lp & Le & _) & Sd & _). cbn [fst snd] in *.
  assert (forall l' w', (forall y, In y (l_entries l') -> recorded_in w j y \/ has_blank_posting y = false) ->
    o_res (run_command x f l' w') = Err e -> reason w j e \/ e = EBasic (NotSupported (command_name (f_cmd f)))) as R.
  { intros l' w' Re. unfold run_command. destruct (f_cmd f) eqn:Ec; try contradiction; try (cbn; intro Q; injection Q as <-; right; reflexivity).
    - pose proof (balance_says l') as B. destruct (show_balance l') as [t|e0| |]; try discriminate. cbn. intro Q. injection Q as <-.
      destruct B as (y & Iy & By & ->). left. destruct (Re y Iy) as [Ry|Ny]; [exists y; auto|congruence].
    - pose proof (envelopes_silent (x_today x) l') as B. destruct (show_envelopes (x_today x) l') as [t|e0| |]; try discriminate. destruct (B e0 eq_refl).
    - pose proof (register_silent (x_tty x) l' (f_begin f) (f_end f) None) as B. destruct (show_register _ _ _ _ _) as [t|e0| |]; try discriminate. destruct (B e0 eq_refl). }
  destruct (f_no_move f); [apply R; auto|]. unfold fill_envelopes.
  pose proof (fill_silent (x_today x) l) as Fs. destruct (fill_postings (x_today x) l) as [ps|e0| |] eqn:Fp; try discriminate; [|destruct (Fs e0 eq_refl)].
  destruct ps as [|p0 ps]; [apply R; auto|]. set (y := fill_entry (x_today x) (p0 :: ps)).
  assert (forall p, In p (p0 :: ps) -> exists ep, p = EnvPosting ep) as Ev.
  { intros p Ip. destruct (fill_postings_In _ _ _ _ Fp Ip) as (k & a & v & av & am & _ & _ & _ & -> & _). eauto. }
  unfold append_entry, append_file. rewrite Lp. destruct (files w1 (resolve w1 j)); [|cbn; intro Q; injection Q as <-; left; left; reflexivity].
  destruct (printable _); [|discriminate]. pose proof (fill_entry_says (x_today x) l (p0 :: ps) Ev ltac:(discriminate)) as As. fold y in As.
  destruct (add_entry (x_today x) l y) as [l2|e0| |] eqn:Ea; try discriminate; [|destruct (As e0 eq_refl)].
  apply R. intros z Iz. unfold add_entry in Ea. apply bind_Ok in Ea as (accs & _ & Ea). injection Ea as <-. cbn [l_entries] in Iz.
  apply (Permutation.Permutation_in _ (Permutation.Permutation_sym (sort_entries_perm _))) in Iz. apply in_app_or in Iz as [Iz|[<-|[]]]; [left; auto|].
  right. destruct (has_blank_posting y) eqn:B; [|reflexivity]. exfalso. apply has_blank_iff in B as (p & Ip & Bp).
  destruct (Ev p Ip) as (ep & ->). discriminate.
Qed.
Print Assumptions C103_run.

(** The text is not always quoted as it stands: a double dash is left out, the
    words of an amount are joined, a missing payee is made up. *)
Definition one_file (ls : list string) : world := world_of [(j, text ls)] [[]] [].
Lemma one_file_only ls p t : files (one_file ls) p = Some t -> t = text ls.
Proof. unfold one_file, world_of. cbn [files]. destruct (find _ _) as [x|] eqn:F; [|discriminate]. apply find_some in F as ([<-|[]] & _). cbn. congruence. Qed.
Lemma part_contains s t : part s t -> contains s t = true.
Proof. intros (a & b & ->). apply DefinitionFacts.contains_inside. exists a, b. reflexivity. Qed.
Lemma altered :
  forall ls, In ls [["account a"; "2024/01/02 * x"; "  a 1--2 y z"];
                    ["account a"; "  expense e no date"; "2024/01/02 * x"; "  envelope a e 1.2. 34"; "  a 1"];
                    ["account a"; "account b"; "2024/01/02 * x"; "  a 1 USD"; "  a 2"; "  b"]]%string ->
  exists e s, proper (one_file ls) /\ from_file 3 today (lit "/j") (one_file ls) = Err e /\ In s (mentions e)
    /\ forall p t, files (one_file ls) p = Some t -> ~ part s t.
Proof.
  intros ls H. assert (forall e s, from_file 3 today (lit "/j") (one_file ls) = Err e -> In s (mentions e) -> contains s (text ls) = false ->
    exists e s, proper (one_file ls) /\ from_file 3 today (lit "/j") (one_file ls) = Err e /\ In s (mentions e)
    /\ forall p t, files (one_file ls) p = Some t -> ~ part s t) as G.
  { intros e s E M C. exists e, s. split; [apply world_of_proper; vm_compute; reflexivity|]. split; [exact E|]. split; [exact M|].
    intros p t F Q. apply one_file_only in F. subst t. apply part_contains in Q. congruence. }
  destruct H as [<-|[<-|[<-|[]]]]; (eapply G; [vm_compute; reflexivity|left; reflexivity|vm_compute; reflexivity]).
Qed.
Theorem C103_verbatim_refuted : exists w e s, proper w /\ from_file 3 today (lit "/j") w = Err e /\ In s (mentions e)
  /\ forall p t, files w p = Some t -> ~ part s t.
Proof. edestruct altered as (e & s & H); [left; reflexivity|]. exists (one_file ["account a"; "2024/01/02 * x"; "  a 1--2 y z"]%string), e, s. exact H. Qed.
Print Assumptions C103_verbatim_refuted.

Example C103_case :
  (exists e, loading ["account a"; "2024/01/02 * x"; "  a 1"; "  c"]%string = Err e /\ mentions e = [lit "c"])
  /\ (exists e, loading ["account a"; "2024/01/02 * x"; "  a 1 EUR p"; "  a"]%string = Err e /\ mentions e = [lit "1 EUR p"])
  /\ (exists e, loading ["account a"; "  expense food due every blue moon"]%string = Err e /\ mentions e = [lit "every blue moon"])
  /\ (exists e, loading ["include /k"]%string = Err e /\ e = EFile (lit "/k")).
Proof. repeat split; (eexists; split; [vm_compute; reflexivity|reflexivity]). Qed.

(** ** C104 *)

(** An account that is said not to be defined is used, and not defined above. *)
Theorem C104_undefined_partial : forall fuel today j w n, proper w ->
  from_file fuel today j w = Err (EValidation (UndefinedAccount n)) -> undefined_use w j n.
Proof.
  intros fuel td j w n Pr E. unfold from_file in E.
  assert (dirs w (cwd w) = true) as D by apply Pr.
  pose proof (load_unused w j td fuel j (new_ledger j, w) (same_disk_refl w) D (journal_main w j)) as H. rewrite E in H. exact (H n eq_refl).
Qed.
Print Assumptions C104_undefined_partial.

(** It may be defined below, though the message says that it is not defined in
    the journal; and a journal may be said to be all valid when a later part of
    it is not. *)
Definition late : list string := ["account a"; "2024/01/02 * x"; "  a 1"; "  b"; "account b"]%string.
Definition broken : list string := ["account a"; "account b"; "2024/01/02 * x"; "  a 1 USD"; "  a 2"; "  b"]%string.
Theorem C104_defined_refuted : exists w n c, proper w
  /\ from_file 3 today (lit "/j") w = Err (EValidation (UndefinedAccount n))
  /\ stands_in w (lit "/j") c /\ defines c n.
Proof.
  exists (one_file late), (lit "b"), (lit "account b"). split; [apply world_of_proper; vm_compute; reflexivity|].
  split; [vm_compute; reflexivity|]. split.
  - exists j, (text late), (cut [] (contents (lines (text late)))). split; [apply (journal_main (one_file late) (lit "/j"))|].
    split; [vm_compute; reflexivity|]. split; [apply cut_chunks|]. vm_compute. tauto.
  - split; [reflexivity|]. exists (lit "account b"), [], (lit "account"). split; vm_compute; reflexivity.
Qed.
Print Assumptions C104_defined_refuted.
Theorem C104_valid_refuted : exists w p r c, proper w
  /\ from_file 3 today (lit "/j") w = Err (EProcessing p)
  /\ Errors.display (fun _ => []) (EProcessing p) = lit "looks like your journal is all valid" ++ r
  /\ stands_in w (lit "/j") c /\ keyword c "account" /\ forall d fmt a, parse_account c d fmt <> Ok a.
Proof.
  set (ls := broken ++ ["account c d"]%string). exists (one_file ls).
  destruct (from_file 3 today (lit "/j") (one_file ls)) as [| [| |p| |] | |] eqn:E; try (vm_compute in E; discriminate).
  exists p, (skipn 36 (Errors.display (fun _ => []) (EProcessing p))), (lit "account c d").
  split; [apply world_of_proper; vm_compute; reflexivity|]. split; [reflexivity|]. split.
  { vm_compute in E. injection E as <-. vm_compute. reflexivity. }
  split; [|split; [reflexivity|intros d fmt a; vm_compute; discriminate]].
  exists j, (text ls), (cut [] (contents (lines (text ls)))). split; [apply (journal_main (one_file ls) (lit "/j"))|].
  split; [vm_compute; reflexivity|]. split; [apply cut_chunks|]. vm_compute. tauto.
Qed.
Print Assumptions C104_valid_refuted.
Example C104_case :
  loading ["account a"; "account c"; "2024/01/02 * x"; "  a 1"; "  b ; but c"]%string = Err (EValidation (UndefinedAccount (lit "b")))
  /\ loading late = Err (EValidation (UndefinedAccount (lit "b"))).
Proof. vm_compute. split; reflexivity. Qed.

(** ** C105 *)

(** A journal that cannot be loaded gives the same error, or crash, whatever is
    written below. *)
Theorem C105_continued : forall fuel today w w' j t2, proper w -> not_circular w j -> continued w w' j t2 -> flush t2 ->
  (forall s, from_file fuel today j w <> Ok s) -> fails (from_file fuel today j w) (from_file fuel today j w').
Proof.
  intros fuel td w w' j t2 Pr Nc (t & F & F' & Ef & Ed & Ec) Fl N. unfold from_file in *. destruct fuel as [|k]; [reflexivity|].
  cbn [add_from_file fst snd] in *. unfold read_file in *. rewrite !resolve_located in *. rewrite Ec, F' in *. rewrite F in *. cbn [bind] in *.
  assert (level w w' w w') as L0.
  { split; [apply same_disk_refl|]. split; [apply same_disk_refl|]. split; [exact Ec|apply Pr]. }
  pose proof (level_chdir w w' Ed j w w' L0) as Lc. destruct (chdir_parent w j) as [v| | |] eqn:Ev.
  2-4: rewrite Lc; unfold chdir_parent in Ev; cbv zeta in Ev; destruct (components j); [|destruct (_ && _)]; congruence || reflexivity.
  destruct Lc as (v' & -> & Lv). cbn [bind] in *.
  rewrite (C101_parts td _ t t2 _ Fl).
  assert (level_res w w' (add_from_str td (add_from_file k td) t (new_ledger j, v)) (add_from_str td (add_from_file k td) t (new_ledger j, v'))) as H.
  { destruct (cut_up_total t) as (cs & Cs). rewrite !(add_from_str_chunks _ _ _ _ _ Cs). apply level_fold; [|split; [reflexivity|exact Lv]].
    intros u u' c Ic Lu. apply level_chunk; [|exact Lu]. intros f z z' K V Lz.
    assert (includes t f) as Inc by (exists cs, c; auto). assert (dirs w (cwd (snd z)) = true) as Dz by apply Lz.
    apply (level_load w w' j td Ef Ed Nc k); [exact Lz| |].
    - exact (journal_include w j _ t f _ (journal_main w j) F Inc Dz).
    - exact (Nc _ t f _ (journal_main w j) F Inc Dz). }
  destruct (add_from_str td (add_from_file k td) t (new_ledger j, v)) as [s| | |]; [destruct (N s eq_refl)|..]; cbn in H |- *; rewrite H; reflexivity.
Qed.
Print Assumptions C105_continued.

(** So if a journal can be loaded, it can be loaded up to any line that is not
    indented. *)
Theorem C105_prefix : forall fuel today w w' j t2 s, proper w -> not_circular w j -> continued w w' j t2 -> flush t2 ->
  from_file fuel today j w' = Ok s -> exists s', from_file fuel today j w = Ok s'.
Proof.
  intros fuel td w w' j t2 s Pr Nc Co Fl E. destruct (from_file fuel td j w) as [s'| | |] eqn:E'; [eauto|exfalso..];
    assert (H := C105_continued fuel td w w' j t2 Pr Nc Co Fl ltac:(intros s' Q; rewrite E' in Q; discriminate)); rewrite E' in H; cbn in H; congruence.
Qed.
Print Assumptions C105_prefix.
Example C105_case :
  let w := one_file ["account a"; "2024/01/02 * x"; "  a 1"; "  b"]%string in let w' := one_file late in
  proper w /\ not_circular w (lit "/j") /\ continued w w' (lit "/j") (lit "account b") /\ flush (lit "account b")
  /\ from_file 3 today (lit "/j") w = Err (EValidation (UndefinedAccount (lit "b")))
  /\ from_file 3 today (lit "/j") w' = Err (EValidation (UndefinedAccount (lit "b"))).
Proof.
  cbv zeta. split; [apply world_of_proper; vm_compute; reflexivity|]. split.
  { intros q t f d _ F I. apply one_file_only in F. subst t. apply includes_included in I. vm_compute in I. destruct I. }
  split; [|split; [vm_compute; intros (c & r & Q & W); injection Q as <- <-; discriminate|split; vm_compute; reflexivity]].
  exists (text ["account a"; "2024/01/02 * x"; "  a 1"; "  b"]%string). split; [vm_compute; reflexivity|]. split; [vm_compute; reflexivity|].
  split; [|split; reflexivity]. intros q N. unfold one_file, world_of. cbn [files find fst]. destruct (path_eqb j q) eqn:E; [|reflexivity].
  apply path_eqb_eq in E. destruct N. subst q. vm_compute. reflexivity.
Qed.
