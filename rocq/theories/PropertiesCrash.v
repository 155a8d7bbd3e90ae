(** Property C89: runs that do not crash. *)
From Coq Require Import ZArith NArith List Bool String Permutation Lia.
From Verif Require SpecRun PropertiesRun.
From Verif Require Import Base Str F64 Date Amount Posting Entry Envelope Account World Register Ledger Importer Cli
  SpecAmount SpecDate SpecEntry SpecEnvelope SpecLedger SpecRegister SpecImport SpecCli SpecCrash StrFacts AmountFacts EntryFacts DateFormat
  EnvelopeFacts AccountFacts LedgerFacts LoadFacts IncludeFacts RegisterFacts RunFacts ImportFacts ExpandFacts CrashFacts CrashImport PropertiesLedger PropertiesImport PropertiesCli.
Import ListNotations.
Local Open Scope Z_scope.

(** ** C89 *)
Theorem C89_partial : forall x args w, proper w -> min_year + 3 < year (x_today x) < max_year -> sound_run x args w ->
  o_res (main x args w) <> Panic.
Proof.
  intros x args w Pr (T0 & T) Sr. unfold main. destruct (parse_args args) as [[f| | |]|] eqn:E; try discriminate.
  2: { pose proof (C61_rejected args) as R. rewrite E in R. contradiction. }
  unfold execute. destruct (journal_path x f) as [p|] eqn:Ej; [|discriminate]. destruct (Sr f p E Ej) as (Sj & Ty & Si).
  assert (good_state w p (new_ledger p, w)) as G0.
  { split; [|split; [apply same_disk_refl|exact (proj1 (proj2 Pr))]]. split.
    - reflexivity.
    - split; [constructor|discriminate].
    - apply printable_iff. reflexivity.
    - intros k a [].
    - intros e q []. }
  pose proof (load_fine (x_today x) T T0 w p Pr Sj (x_fuel x) p _ G0 (journal_main _ _)) as G. unfold from_file.
  destruct (add_from_file (x_fuel x) (x_today x) p (new_ledger p, w)) as [(l & w1)| | |]; try discriminate; [|contradiction].
  destruct G as (G & (Df & Dd) & Dc). cbn [fst snd] in G, Df, Dd, Dc.
  assert (forall l' w', good_ledger w p l' -> (forall q, dirs w' q = dirs w q) -> dirs w (cwd w') = true ->
            (forall q, (forall d, dirs w d = true -> q <> located d p) -> files w' q = files w q) -> o_res (run_command x f l' w') <> Panic) as K.
  { intros l' w' G' Wd Wc Wf. assert (f_cmd f = Import \/ f_cmd f <> Import) as [Ei|Ni] by (destruct (f_cmd f); auto; right; discriminate).
    - unfold run_command. rewrite Ei. destruct (f_csv f) as [c|] eqn:Ec; [|discriminate]. unfold done. cbn [o_res].
      pose proof (import_safe (x_today x) T0 T w p Sj x c (rules_for f c) (Si c Ei eq_refl) w' Wc Wf l' (f_rules f) (good_ready _ _ _ G') eq_refl) as N.
      destruct (snd (import_csv _ _ _ _ _ _ _ _ _)); cbn; congruence.
    - apply (command_fine (x_today x) T w p); auto. }
  destruct (f_no_move f); [apply K; auto|].
  pose proof (fill_fine (x_today x) T T0 w p Sj l w1 G) as G2. pose proof (fill_elsewhere (x_today x) l w1) as (Wd & Wc & Wf).
  destruct (fill_envelopes (x_today x) l w1) as [w2 [l2| | |]]; cbn [snd fst] in *; try discriminate; [|contradiction].
  apply K; [exact G2|intro q; rewrite Wd; apply Dd|rewrite Wc; exact Dc|].
  intros q N. rewrite Wf; [apply Df|]. rewrite (g_path _ _ _ G). apply N. exact Dc.
Qed.
Print Assumptions C89_partial.

(** Journals and imports that crash, one for each condition. *)
Definition import_of (ls rs fields : list string) : res unit :=
  o_res (main (ctx [] (fun _ => [Some (rec_of fields)])) (map lit ["i"; "-f"; "/j"; "--csv"; "/c"]%string)
    (world_of [([lit "j"], text ls); ([lit "c"], []); ([lit "c.rules"], text ("fields date, description, amount" :: "skip 0" :: rs)%string)] [[]] [])).
Definition crash_of (ls : list string) : res unit :=
  o_res (main (ctx [] (fun _ => [])) (map lit ["r"; "-f"; "/j"]%string) (world_of [([lit "j"], text ls)] [[]] [])).
Theorem C89_crashes :
  (* an indented comment *)
  crash_of ["account a"; " expense x due every 15th"; "  ; monthly"; "  amount 10"]%string = Panic
  (* an invalid date format *)
  /\ crash_of ["account assets:a"; "account b"; "2024/02/03 * one"; " assets:a 7"; " b"; "date_format %Q"]%string = Panic
  (* an entry without status *)
  /\ crash_of ["account a"; "2024/02/03"; " a 7"]%string = Panic
  (* a closing bracket before an opening one *)
  /\ crash_of ["account a"; "2024/02/03 * one ] [ two"; " a 7"]%string = Panic
  (* a day that not every month has *)
  /\ crash_of ["account a"; " expense x due every 31st"; " amount 10"; "2024/02/03 * one"; " envelope a x 1"]%string = Panic
  (* an entry of one blank posting *)
  /\ crash_of ["account a"; "2024/02/03 * one"; " a"]%string = Panic
  (* an envelope posting in another currency *)
  /\ crash_of ["account a"; " expense x due every 15th"; " amount $10"; "2024/02/03 * one"; " envelope a x 1"]%string = Panic
  (* a native envelope and a linked account with a price *)
  /\ crash_of ["account a"; " expense x due every 15th"; "  amount 10"; "  for b"; "account b"; "2024/02/03 * one"; " a -1"; " b $2 @ 3"]%string = Panic
  (* two envelopes of one name in different currencies *)
  /\ crash_of ["account a"; " expense x due every 15th"; "  amount 10"; "  funding aggressive"; " goal x by 2024/06/01"; "  amount $10"; "account b";
               "2023/02/03 * one"; " a 100"; " b"]%string = Panic
  (* a rule with a letter outside ASCII in its name *)
  /\ o_res (main (ctx [] (fun _ => [])) (map lit ["i"; "-f"; "/j"; "--csv"; "/c"]%string)
      (world_of [([lit "j"], []); ([lit "c"], []); ([lit "c.rules"], 116%N :: 233%N :: lit " x")] [[]] [])) = Panic
  (* no decimal symbol *)
  /\ import_of ["account a"]%string ["account a"; "decimal "]%string ["2024/02/03"; "one"; "7"]%string = Panic
  (* only blank postings *)
  /\ import_of ["account a"; "account b"]%string ["account1 a"; "account2 b"; "amount x"]%string ["2024/02/03"; "one"; "7"]%string = Panic
  (* an imported price for a native envelope *)
  /\ import_of ["account a"; " expense x due every 15th"; "  amount 10"; "  for b"; "account b"]%string
       ["account1 a"; "account2 b"; "amount1 -1"; "amount2 %amount%"]%string ["2024/02/03"; "one"; "$2 @ 3"]%string = Panic.
Proof. vm_compute. repeat split. Qed.
Print Assumptions C89_crashes.

Theorem C89_refuted : exists x args w, proper w /\ min_year + 3 < year (x_today x) < max_year /\ x_tty x = true
  /\ o_res (main x args w) = Panic.
Proof.
  exists (ctx [] (fun _ => [])), (map lit ["r"; "-f"; "/j"]%string),
    (world_of [([lit "j"], text ["account a"; "2024/02/03 * one"; " a"]%string)] [[]] []).
  split; [apply world_of_proper; reflexivity|]. split; [split; reflexivity|]. split; [reflexivity|vm_compute; reflexivity].
Qed.
Print Assumptions C89_refuted.

(** Whatever the journal, the register cannot be shown without a terminal, as
    when the output goes to a file: the program crashes, with the moves
    already in the journal. *)
Theorem C89_no_terminal : forall x args f w l w', parse_args args = Some (Ok f) -> f_cmd f = CmdRegister ->
  SpecRun.ready x f w l w' -> x_tty x = false -> main x args w = mkOutcome w' [] Panic.
Proof.
  intros x args f w l w' P C R T. unfold main. rewrite P, (PropertiesRun.ready_run x f w l w' R). unfold run_command, show_register, register_display.
  rewrite C, T. reflexivity.
Qed.
Print Assumptions C89_no_terminal.

(** A journal that is sound. *)
Definition fine_text : str := text
  ["date_format %d.%m.%Y"; "account a ; main"; "  expense x due every 15th"; "    amount $10"; "    funding aggressive"; "account b"; "";
   "03.02.2024 * one [shop]"; "  a $7"; "  b"; "04.02.2024 ~ two"; "  envelope a x $2"]%string.
Definition fine_rules : str := text ["fields date, description, amount"; "date_format %d.%m.%Y"; "skip 0"; "account a // main"; "if tea"; " account c"]%string.
Definition fine_world : world := world_of [([lit "j"], fine_text); ([lit "c"], []); ([lit "c.rules"], fine_rules)] [[]] [].
Definition fine_context : context := ctx [] (fun _ => [Some (rec_of ["05.02.2024"; "three"; "$3"]%string)]).
Lemma posting_any l d names p other : parse_posting l d names = Ok p ->
  parse_posting l d other = Ok p \/ exists n, parse_posting l d other = Err (EValidation (UndefinedAccount n)).
Proof.
  unfold parse_posting. destruct (split_ws _) as [|t ts]; [discriminate|]. destruct (str_eqb t _); [auto|].
  intro H. apply bind_Ok in H as (c & Hc & H). injection H as <-. unfold parse_classic in *. destruct (split_ws _) as [|n toks]; [discriminate|].
  apply bind_Ok in Hc as (a & -> & Hc). cbn [bind]. apply bind_Ok in Hc as (b & -> & Hc). cbn [bind].
  apply bind_Ok in Hc as (q & -> & Hc). cbn [bind]. apply bind_Ok in Hc as (r & -> & Hc). cbn [bind].
  destruct (mem n names); [|discriminate]. injection Hc as <-. destruct (mem n other); [left; reflexivity|right; eexists; reflexivity].
Qed.
Lemma postings_any d ls names ps other qs : Forall2 (fun l p => parse_posting l d names = Ok p) ls ps ->
  Forall2 (fun l p => parse_posting l d other = Ok p) ls qs -> ps = qs.
Proof.
  intro F. revert qs. induction F as [|l p ls ps E F IH]; intros qs G; inversion G as [|? q ? qs' Eq Gs]; subst; [reflexivity|].
  f_equal; [|apply IH; exact Gs]. destruct (posting_any _ _ _ _ other E) as [Q|(n & Q)]; congruence.
Qed.
Definition fine_chunks : list str := map text
  [[]; ["date_format %d.%m.%Y"]; ["account a "; "  expense x due every 15th"; "    amount $10"; "    funding aggressive"]; ["account b"];
   ["03.02.2024 * one [shop]"; "  a $7"; "  b"]; ["04.02.2024 ~ two"; "  envelope a x $2"]]%string.
Lemma fine_cut : cut_up fine_text fine_chunks.
Proof.
  unfold cut_up. assert (contents (lines fine_text) = map lit ["date_format %d.%m.%Y"; "account a "; "  expense x due every 15th"; "    amount $10"; "    funding aggressive"; "account b";
   "03.02.2024 * one [shop]"; "  a $7"; "  b"; "04.02.2024 ~ two"; "  envelope a x $2"]%string) as -> by (vm_compute; reflexivity).
  unfold fine_chunks. cbn [map].
  repeat first [ apply chunks_new; [intros (c & r & E & W); injection E as <- _; discriminate|]
               | apply chunks_more; [eexists _, _; split; reflexivity|] | apply chunks_nil ].
Qed.
Lemma fine_file p : files fine_world p = if path_eqb [lit "j"] p then Some fine_text
  else if path_eqb [lit "c"] p then Some [] else if path_eqb [lit "c.rules"] p then Some fine_rules else None.
Proof. unfold fine_world, world_of. cbn [files List.find fst]. repeat (destruct (path_eqb _ p); [reflexivity|]). reflexivity. Qed.
Lemma fine_dir d : dirs fine_world d = true -> d = [].
Proof. unfold fine_world, world_of. cbn [dirs existsb]. rewrite orb_false_r. intro E. apply path_eqb_eq in E. exact E. Qed.
Lemma fine_journal p : journal_file fine_world (lit "/j") p -> p = [lit "j"].
Proof.
  intro H. induction H as [|q t f d H IH F (cs & c & C & Ic & K & V) D]; [vm_compute; reflexivity|]. exfalso. subst q.
  rewrite fine_file in F. injection F as <-. rewrite (chunks_unique _ _ _ _ C fine_cut) in Ic.
  repeat (destruct Ic as [<-|Ic]; [vm_compute in K; discriminate|]). destruct Ic.
Qed.
Lemma fine_stands c : stands_in fine_world (lit "/j") c -> In c fine_chunks.
Proof.
  intros (p & t & cs & J & F & C & I). apply fine_journal in J as ->. rewrite fine_file in F. injection F as <-.
  rewrite (chunks_unique _ _ _ _ C fine_cut) in I. exact I.
Qed.
Definition fine_account (n : nat) : account :=
  match parse_account (nth n fine_chunks []) 46%N [] with Ok a => a | _ => mkAccount [] [] [] [] end.
Definition fine_postings (n : nat) : list posting :=
  match parse_postings (tl (lines (nth n fine_chunks []))) 46%N (map lit ["a"; "b"]%string) with Ok ps => ps | _ => [] end.
Lemma fine_defined c fmt a : stands_in fine_world (lit "/j") c -> keyword c "account" -> parse_account c 46%N fmt = Ok a ->
  a = fine_account 2 \/ a = fine_account 3.
Proof.
  intros Sc K E. apply fine_stands in Sc.
  repeat (destruct Sc as [<-|Sc]; [vm_compute in K; first [discriminate|idtac]|]); [..|destruct Sc].
  - left. vm_compute in E. injection E as <-. vm_compute. reflexivity.
  - right. vm_compute in E. injection E as <-. vm_compute. reflexivity.
Qed.
Lemma fine_recorded e : recorded_in fine_world (lit "/j") e -> e_postings e = fine_postings 4 \/ e_postings e = fine_postings 5.
Proof.
  intros (c & fmt & names & Sc & Nd & E). apply fine_stands in Sc. apply parse_entry_Ok in E as (h & ls & El & _ & _ & F & _).
  repeat (destruct Sc as [<-|Sc]; [first [exfalso; apply Nd; unfold directive; vm_compute; tauto | vm_compute in El; first [discriminate|injection El as <- <-]]|]); [..|destruct Sc].
  - left. apply (postings_any _ _ _ _ (map lit ["a"; "b"]%string) _ F). apply parse_postings_Ok. vm_compute. reflexivity.
  - right. apply (postings_any _ _ _ _ (map lit ["a"; "b"]%string) _ F). apply parse_postings_Ok. vm_compute. reflexivity.
Qed.
Lemma fine_sound : sound_journal fine_world (lit "/j").
Proof.
  split.
  - intros p t l J F I B. apply fine_journal in J as ->. rewrite fine_file in F. injection F as <-.
    apply all_ws_blank in B. assert (forallb (fun l => negb (forallb is_ws l)) (contents (lines fine_text)) = true) as K by (vm_compute; reflexivity).
    rewrite forallb_forall in K. specialize (K l I). unfold all_ws in B. rewrite B in K. discriminate.
  - intros c f Sc K V. apply fine_stands in Sc. apply printable_iff.
    repeat (destruct Sc as [<-|Sc]; [vm_compute in K; first [discriminate|vm_compute in V; injection V as <-; reflexivity]|]). destruct Sc.
  - intros c h ls Sc Nd E. apply fine_stands in Sc.
    repeat (destruct Sc as [<-|Sc]; [first [exfalso; apply Nd; unfold directive; vm_compute; tauto | idtac]|]); [..|destruct Sc].
    all: vm_compute in E; first [discriminate|injection E as <- _]; eexists _, _, _; (split; [vm_compute; reflexivity|]).
    all: intro R; apply (split_payee_Panic []) in R; vm_compute in R; discriminate.
  - intros a (c & fmt & Sc & K & E). apply fine_defined in E; [|exact Sc|exact K].
    intros v Iv. assert (all_envelopes a = [] \/ exists u, all_envelopes a = [u] /\ steady (v_freq u)) as [Q|(u & Q & S)].
    { destruct E as [-> | ->]; vm_compute; [right|left; reflexivity]. eexists. split; [reflexivity|]. cbn. split; discriminate. }
    + rewrite Q in Iv. destruct Iv.
    + rewrite Q in *. destruct Iv as [<-|[]]. split; [exact S|]. intros u' [<-|[]] _. reflexivity.
  - intros e p R E B. destruct (fine_recorded e R) as [Q|Q]; rewrite E in Q; [discriminate|].
    injection Q as ->. discriminate.
  - intros a v e (c & fmt & Sc & K & E) Iv R. apply fine_defined in E; [|exact Sc|exact K].
    assert (v_account v = lit "a" /\ v_name v = lit "x" /\ symbol (v_amount v) = Some (lit "$")) as (Q1 & Q2 & Q3).
    { destruct E as [-> | ->]; [|destruct Iv]. destruct Iv as [<-|[]]. vm_compute. auto. }
    split.
    + intros M am Ia. rewrite Q3. destruct (fine_recorded e R) as [Q|Q]; rewrite Q in Ia.
      * destruct Ia as [Ia|[Ia|[]]]; discriminate.
      * destruct Ia as [Ia|[]]. injection Ia as _ _ <-. vm_compute. reflexivity.
    + intros _ N. congruence.
Qed.

(** An import that is sound. *)
Lemma records_any lower ord rs rec names other e e' : import_record lower ord rs names rec = Ok e ->
  import_record lower ord rs other rec = Ok e' -> e = e'.
Proof.
  unfold import_record, entry_of_record. intros H H'. apply bind_Ok in H as (vars & E & H). rewrite E in H'. cbn [bind] in H'.
  apply bind_Ok in H as (d & E2 & H). rewrite E2 in H'. cbn [bind] in H'. apply bind_Ok in H as (st & E3 & H). rewrite E3 in H'. cbn [bind] in H'.
  apply bind_Ok in H as (ps & E4 & H). apply bind_Ok in H' as (qs & E5 & H').
  assert (ps = qs) as <-; [|congruence]. clear H H'. revert ps qs E4 E5. generalize (ord (accounts_or_default (select_rules lower rec rs))) as l.
  induction l as [|ka l IH]; intros ps qs Ep Eq; [injection Ep as <-; injection Eq as <-; reflexivity|]. cbn [map_res] in Ep, Eq.
  apply bind_Ok in Ep as (p & Hp & Ep). apply bind_Ok in Ep as (ps' & Hps & Ep). injection Ep as <-.
  apply bind_Ok in Eq as (q & Hq & Eq). apply bind_Ok in Eq as (qs' & Hqs & Eq). injection Eq as <-.
  f_equal; [|exact (IH _ _ Hps Hqs)]. unfold import_posting in Hp, Hq. destruct (posting_any _ _ _ _ other Hp) as [Q|(n0 & Q)]; congruence.
Qed.
Lemma fine_imported e : imported fine_context fine_world (lit "/c") (lit "/c.rules") e ->
  exists p q, e_postings e = [Classic p; Classic q] /\ c_amount p <> None.
Proof.
  intros (d & tr & tc & rs & names & rec & D & Fr & Fc & Pr & Ir & E). apply fine_dir in D as ->.
  assert (tr = fine_rules) as -> by (vm_compute in Fr; injection Fr as <-; reflexivity).
  assert (tc = []) as -> by (vm_compute in Fc; injection Fc as <-; reflexivity).
  destruct Ir as [Ir|[]]. injection Ir as <-.
  assert (exists e', import_record low as_is rs (map lit ["a"; "c"]%string) (rec_of ["05.02.2024"; "three"; "$3"]%string) = Ok e'
            /\ exists p q, e_postings e' = [Classic p; Classic q] /\ c_amount p <> None) as (e' & E' & K).
  { vm_compute in Pr. injection Pr as <-. eexists. split; [vm_compute; reflexivity|]. eexists _, _. split; [reflexivity|discriminate]. }
  rewrite (records_any _ _ _ _ _ _ _ _ E E'). exact K.
Qed.
Lemma fine_rule_lines : rule_lines fine_rules = map lit
  ["fields date, description, amount"; "date_format %d.%m.%Y"; "skip 0"; "account a "; "if tea"; " account c"]%string.
Proof. vm_compute. reflexivity. Qed.
Definition fine_items : list item :=
  map (fun s => Root (lit s)) ["fields date, description, amount"; "date_format %d.%m.%Y"; "skip 0"; "account a "]%string
  ++ [Block (lit "if tea") [] [lit " account c"]].
Lemma fine_layout : layout (rule_lines fine_rules) fine_items.
Proof.
  rewrite fine_rule_lines. unfold fine_items. cbn [map app].
  do 4 (apply layout_root; [intro B; apply starts_block_iff in B; vm_compute in B; discriminate|]).
  apply (layout_block (lit "if tea") [] [lit " account c"] [] []).
  - apply starts_block_iff. vm_compute. reflexivity.
  - constructor.
  - constructor; [eexists _, _; split; reflexivity|constructor].
  - reflexivity.
  - discriminate.
  - constructor.
Qed.
Lemma fine_includes l f : ruled fine_items l -> ~ includes_file l f.
Proof.
  intros R If. apply includes_file_rules in If as (k & Hk & Q).
  destruct R as [R|(h & ps & rs & R & Il)].
  - repeat (destruct R as [R|R]; [first [discriminate|injection R as <-; vm_compute in Hk; injection Hk as <-; destruct Q; discriminate]|]). destruct R.
  - repeat (destruct R as [R|R]; [first [discriminate|injection R as <- <- <-; destruct Il as [<-|[]]; vm_compute in Hk; injection Hk as <-; destruct Q; discriminate]|]). destruct R.
Qed.
Lemma fine_rules_file d p : rules_file fine_world d (lit "/c.rules") p -> p = [lit "c.rules"].
Proof.
  intro H. induction H as [|q t is l f H IH F L R If]; [vm_compute; reflexivity|]. exfalso. subst q. rewrite fine_file in F. injection F as <-.
  rewrite (layout_unique _ _ L _ fine_layout) in R. exact (fine_includes l f R If).
Qed.
Lemma fine_rule a k c b : forallb is_ws a = true -> k <> [] -> forallb (fun c => negb (is_ws c) && (c <? 128)%N) k = true -> is_ws c = true ->
  (c < 128)%N -> k <> lit "decimal" -> k <> lit "decimal_symbol" -> good_rule (a ++ k ++ c :: b).
Proof.
  intros Fa Nk Fk Hc Ac N1 N2. apply rule_value; [apply all_ws_blank; exact Fa|exact Nk| |exact Hc|exact Ac|intros [Q|Q]; contradiction].
  rewrite forallb_forall in Fk. apply Forall_forall. intros x Ix. specialize (Fk x Ix). apply andb_true_iff in Fk as (F1 & F2).
  split; [intro B; apply ws_blank in B; rewrite B in F1; discriminate|apply N.ltb_lt; exact F2].
Qed.
Example C89_import : sound_import fine_context fine_world (lit "/j") (lit "/c") (lit "/c.rules").
Proof.
  split.
  - intros d q t is i D R F L Ii. apply fine_rules_file in R as ->. rewrite fine_file in F. injection F as <-.
    rewrite (layout_unique _ _ L _ fine_layout) in Ii. destruct Ii as [<-|[<-|[<-|[<-|[<-|[]]]]]].
    + apply (fine_rule [] (lit "fields")); try reflexivity; discriminate.
    + apply (fine_rule [] (lit "date_format")); try reflexivity; discriminate.
    + apply (fine_rule [] (lit "skip")); try reflexivity; discriminate.
    + apply (fine_rule [] (lit "account")); try reflexivity; discriminate.
    + split.
      * exists [lit "tea"]. apply (first_some (lit "if")); [|reflexivity|reflexivity].
        repeat constructor; intro B; discriminate.
      * constructor; [|constructor]. apply (fine_rule (lit " ") (lit "account")); try reflexivity; discriminate.
  - intros d q d' D D' R E. apply fine_dir in D' as ->. assert (q = [lit "j"]) as -> by (rewrite E; vm_compute; reflexivity).
    destruct R as [R|R]; [apply fine_rules_file in R; discriminate|]. apply fine_dir in D as ->. vm_compute in R. discriminate.
  - intros e Ie. destruct (fine_imported e Ie) as (p & q & -> & N). exists (Classic p). split; [left; reflexivity|exact N].
  - intros a v e (c & fmt & Sc & K & E) Iv Ie. apply fine_defined in E; [|exact Sc|exact K].
    assert (symbol (v_amount v) = Some (lit "$")) as Q3.
    { destruct E as [-> | ->]; [|destruct Iv]. destruct Iv as [<-|[]]. vm_compute. reflexivity. }
    destruct (fine_imported e Ie) as (p & q & Ep & _). split.
    + intros _ am Ia. rewrite Ep in Ia. destruct Ia as [Ia|[Ia|[]]]; discriminate.
    + intros _ N. congruence.
Qed.
Definition fine_run (args : list string) : outcome := main fine_context (map lit args) fine_world.
Example C89_case : sound_run fine_context (map lit ["i"; "-f"; "/j"; "--csv"; "/c"]%string) fine_world
  /\ o_res (fine_run ["e"; "-f"; "/j"]%string) = Ok tt
  /\ o_res (fine_run ["i"; "-f"; "/j"; "--csv"; "/c"]%string) = Ok tt
  /\ option_map (fun t => skipn 15 (lines t)) (files (o_world (fine_run ["i"; "-f"; "/j"; "--csv"; "/c"]%string)) [lit "j"])
     = Some (map lit ["05.02.2024 ~ three"; "    a                                                  $ 3";
                      "    income:unknown                                     "]%string).
Proof.
  split; [|vm_compute; repeat split].
  intros f j E Ej. vm_compute in E. injection E as <-. vm_compute in Ej. injection Ej as <-.
  split; [exact fine_sound|]. split; [discriminate|]. intros c _ Ec. vm_compute in Ec. injection Ec as <-. exact C89_import.
Qed.
