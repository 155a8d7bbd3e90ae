(** Properties C32, C61, C62, C68 and C69: the command line. *)
From Coq Require Import ZArith NArith List Bool String Permutation Lia.
From Verif Require Import Base Str F64 Date Amount Posting Entry Envelope Account World Register Ledger Importer Cli
  SpecAmount SpecDate SpecEntry SpecEnvelope SpecLedger SpecRegister SpecImport SpecCli StrFacts AmountFacts EntryFacts
  EnvelopeFacts AccountFacts LedgerFacts LoadFacts IncludeFacts RegisterFacts ImportFacts ExpandFacts RunFacts PropertiesLedger PropertiesImport.
Import ListNotations.
Local Open Scope Z_scope.

(** ** C61 *)
Lemma command_letter a c : parse_subcommand a = Ok c <-> named_command a c.
Proof.
  unfold named_command. split.
  - destruct a as [|x a]; [discriminate|]. unfold parse_subcommand.
    repeat match goal with |- context[N.eqb x ?k] => destruct (N.eqb_spec x k) as [-> |] end; intro H; try discriminate; injection H as <-.
    + exists "s"%string, a. split; [cbn; tauto|reflexivity].
    + exists "b"%string, a. split; [cbn; tauto|reflexivity].
    + exists "e"%string, a. split; [cbn; tauto|reflexivity].
    + exists "r"%string, a. split; [cbn; tauto|reflexivity].
    + exists "i"%string, a. split; [cbn; tauto|reflexivity].
    + exists "n"%string, a. split; [cbn; tauto|reflexivity].
  - intros (k & rest & I & ->). cbn in I.
    repeat (destruct I as [I|I]; [injection I as <- <-; reflexivity|]). destruct I.
Qed.
Lemma command_fails a : (forall c, ~ named_command a c) -> parse_subcommand a = Err (EBasic (UnknownCommand a)).
Proof.
  intro N. destruct (parse_subcommand a) as [c| | |] eqn:E.
  - exfalso. apply (N c). apply command_letter, E.
  - destruct a as [|x a]; cbn in E; [congruence|]. repeat destruct (N.eqb x _); congruence.
  - destruct a as [|x a]; cbn in E; [congruence|]. repeat destruct (N.eqb x _); congruence.
  - destruct a as [|x a]; cbn in E; [congruence|]. repeat destruct (N.eqb x _); congruence.
Qed.

Lemma is_name_iff s l : is_name s l = true <-> exists n, In n l /\ s = lit n.
Proof.
  unfold is_name. rewrite existsb_exists. split; intros (n & I & H); exists n; (split; [exact I|]); apply str_eqb_eq; assumption.
Qed.

Definition after (gs : list flag) (f : flags) : flags :=
  fold_left (fun f g => match g with
    | NoMove => mkFlags (f_file f) (f_cmd f) true (f_csv f) (f_rules f) (f_begin f) (f_end f)
    | JournalIs v => mkFlags (Some v) (f_cmd f) (f_no_move f) (f_csv f) (f_rules f) (f_begin f) (f_end f)
    | CsvIs v => mkFlags (f_file f) (f_cmd f) (f_no_move f) (Some v) (f_rules f) (f_begin f) (f_end f)
    | RulesIs v => mkFlags (f_file f) (f_cmd f) (f_no_move f) (f_csv f) (Some v) (f_begin f) (f_end f)
    end) gs f.
Lemma written_parse gs args : written_flags gs args -> forall f, parse_flags args f = Ok (after gs f).
Proof.
  induction 1 as [|g gs a args W Ws IH]; intro f; [reflexivity|].
  destruct W as [n I|n v I|n v I|n v I]; cbn in I;
    repeat (destruct I as [<-|I]; [cbn [app]; exact (IH _)|]); destruct I.
Qed.
Lemma parse_written args : forall f f', parse_flags args f = Ok f' -> exists gs, written_flags gs args /\ f' = after gs f.
Proof.
  remember (List.length args) as n eqn:En. assert (List.length args <= n)%nat as Le by lia. clear En. revert args Le.
  induction n as [|n IH]; intros args Le f f' H.
  - destruct args; [|cbn in Le; lia]. cbn in H. injection H as <-. exists []. split; [constructor|reflexivity].
  - destruct args as [|a rest]; [cbn in H; injection H as <-; exists []; split; [constructor|reflexivity]|].
    cbn [List.length] in Le. cbn [parse_flags] in H. destruct (is_name a ["--no-move"; "-n"]%string) eqn:E1.
    + apply is_name_iff in E1 as (k & I & ->). destruct (IH rest ltac:(lia) _ _ H) as (gs & W & ->).
      exists (NoMove :: gs). split; [|reflexivity]. exact (wf_cons NoMove gs [lit k] rest (w_no_move k I) W).
    + destruct rest as [|v rest]; [discriminate|]. cbn [List.length] in Le.
      destruct (is_name a ["-f"; "--file"]%string) eqn:E2; [|destruct (is_name a ["--csv-file"; "--csv"]%string) eqn:E3;
        [|destruct (is_name a ["--rules-file"; "--rules"]%string) eqn:E4; [|discriminate]]].
      * apply is_name_iff in E2 as (k & I & ->). destruct (IH rest ltac:(lia) _ _ H) as (gs & W & ->).
        exists (JournalIs v :: gs). split; [|reflexivity]. exact (wf_cons _ gs [lit k; v] rest (w_journal k v I) W).
      * apply is_name_iff in E3 as (k & I & ->). destruct (IH rest ltac:(lia) _ _ H) as (gs & W & ->).
        exists (CsvIs v :: gs). split; [|reflexivity]. exact (wf_cons _ gs [lit k; v] rest (w_csv k v I) W).
      * apply is_name_iff in E4 as (k & I & ->). destruct (IH rest ltac:(lia) _ _ H) as (gs & W & ->).
        exists (RulesIs v :: gs). split; [|reflexivity]. exact (wf_cons _ gs [lit k; v] rest (w_rules k v I) W).
Qed.
(** The flag at which reading the arguments fails. *)
Definition wrong_flag (args : list str) (e : err) : Prop :=
  exists gs known k more, args = known ++ k :: more /\ written_flags gs known
  /\ (more = [] /\ e = EBasic (NoValue k) \/ more <> [] /\ e = EBasic (UnknownFlag k)).
Lemma wrong_flag_cons g a args e : written_flag g a -> wrong_flag args e -> wrong_flag (a ++ args) e.
Proof.
  intros W (gs & known & k & more & -> & Ws & H). exists (g :: gs), (a ++ known), k, more.
  split; [rewrite <- app_assoc; reflexivity|]. split; [constructor; assumption|exact H].
Qed.
Lemma flags_fail args : forall f, (forall f', parse_flags args f <> Ok f') -> exists e, parse_flags args f = Err e /\ wrong_flag args e.
Proof.
  remember (List.length args) as n eqn:En. assert (List.length args <= n)%nat as Le by lia. clear En. revert args Le.
  induction n as [|n IH]; intros args Le f H.
  - destruct args; [|cbn in Le; lia]. exfalso. exact (H f eq_refl).
  - destruct args as [|a rest]; [exfalso; exact (H f eq_refl)|]. cbn [List.length] in Le. cbn [parse_flags] in *.
    destruct (is_name a ["--no-move"; "-n"]%string) eqn:E1.
    { apply is_name_iff in E1 as (k & I & ->). destruct (IH rest ltac:(lia) _ H) as (e & -> & W).
      exists e. split; [reflexivity|]. exact (wrong_flag_cons NoMove [lit k] rest e (w_no_move k I) W). }
    destruct rest as [|v rest].
    { eexists. split; [reflexivity|]. exists [], [], a, []. split; [reflexivity|]. split; [constructor|]. left. auto. }
    cbn [List.length] in Le. destruct (is_name a ["-f"; "--file"]%string) eqn:E2.
    { apply is_name_iff in E2 as (k & I & ->). destruct (IH rest ltac:(lia) _ H) as (e & -> & W).
      exists e. split; [reflexivity|]. exact (wrong_flag_cons _ [lit k; v] rest e (w_journal k v I) W). }
    destruct (is_name a ["--csv-file"; "--csv"]%string) eqn:E3.
    { apply is_name_iff in E3 as (k & I & ->). destruct (IH rest ltac:(lia) _ H) as (e & -> & W).
      exists e. split; [reflexivity|]. exact (wrong_flag_cons _ [lit k; v] rest e (w_csv k v I) W). }
    destruct (is_name a ["--rules-file"; "--rules"]%string) eqn:E4.
    { apply is_name_iff in E4 as (k & I & ->). destruct (IH rest ltac:(lia) _ H) as (e & -> & W).
      exists e. split; [reflexivity|]. exact (wrong_flag_cons _ [lit k; v] rest e (w_rules k v I) W). }
    eexists. split; [reflexivity|]. exists [], [], a, (v :: rest). split; [reflexivity|]. split; [constructor|]. right. split; [discriminate|reflexivity].
Qed.

Lemma last_value_from f gs : forall acc,
  fold_left (fun acc g => match f g with Some v => Some v | None => acc end) gs acc
  = match last_value f gs with Some v => Some v | None => acc end.
Proof.
  unfold last_value. induction gs as [|g gs IH]; intro acc; [reflexivity|]. cbn [fold_left]. rewrite IH, (IH (match f g with Some v => Some v | None => None end)).
  destruct (fold_left _ gs None); [reflexivity|]. destruct (f g); reflexivity.
Qed.
Lemma after_spec gs : forall f, f_cmd (after gs f) = f_cmd f /\ f_begin (after gs f) = f_begin f /\ f_end (after gs f) = f_end f
  /\ f_file (after gs f) = (match last_value journal_value gs with Some v => Some v | None => f_file f end)
  /\ f_csv (after gs f) = (match last_value csv_value gs with Some v => Some v | None => f_csv f end)
  /\ f_rules (after gs f) = (match last_value rules_value gs with Some v => Some v | None => f_rules f end)
  /\ (f_no_move (after gs f) = true <-> In NoMove gs \/ f_no_move f = true).
Proof.
  assert (E : forall h g gs, last_value h (g :: gs) = match last_value h gs with Some v => Some v | None => h g end).
  { intros h g gs0. unfold last_value at 1. cbn [fold_left]. rewrite last_value_from. destruct (last_value h gs0); [reflexivity|]. destruct (h g); reflexivity. }
  induction gs as [|g gs IH]; intro f; [repeat split; auto; intros [[]|H]; exact H|].
  rewrite !E. change (after (g :: gs) f) with (after gs (after [g] f)).
  destruct (IH (after [g] f)) as (-> & -> & -> & -> & -> & -> & N). rewrite N. clear N.
  destruct g as [|v|v|v]; cbn; repeat split; auto;
    repeat match goal with |- context[match last_value ?h ?l with _ => _ end] => destruct (last_value h l) end; auto; try tauto; intuition (try discriminate; auto).
Qed.

Theorem C61_accepted : forall a args f, parse_args (a :: args) = Some (Ok f) <->
  exists gs, named_command a (f_cmd f) /\ written_flags gs args
    /\ f_file f = last_value journal_value gs /\ f_csv f = last_value csv_value gs /\ f_rules f = last_value rules_value gs
    /\ (f_no_move f = true <-> In NoMove gs) /\ f_begin f = None /\ f_end f = None.
Proof.
  intros a args f. cbn [parse_args]. split.
  - intro H. injection H as H. apply bind_Ok in H as (c & Hc & H). apply parse_written in H as (gs & W & ->).
    exists gs. destruct (after_spec gs (mkFlags None c false None None None None)) as (E1 & E2 & E3 & E4 & E5 & E6 & E7).
    rewrite E1, E2, E3, E4, E5, E6, E7. split; [apply command_letter, Hc|]. split; [exact W|].
    cbn. split; [destruct (last_value journal_value gs); reflexivity|]. split; [destruct (last_value csv_value gs); reflexivity|].
    split; [destruct (last_value rules_value gs); reflexivity|]. split; [|split; reflexivity].
    split; [intros [H|H]; [exact H|discriminate]|auto].
  - intros (gs & C & W & E1 & E2 & E3 & E4 & E5 & E6). f_equal. apply command_letter in C. rewrite C. cbn [bind].
    rewrite (written_parse gs args W). f_equal.
    destruct (after_spec gs (mkFlags None (f_cmd f) false None None None None)) as (A1 & A2 & A3 & A4 & A5 & A6 & A7).
    destruct (after gs (mkFlags None (f_cmd f) false None None None None)) as [b1 b2 b3 b4 b5 b6 b7]. destruct f as [c1 c2 c3 c4 c5 c6 c7].
    cbn in *. subst. f_equal; try (destruct (last_value journal_value gs); reflexivity); try (destruct (last_value csv_value gs); reflexivity);
      try (destruct (last_value rules_value gs); reflexivity).
    destruct b3, c3; try reflexivity; exfalso; intuition discriminate.
Qed.
Print Assumptions C61_accepted.

(** Everything else is an error, and without arguments the help text is shown. *)
Theorem C61_rejected : forall args, match parse_args args with
  | None => args = []
  | Some (Ok _) => True
  | Some (Err e) => exists a rest, args = a :: rest
      /\ (e = EBasic (UnknownCommand a) /\ (forall c, ~ named_command a c)
          \/ wrong_flag rest e /\ forall gs, ~ written_flags gs rest)
  | Some _ => False
  end.
Proof.
  intros [|a rest]; [reflexivity|]. cbn [parse_args].
  destruct (parse_subcommand a) as [c| | |] eqn:C.
  - cbn [bind]. set (f := mkFlags None c false None None None None).
    destruct (parse_flags rest f) as [f'| | |] eqn:P; [exact I| | |].
    + pose proof (flags_fail rest f) as X. rewrite P in X. destruct (X ltac:(discriminate)) as (e' & E' & Wf). injection E' as <-.
      exists a, rest. split; [reflexivity|]. right. split; [exact Wf|].
      intros gs W. rewrite (written_parse gs rest W f) in P. discriminate.
    + pose proof (flags_fail rest f) as X. rewrite P in X. destruct (X ltac:(discriminate)) as (e' & E' & _). discriminate.
    + pose proof (flags_fail rest f) as X. rewrite P in X. destruct (X ltac:(discriminate)) as (e' & E' & _). discriminate.
  - assert (forall c, ~ named_command a c) as N by (intros c X; apply command_letter in X; congruence).
    rewrite (command_fails a N) in C. injection C as <-. exists a, rest. auto.
  - assert (forall c, ~ named_command a c) as N by (intros c X; apply command_letter in X; congruence).
    rewrite (command_fails a N) in C. discriminate.
  - assert (forall c, ~ named_command a c) as N by (intros c X; apply command_letter in X; congruence).
    rewrite (command_fails a N) in C. discriminate.
Qed.
Print Assumptions C61_rejected.

Example C61_case :
  parse_args (map lit ["bal"; "-f"; "x"; "-n"; "--file"; "-f"]%string)
  = Some (Ok (mkFlags (Some (lit "-f")) Balance true None None None None))
  /\ parse_args (map lit ["import"; "--csv"; "a"; "--rules-file"; "b"]%string)
     = Some (Ok (mkFlags None Import false (Some (lit "a")) (Some (lit "b")) None None))
  /\ parse_args (map lit ["register"; "--csv"]%string) = Some (Err (EBasic (NoValue (lit "--csv"))))
  /\ parse_args (map lit ["Balance"]%string) = Some (Err (EBasic (UnknownCommand (lit "Balance"))))
  /\ parse_args (map lit ["balance"; "assets"; "-n"]%string) = Some (Err (EBasic (UnknownFlag (lit "assets")))).
Proof. vm_compute. repeat split; reflexivity. Qed.

(** ** C62 *)
Theorem C62_chosen : forall x f w p, chosen x f p -> execute x f w = execute x (with_file f p) w.
Proof.
  intros x f w p H. unfold execute, journal_path, with_file. cbn [f_file f_no_move].
  destruct H as [p E|p E1 E2|p E1 E2 E3]; rewrite ?E, ?E1, ?E2, ?E3; reflexivity.
Qed.
Print Assumptions C62_chosen.
(** With a path, that file is loaded first; if that fails nothing else happens. *)
Theorem C62_loaded : forall x f w p, chosen x f p -> match from_file (x_fuel x) (x_today x) p w with
  | Ok (l, w1) => f_no_move f = true -> execute x f w = run_command x f l w1
  | failure => o_world (execute x f w) = w /\ o_out (execute x f w) = [] /\ fails_as failure (o_res (execute x f w))
  end.
Proof.
  intros x f w p H. rewrite (C62_chosen x f w p H). unfold execute, journal_path, with_file. cbn [f_file f_no_move].
  destruct (from_file _ _ p w) as [(l & w1)| | |]; [intros ->; reflexivity| | |]; repeat split; reflexivity.
Qed.
Print Assumptions C62_loaded.
Theorem C62_none : forall x f w, (forall p, ~ chosen x f p) -> execute x f w = mkOutcome w [] (Err (EBasic NoJournal)).
Proof.
  intros x f w N. unfold execute, journal_path.
  destruct (f_file f) as [p|] eqn:E1; [exfalso; exact (N p (by_flag x f p E1))|].
  destruct (x_env x "SILVERFOX_FILE") as [p|] eqn:E2; [exfalso; exact (N p (by_silverfox x f p E1 E2))|].
  destruct (x_env x "LEDGER_FILE") as [p|] eqn:E3; [exfalso; exact (N p (by_ledger x f p E1 E2 E3))|]. reflexivity.
Qed.
Print Assumptions C62_none.

Definition env_of (l : list (string * string)) : string -> option str :=
  fun k => option_map (fun x => lit (snd x)) (List.find (fun x => String.eqb (fst x) k) l).
Definition ctx (env : list (string * string)) (csv : str -> list (option record)) : context :=
  mkContext today true (env_of env) low as_is csv 5.
Definition three_files : world :=
  world_of [(j, text (bank ++ ["2024/01/02 * x"; " assets:bank 1"; " income:unknown"]%string));
            ([lit "k"], text (bank ++ ["2024/01/02 * x"; " assets:bank 2"; " income:unknown"]%string));
            ([lit "m"], text (bank ++ ["2024/01/02 * x"; " assets:bank 3"; " income:unknown"]%string))] [[]] [].
Definition shown (env : list (string * string)) (args : list string) : option str :=
  let o := main (ctx env (fun _ => [])) (map lit args) three_files in
  match o_res o with Ok _ => Some (o_out o) | _ => None end.
Definition balance_text (n : string) : option str :=
  Some (o_out (main (ctx [] (fun _ => [])) (map lit ["b"; "-f"; n]%string) three_files)).
Example C62_case :
  shown [("SILVERFOX_FILE", "/j"); ("LEDGER_FILE", "/k")]%string ["b"; "-f"; "/m"]%string = balance_text "/m"
  /\ shown [("SILVERFOX_FILE", "/j"); ("LEDGER_FILE", "/k")]%string ["b"]%string = balance_text "/j"
  /\ shown [("LEDGER_FILE", "/k")]%string ["b"]%string = balance_text "/k"
  /\ shown [] ["b"]%string = None
  /\ balance_text "/j" <> balance_text "/k" /\ balance_text "/j" <> balance_text "/m".
Proof. vm_compute. repeat split; try reflexivity; discriminate. Qed.

(** ** C32 *)
Lemma from_file_disk fuel td p w l w1 : from_file fuel td p w = Ok (l, w1) -> same_disk w w1.
Proof. intro H. exact (load_disk td fuel p _ _ H). Qed.
Lemma printed_world w r : o_world (printed w r) = w.
Proof. destruct r; reflexivity. Qed.
Lemma run_world x f l w : f_cmd f <> Import -> o_world (run_command x f l w) = w.
Proof.
  intro N. unfold run_command. destruct (f_cmd f); try contradiction; try apply printed_world; reflexivity.
Qed.
Theorem C32_no_move : forall x f w, f_no_move f = true -> f_cmd f <> Import -> same_disk w (o_world (execute x f w)).
Proof.
  intros x f w N C. unfold execute. destruct (journal_path x f) as [p|]; [|apply same_disk_refl].
  destruct (from_file _ _ p w) as [(l & w1)| | |] eqn:E; [|apply same_disk_refl..].
  rewrite N, run_world by exact C. exact (from_file_disk _ _ _ _ _ _ E).
Qed.
Print Assumptions C32_no_move.
(** The same from the arguments on. *)
Theorem C32_main : forall x a gs args w, written_flags gs args -> In NoMove gs -> ~ named_command a Import ->
  same_disk w (o_world (main x (a :: args) w)).
Proof.
  intros x a gs args w W I N. unfold main. cbn [parse_args].
  destruct (parse_subcommand a) as [c| | |] eqn:C; try apply same_disk_refl. cbn [bind].
  rewrite (written_parse gs args W). apply C32_no_move.
  - apply after_spec. left. exact I.
  - destruct (after_spec gs (mkFlags None c false None None None None)) as (-> & _). cbn. intros ->. apply N, command_letter, C.
Qed.
Print Assumptions C32_main.

Definition filling : list string :=
  ["account a"; "  expense x due every 15th"; "    amount 10"; "    funding aggressive"; "account b";
   "2024/02/03 * one"; " a 7"; " b"]%string.
Definition moving_world : world := world_of [(j, text filling)] [[]] [].
Example C32_case :
  let run (args : list string) := files (o_world (main (ctx [] (fun _ => [])) (map lit args) moving_world)) j in
  run ["balance"; "-f"; "/j"; "-n"]%string = Some (text filling)
  /\ run ["balance"; "-f"; "/j"]%string
     = Some (text filling ++ text [""; "2024/03/20 ~ move to envelopes // automatically generated by silverfox";
                                  "    envelope a x                                        7"; ""]%string).
Proof. vm_compute. split; reflexivity. Qed.

(** ** C68 *)
Lemma longer_refl w q : only_longer w w q.
Proof. repeat split; auto. Qed.
Lemma longer_disk w w1 w2 q : same_disk w w1 -> only_longer w1 w2 q -> only_longer w w2 q.
Proof.
  intros (F & Dd) (O & Dd2 & L). split; [|split].
  - intros p N. rewrite O by exact N. apply F.
  - intro p. rewrite Dd2. apply Dd.
  - rewrite F in L. exact L.
Qed.
Lemma longer_trans w w1 w2 q : only_longer w w1 q -> only_longer w1 w2 q -> only_longer w w2 q.
Proof.
  intros (O & Dd & L) (O2 & Dd2 & L2). split; [|split].
  - intros p N. rewrite O2 by exact N. apply O, N.
  - intro p. rewrite Dd2. apply Dd.
  - destruct L as [E|(old & t & E1 & E2)]; destruct L2 as [E3|(old2 & t2 & E3 & E4)].
    + left. congruence.
    + right. exists old2, t2. split; congruence.
    + right. exists old, t. split; congruence.
    + right. exists old, (t ++ t2). split; [exact E1|]. rewrite E4, app_assoc. congruence.
Qed.
Lemma append_longer td l w e w' r : append_entry td l w e = (w', r) -> only_longer w w' (resolve w (l_path l)) /\ cwd w' = cwd w.
Proof.
  unfold append_entry. pose proof (append_file_spec w (l_path l) (10%N :: show_entry (l_format l) e)) as Sp.
  destruct (files w (resolve w (l_path l))) as [old|] eqn:F.
  - destruct Sp as (w1 & E & C & Dd & Fj & Fo). rewrite E. intro H.
    destruct (printable (l_format l)); injection H as <- _; [|split; [apply longer_refl|reflexivity]]. split; [|exact C].
    split; [exact Fo|]. split; [exact Dd|]. right. exists old, (10%N :: show_entry (l_format l) e). auto.
  - rewrite Sp. intro H. injection H as <- _. split; [apply longer_refl|reflexivity].
Qed.
Lemma fill_longer td l w w' r : fill_envelopes td l w = (w', r) -> only_longer w w' (resolve w (l_path l)) /\ cwd w' = cwd w
  /\ (forall l', r = Ok l' -> l_path l' = l_path l).
Proof.
  unfold fill_envelopes. destruct (fill_postings td l) as [ps| | |].
  2,3,4: intro H; injection H as <- <-; split; [apply longer_refl|]; split; [reflexivity|]; intros l' E; discriminate.
  destruct ps as [|p ps].
  - intro H. injection H as <- <-. split; [apply longer_refl|]. split; [reflexivity|]. intros l' E. injection E as <-. reflexivity.
  - intro H. destruct (append_longer _ _ _ _ _ _ H) as (L & C). split; [exact L|]. split; [exact C|].
    intros l' ->. unfold append_entry in H. destruct (append_file _ _ _); try discriminate. destruct (printable _); [|discriminate]. injection H as _ H.
    apply add_entry_same in H. apply H.
Qed.
Lemma import_longer fuel td lower ord csv l w c rf w' r :
  import_csv fuel td lower ord csv l w c rf = (w', r) -> only_longer w w' (resolve w (l_path l)).
Proof.
  intro H. pose proof (C60_prefix _ _ _ _ _ _ _ _ _ _ _ H) as P.
  destruct (open_importer _ _ _ _ _) as [(r' & recs)| | |]; try (destruct P as (-> & _); apply longer_refl).
  destruct (files w (resolve w (l_path l))) as [old|] eqn:F; [|rewrite P; apply longer_refl].
  destruct P as (first & rest & es & _ & _ & J & O & Dd & _). split; [exact O|]. split; [exact Dd|].
  right. exists old, (appended (l_format l) es). auto.
Qed.
Lemma command_longer x f l w : only_longer w (o_world (run_command x f l w)) (resolve w (l_path l)).
Proof.
  unfold run_command. destruct (f_cmd f); try (rewrite printed_world; apply longer_refl); try apply longer_refl.
  destruct (f_csv f) as [c|]; [|apply longer_refl].
  destruct (import_csv _ _ _ _ _ l w c _) as [w' r] eqn:E. cbn. exact (import_longer _ _ _ _ _ _ _ _ _ _ _ E).
Qed.

(** Whatever the arguments, at most one file changes, and only by text put at
    its end. *)
Theorem C68_append_only : forall x args w, exists q, only_longer w (o_world (main x args w)) q.
Proof.
  intros x args w. unfold main. destruct (parse_args args) as [[f| | |]|]; try (exists []; apply longer_refl).
  unfold execute. destruct (journal_path x f) as [p|]; [|exists []; apply longer_refl].
  destruct (from_file _ _ p w) as [(l & w1)| | |] eqn:E; try (exists []; apply longer_refl).
  pose proof (from_file_disk _ _ _ _ _ _ E) as Sd. exists (resolve w1 (l_path l)).
  apply (longer_disk w w1 _ _ Sd). destruct (f_no_move f); [apply command_longer|].
  destruct (fill_envelopes _ l w1) as [w2 r] eqn:Fi. destruct (fill_longer _ _ _ _ _ Fi) as (L & C & Pl).
  destruct r as [l2| | |]; [|exact L..]. apply (longer_trans _ w2 _ _ L).
  replace (resolve w1 (l_path l)) with (resolve w2 (l_path l2)); [apply command_longer|].
  rewrite (Pl l2 eq_refl), !resolve_located, C. reflexivity.
Qed.
Print Assumptions C68_append_only.

(** It is the journal if the path is absolute. *)
Theorem C68_journal : forall x f w p, chosen x f p -> is_absolute p = true ->
  only_longer w (o_world (execute x f w)) (resolve w p).
Proof.
  intros x f w p H A. rewrite (C62_chosen x f w p H). unfold execute, journal_path, with_file. cbn [f_file f_no_move].
  destruct (from_file _ _ p w) as [(l & w1)| | |] eqn:E; try apply longer_refl.
  rewrite <- (C29_absolute_partial _ _ _ _ _ _ E A).
  pose proof (from_file_disk _ _ _ _ _ _ E) as Sd.
  apply (longer_disk w w1 _ _ Sd). destruct (f_no_move f); [apply command_longer|].
  destruct (fill_envelopes _ l w1) as [w2 r] eqn:Fi. destruct (fill_longer _ _ _ _ _ Fi) as (L & C & Pl).
  destruct r as [l2| | |]; [|exact L..]. apply (longer_trans _ w2 _ _ L).
  replace (resolve w1 (l_path l)) with (resolve w2 (l_path l2)); [apply command_longer|].
  rewrite (Pl l2 eq_refl), !resolve_located, C. reflexivity.
Qed.
Print Assumptions C68_journal.

Example C68_case :
  let w := world_of [(j, text filling); ([lit "c"], []); ([lit "c.rules"], text ["fields date, description, amount"; "account b"; "skip 0"]%string)] [[]] [] in
  let o := main (ctx [] (csv_of [["2024/03/02"; "u"; "1"]]%string)) (map lit ["i"; "-f"; "/j"; "--csv"; "/c"]%string) w in
  files (o_world o) j
  = Some (text filling ++ text [""; "2024/03/20 ~ move to envelopes // automatically generated by silverfox";
      "    envelope a x                                        7"; ""; "2024/03/02 ~ u";
      "    b                                                   1"; "    income:unknown                                     "; ""]%string)
  /\ files (o_world o) [lit "c.rules"] = files w [lit "c.rules"] /\ o_res o = Ok tt.
Proof. vm_compute. repeat split; reflexivity. Qed.

(** ** C69 *)
Lemma layout_free ls is : layout ls is -> Forall (fun l => ~ includes_rules l) ls ->
  forall inc inc' r, fold_res (item_step inc) is r = fold_res (item_step inc') is r.
Proof.
  induction 1 as [|l ls is Nb L IH|l ps rs ls is Sb Fp Fr E Nx L IH]; intros F inc inc' r; [reflexivity| |].
  - inversion F; subst. cbn [fold_res item_step]. rewrite (add_from_line_free inc inc' r l) by assumption.
    destruct (add_from_line inc' r l); cbn [bind]; try reflexivity. apply IH. assumption.
  - inversion F as [|x xs _ F']; subst. apply Forall_app in F' as (_ & F'). apply Forall_app in F' as (Frs & Fls).
    cbn [fold_res item_step]. rewrite (lines_free inc inc' rs r Frs).
    destruct (header_patterns l); cbn [bind]; try reflexivity.
    destruct (fold_res (add_from_line inc') rs r); cbn [bind]; try reflexivity. apply IH. assumption.
Qed.
Lemma rules_free inc inc' r t : Forall (fun l => ~ includes_rules l) (rule_lines t) -> rules_from_str inc r t = rules_from_str inc' r t.
Proof.
  intro F. destruct (layout_total (rule_lines t)) as (is & L). rewrite !(rules_layout _ _ _ _ L). apply (layout_free _ _ L F).
Qed.
Lemma read_absolute w w' p : is_absolute p = true -> same_disk w w' -> read_file w' p = read_file w p.
Proof.
  intros A (F & _). unfold read_file. rewrite !resolve_located, (located_absolute (cwd w') (cwd w) p A), F. reflexivity.
Qed.

(** After the journal is loaded, absolute paths still name the same files, so
    the importer has the rules and records it would have had before, if the
    rules include no other file. *)
Theorem C69_absolute_partial : forall fuel td p w l w' n csv c rf,
  from_file fuel td p w = Ok (l, w') -> is_absolute c = true ->
  (forall r, rf = Some r -> is_absolute r = true) ->
  (forall t, read_file w (match rf with Some r => r | None => c ++ lit ".rules" end) = Ok t ->
     Forall (fun line => ~ includes_rules line) (rule_lines t)) ->
  open_importer n w' csv c rf = open_importer n w csv c rf.
Proof.
  intros fuel td p w l w' n csv c rf E A Ar Fr. pose proof (from_file_disk _ _ _ _ _ _ E) as Sd.
  unfold open_importer. rewrite (read_absolute w w' c A Sd).
  assert (Ap : is_absolute (match rf with Some p => p | None => c ++ lit ".rules" end) = true).
  { destruct rf as [r|]; [apply Ar; reflexivity|]. clear - A. unfold is_absolute in *. apply starts_with_iff in A as (z & ->). apply starts_with_iff. exists (z ++ lit ".rules"). rewrite app_assoc. reflexivity. }
  rewrite (read_absolute w w' _ Ap Sd). destruct (read_file w c); cbn [bind]; try reflexivity.
  destruct (read_file w _) as [t| | |] eqn:Rt; cbn [bind]; try reflexivity.
  unfold parse_rules. rewrite (rules_free _ (rules_from_file n w)); [reflexivity|]. exact (Fr _ eq_refl).
Qed.
Print Assumptions C69_absolute_partial.

(** A relative one is looked up from the directory of the journal. *)
Theorem C69_refuted : exists x w args t,
  proper w /\ read_file w (lit "c") = Ok t /\ is_ok (read_file w (lit "c.rules")) = true
  /\ args = map lit ["import"; "-f"; "d/j"; "--csv"; "c"]%string
  /\ match from_file (x_fuel x) (x_today x) (lit "d/j") w with Ok _ => True | _ => False end
  /\ o_res (main x args w) = Err (EFile (lit "c")).
Proof.
  exists (ctx [] (csv_of [])), (world_of [([lit "d"; lit "j"], text bank); ([lit "c"], []); ([lit "c.rules"], text one_account)] [[]; [lit "d"]] []),
    (map lit ["import"; "-f"; "d/j"; "--csv"; "c"]%string), [].
  split; [apply world_of_proper; vm_compute; reflexivity|]. split; [reflexivity|]. split; [vm_compute; reflexivity|].
  split; [reflexivity|]. split; vm_compute; [exact I|reflexivity].
Qed.
Print Assumptions C69_refuted.
