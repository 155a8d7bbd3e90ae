(** Properties C76, C87 and C88: whole runs. *)
From Coq Require Import ZArith NArith List Bool String Permutation Lia.
From Verif Require Import Base Str F64 Date Amount Posting Entry Envelope Account World Register Ledger Importer Cli
  SpecAmount SpecDate SpecEntry SpecEnvelope SpecLedger SpecRegister SpecImport SpecCli SpecReport SpecRun
  StrFacts EntryFacts LedgerFacts LoadFacts IncludeFacts PropertiesLedger PropertiesRegister PropertiesImport PropertiesCli PropertiesReport.
Import ListNotations.
Local Open Scope Z_scope.

(** ** C76 *)
Lemma ready_run x f w l w' : ready x f w l w' -> execute x f w = run_command x f l w'.
Proof.
  intros [p l0 w1 C L N|p l0 w1 l1 w2 C L N F]; rewrite (C62_chosen x f w p C);
    unfold execute, journal_path, with_file; cbn [f_file f_no_move]; rewrite L, N; [reflexivity|rewrite F; reflexivity].
Qed.
Lemma run_ready x f w : (exists l w', ready x f w l w') \/ (o_out (execute x f w) = [] /\ o_res (execute x f w) <> Ok tt).
Proof.
  destruct (journal_path x f) as [p|] eqn:J; [|right; unfold execute; rewrite J; split; [reflexivity|discriminate]].
  assert (chosen x f p) as C.
  { unfold journal_path in J. destruct (f_file f) as [q|] eqn:E1; [injection J as <-; apply by_flag, E1|].
    destruct (x_env x "SILVERFOX_FILE") as [q|] eqn:E2; [injection J as <-; apply by_silverfox; assumption|apply by_ledger; assumption]. }
  unfold execute. rewrite J. destruct (from_file _ _ p w) as [(l & w1)| | |] eqn:L; [|right; split; [reflexivity|discriminate]..].
  destruct (f_no_move f) eqn:N; [left; exists l, w1; eapply ready_still; eassumption|].
  destruct (fill_envelopes _ l w1) as [w2 [l2| | |]] eqn:F; [left; exists l2, w2; eapply ready_filled; eassumption|right; split; [reflexivity|discriminate]..].
Qed.
(** Dates for the register cannot be given. *)
Lemma accepted_dates args f : parse_args args = Some (Ok f) -> f_begin f = None /\ f_end f = None.
Proof.
  destruct args as [|a rest]; [discriminate|]. cbn [parse_args]. intro H. injection H as H.
  apply bind_Ok in H as (c & _ & H). apply parse_written in H as (gs & _ & ->).
  destruct (after_spec gs (mkFlags None c false None None None None)) as (_ & B & E & _). rewrite B, E. auto.
Qed.
Lemma report_run x f l w t : f_begin f = None -> f_end f = None -> report x (f_cmd f) l t ->
  run_command x f l w = mkOutcome w t (Ok tt).
Proof.
  intros B E R. unfold run_command. destruct (f_cmd f); cbn [report] in R; try contradiction.
  - rewrite R. reflexivity.
  - rewrite R. reflexivity.
  - destruct R as [T R]. unfold show_register. rewrite T, B, E, R. reflexivity.
Qed.

Theorem C76_printed : forall x args f w l w' t, parse_args args = Some (Ok f) -> ready x f w l w' ->
  report x (f_cmd f) l t -> main x args w = mkOutcome w' t (Ok tt).
Proof.
  intros x args f w l w' t P R T. unfold main. rewrite P, (ready_run x f w l w' R).
  destruct (accepted_dates args f P). apply report_run; assumption.
Qed.
Print Assumptions C76_printed.

(** Nothing else is ever printed, but the help text. *)
Theorem C76_only : forall x args w, args = [] \/ o_out (main x args w) = []
  \/ exists f l w', parse_args args = Some (Ok f) /\ ready x f w l w' /\ report x (f_cmd f) l (o_out (main x args w)).
Proof.
  intros x [|a args] w; [left; reflexivity|]. right. assert (N : parse_args (a :: args) <> None) by discriminate. revert N. generalize (a :: args). clear a args. intros args N.
  unfold main. destruct (parse_args args) as [[f| | |]|] eqn:P; try (left; reflexivity); [|contradiction]. clear N.
  destruct (run_ready x f w) as [(l & w' & R)|[O _]]; [|left; exact O].
  rewrite (ready_run x f w l w' R). destruct (accepted_dates args f P) as [B E].
  assert (forall t, report x (f_cmd f) l t -> o_out (run_command x f l w') = [] \/ exists f0 l0 w'0,
    Some (Ok f) = Some (Ok f0) /\ ready x f0 w l0 w'0 /\ report x (f_cmd f0) l0 (o_out (run_command x f l w'))) as K.
  { intros t T. right. exists f, l, w'. split; [reflexivity|]. split; [exact R|]. rewrite (report_run x f l w' t B E T). exact T. }
  unfold run_command in K |- *. destruct (f_cmd f) eqn:C; try (left; reflexivity).
  - destruct (show_balance l) as [t| | |] eqn:S; try (left; reflexivity). apply (K t). exact S.
  - destruct (show_envelopes (x_today x) l) as [t| | |] eqn:S; try (left; reflexivity). apply (K t). exact S.
  - unfold show_register in *. rewrite B, E in *. destruct (x_tty x) eqn:Ty; [|left; reflexivity].
    destruct (register_display true _ _ _ _ _) as [t| | |] eqn:S; try (left; reflexivity). apply (K t). split; [exact Ty|exact S].
  - destruct (f_csv f); left; reflexivity.
Qed.
Print Assumptions C76_only.

(** [import] adds the entries of the csv file to the filled journal; without a
    csv file, and for [summary] and [new], there is an error. *)
Theorem C76_import : forall x args f w l w', parse_args args = Some (Ok f) -> ready x f w l w' ->
  match f_cmd f, f_csv f with
  | Import, Some c => forall w2 r, import_csv (x_fuel x) (x_today x) (x_lower x) (x_ord x) (x_csv x) l w' c (f_rules f) = (w2, r) ->
      main x args w = mkOutcome w2 [] (match r with Ok _ => Ok tt | Err e => Err e | Panic => Panic | Loop => Loop end)
  | Import, None => main x args w = mkOutcome w' [] (Err (EBasic NoCsvFile))
  | Summary, _ => main x args w = mkOutcome w' [] (Err (EBasic (NotSupported (lit "summary"))))
  | New, _ => main x args w = mkOutcome w' [] (Err (EBasic (NotSupported (lit "new"))))
  | _, _ => True
  end.
Proof.
  intros x args f w l w' P R. assert (main x args w = run_command x f l w') as ->.
  { unfold main. rewrite P. apply (ready_run x f w l w' R). }
  unfold run_command. destruct (f_cmd f), (f_csv f); try exact I; try reflexivity.
  intros w2 r ->. unfold done. cbn [fst snd]. destruct r; reflexivity.
Qed.
Print Assumptions C76_import.

(** What [silverfox balance] prints, all in all. *)
Theorem C76_balance : forall x args f w, parse_args args = Some (Ok f) -> f_cmd f = Balance ->
  o_res (main x args w) = Ok tt ->
  exists l w' rows, ready x f w l w' /\ same_disk w' (o_world (main x args w))
  /\ in_order (map fst rows) /\ (forall name, In name (map fst rows) <-> SpecReport.used (l_entries l) name)
  /\ (forall name pl, In (name, pl) rows -> balance (l_entries l) name pl)
  /\ o_out (main x args w) = flat_map balance_line rows.
Proof.
  intros x args f w P C H. assert (main x args w = execute x f w) as M by (unfold main; rewrite P; reflexivity). rewrite M in *.
  destruct (run_ready x f w) as [(l & w' & R)|[_ N]]; [|contradiction].
  rewrite (ready_run x f w l w' R) in *. unfold run_command in *. rewrite C in *.
  destruct (show_balance l) as [t| | |] eqn:S; try discriminate. destruct (C71_balance l t S) as (rows & A1 & A2 & A3 & A4).
  exists l, w', rows. split; [exact R|]. split; [apply same_disk_refl|]. auto.
Qed.
Print Assumptions C76_balance.

Definition spending : list string := ["account assets"; "account expenses"; "2024/02/03 * one"; " assets 7"; " expenses"]%string.
Example C76_case :
  let spent := main (ctx [] (fun _ => [])) (map lit ["register"; "-f"; "/j"]%string) (world_of [(j, text spending)] [[]] []) in
  let run (args : list string) :=
    let o := main (ctx [] (fun _ => [])) (map lit args) moving_world in (o_out o, o_res o) in
  run ["balance"; "-f"; "/j"; "-n"]%string = (text ["a                                       7"; "b                                       0"; ""]%string, Ok tt)
  /\ run ["balance"; "-f"; "/j"]%string = (text ["a                                       14"; "b                                       0"; ""]%string, Ok tt)
  /\ (o_out spent, o_res spent) = (text ["2024/02/03 * one  expenses -> assets   7   7"; ""]%string, Ok tt)
  /\ run ["summary"; "-f"; "/j"]%string = ([], Err (EBasic (NotSupported (lit "summary"))))
  /\ run ["import"; "-f"; "/j"]%string = ([], Err (EBasic NoCsvFile)).
Proof. vm_compute. repeat split; reflexivity. Qed.

(** ** C87 *)

(** The commands of the help text. *)
Definition offered : list (str * subcommand) :=
  [(lit "    (b)alance ", Balance); (lit "    (e)nvelopes ", Envelopes); (lit "    (r)egister ", CmdRegister);
   (lit "    (n)ew ", New); (lit "    (i)mport ", Import)].
Theorem C87_help : forall x w,
  (forall t c, In (t, c) offered -> exists a b, o_out (main x [] w) = a ++ t ++ b)
  /\ o_world (main x [] w) = w /\ o_res (main x [] w) = Ok tt.
Proof.
  intros x w. split; [|split; reflexivity].
  assert (K : forall n m t, firstn m (skipn n help_text) = t -> exists a b, o_out (main x [] w) = a ++ t ++ b).
  { intros n m t <-. exists (firstn n help_text), (skipn m (skipn n help_text)). rewrite firstn_skipn, firstn_skipn. reflexivity. }
  intros t c [E|[E|[E|[E|[E|[]]]]]]; injection E as <- <-.
  - apply (K 96%nat 14%nat). vm_compute. reflexivity.
  - apply (K 164%nat 16%nat). vm_compute. reflexivity.
  - apply (K 236%nat 15%nat). vm_compute. reflexivity.
  - apply (K 277%nat 10%nat). vm_compute. reflexivity.
  - apply (K 334%nat 13%nat). vm_compute. reflexivity.
Qed.
Print Assumptions C87_help.
(** Both the letter and the word are understood. *)
Theorem C87_partial : forall t c, In (t, c) offered ->
  exists k word, t = lit "    (" ++ [k] ++ lit ")" ++ word ++ lit " "
  /\ parse_args [[k]] = Some (Ok (mkFlags None c false None None None None))
  /\ parse_args [k :: word] = Some (Ok (mkFlags None c false None None None None)).
Proof.
  intros t c [E|[E|[E|[E|[E|[]]]]]]; injection E as <- <-.
  - exists 98%N, (lit "alance"). repeat split; reflexivity.
  - exists 101%N, (lit "nvelopes"). repeat split; reflexivity.
  - exists 114%N, (lit "egister"). repeat split; reflexivity.
  - exists 110%N, (lit "ew"). repeat split; reflexivity.
  - exists 105%N, (lit "mport"). repeat split; reflexivity.
Qed.
Print Assumptions C87_partial.
(** [new] never works, whatever else is given; neither does [summary]. *)
Theorem C87_refuted : exists t c, In (t, c) offered
  /\ forall x a args w, named_command a c -> o_res (main x (a :: args) w) <> Ok tt.
Proof.
  exists (lit "    (n)ew "), New. split; [right; right; right; left; reflexivity|].
  intros x a args w Ha. apply command_letter in Ha. unfold main, parse_args. rewrite Ha. cbn [bind].
  destruct (parse_flags args _) as [f|e| |] eqn:Ef; try discriminate.
  apply parse_written in Ef as (gs & _ & ->).
  pose proof (proj1 (after_spec gs (mkFlags None New false None None None None))) as Ec. cbn [f_cmd] in Ec.
  set (f := after gs _) in *. unfold execute.
  destruct (journal_path x f) as [p|]; [|discriminate].
  destruct (from_file (x_fuel x) (x_today x) p w) as [[l w1]|e| |]; try discriminate.
  assert (K : forall l0 w0, o_res (run_command x f l0 w0) <> Ok tt) by (intros l0 w0; unfold run_command; rewrite Ec; discriminate).
  destruct (f_no_move f); [apply K|].
  destruct (fill_envelopes (x_today x) l w1) as [w2 [l2|e| |]]; [apply K|discriminate..].
Qed.
Print Assumptions C87_refuted.

(** ** C88 *)
(** The exit status tells a crash from everything else. *)
Theorem C88_partial : forall x args w s, exit_status (main x args w) = Some s ->
  (s = 0%Z \/ s = 101%Z) /\ (s <> 0%Z <-> o_res (main x args w) = Panic).
Proof.
  intros x args w s. unfold exit_status. destruct (o_res (main x args w)) as [u|e| |] eqn:E; intros Hs; try discriminate;
    injection Hs as <-; (split; [tauto|]); (split; [intros H|intros H; try discriminate]); try (exfalso; apply H; reflexivity); try reflexivity.
Qed.
Print Assumptions C88_partial.
(** A run that fails with an error ends as a successful one. *)
Theorem C88_error : forall x args w e, o_res (main x args w) = Err e -> exit_status (main x args w) = Some 0%Z.
Proof. intros x args w e H. unfold exit_status. rewrite H. reflexivity. Qed.
Print Assumptions C88_error.
Theorem C88_refuted : exists x args w e, o_res (main x args w) = Err e /\ exit_status (main x args w) = Some 0%Z.
Proof.
  exists (mkContext (mkDate 2020 1 1 eq_refl) true (fun _ => None) (fun s => s) (fun l => l) (fun _ => []) 5),
    [lit "b"; lit "-f"; lit "/missing"], (mkWorld (fun _ => None) (fun _ => true) []), (EFile (lit "/missing")).
  vm_compute. repeat split; reflexivity.
Qed.
Print Assumptions C88_refuted.
