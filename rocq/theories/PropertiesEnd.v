(** Property C77: runs end. *)
From Coq Require Import ZArith NArith List Bool String Lia.
From Verif Require Import Base Str F64 Date Amount Posting Entry Envelope Account World Register Ledger Importer Cli
  SpecAmount SpecDate SpecEntry SpecEnvelope SpecLedger SpecRegister SpecImport SpecCli SpecReport SpecRun
  StrFacts EntryFacts LedgerFacts LoadFacts IncludeFacts TermFacts
  PropertiesLedger PropertiesRegister PropertiesImport PropertiesCli PropertiesReport PropertiesRun.
Import ListNotations.
Local Open Scope Z_scope.

(** ** C77 *)
(** Loading ends when includes lead downwards. *)
Theorem C77_load : forall today w (reached : path -> Prop) (height : path -> nat) p fuel, year today < max_year ->
  reached (cwd w) -> reached (folder (cwd w) p) -> descending w reached height ->
  (height (located (cwd w) p) < fuel)%nat -> from_file fuel today p w <> Loop.
Proof.
  intros td w R h p fuel T Rw Rp D L. unfold from_file. apply (calm_load td T w R h D); [split|exact Rp|exact L].
  - apply same_disk_refl.
  - exact Rw.
Qed.
Print Assumptions C77_load.

(** The path of the rules file. *)
Definition rules_name (f : flags) (csv : str) : str :=
  match f_rules f with Some p => p | None => csv ++ lit ".rules" end.

Theorem C77_run : forall x args f w (reached : path -> Prop) (height : path -> nat), parse_args args = Some (Ok f) -> year (x_today x) < max_year ->
  reached (cwd w) -> descending w reached height ->
  (forall p, chosen x f p -> reached (folder (cwd w) p) /\ (height (located (cwd w) p) < x_fuel x)%nat) ->
  (forall c l w', f_cmd f = Import -> f_csv f = Some c -> ready x f w l w' ->
     exists height', descending_rules w' height' /\ (height' (resolve w' (rules_name f c)) < x_fuel x)%nat) ->
  o_res (main x args w) <> Loop.
Proof.
  intros x args f w R h P T Rw D C I. unfold main. rewrite P.
  assert (forall l w', ready x f w l w' -> calm (o_res (run_command x f l w'))) as Run.
  { intros l w' Y. unfold run_command. destruct (f_cmd f) eqn:Cmd; try discriminate.
    - pose proof (calm_balance l) as K. destruct (show_balance l); try discriminate. exact (fun _ => K eq_refl).
    - pose proof (calm_envelopes (x_today x) T l) as K. destruct (show_envelopes _ l); try discriminate. exact (fun _ => K eq_refl).
    - pose proof (calm_register (x_tty x) l (f_begin f) (f_end f) None) as K.
      destruct (show_register _ l _ _ _); try discriminate. exact (fun _ => K eq_refl).
    - destruct (f_csv f) as [c|] eqn:Cs; [|discriminate]. destruct (I c l w' eq_refl eq_refl Y) as (h' & D' & L').
      pose proof (calm_import (x_fuel x) (x_today x) (x_lower x) (x_ord x) (x_csv x) l w' c (f_rules f) h' T D') as K.
      unfold done. cbn [o_res]. destruct (snd (import_csv _ _ _ _ _ _ _ _ _)); try discriminate.
      intros _. apply K; [|reflexivity]. unfold rules_name in L'. lia. }
  unfold execute. destruct (journal_path x f) as [p|] eqn:J; [|discriminate].
  assert (chosen x f p) as Ch.
  { unfold journal_path in J. destruct (f_file f) as [q|] eqn:E1; [injection J as <-; apply by_flag, E1|].
    destruct (x_env x "SILVERFOX_FILE") as [q|] eqn:E2; [injection J as <-; apply by_silverfox; assumption|apply by_ledger; assumption]. }
  destruct (C p Ch) as [Rp L]. pose proof (C77_load (x_today x) w R h p (x_fuel x) T Rw Rp D L) as K.
  destruct (from_file _ _ p w) as [(l & w1)| | |] eqn:F; try discriminate; [|exact (fun _ => K eq_refl)].
  destruct (f_no_move f) eqn:N; [apply Run; eapply ready_still; eassumption|].
  pose proof (calm_fill (x_today x) T l w1) as Fl. destruct (fill_envelopes _ l w1) as [w2 [l2| | |]] eqn:E; cbn [snd] in Fl;
    try discriminate; [apply Run; eapply ready_filled; eassumption|exact (fun _ => Fl eq_refl)].
Qed.
Print Assumptions C77_run.

(** With absolute paths, an ordinary ranking of the files is enough; without
    includes, nothing is needed. *)
Theorem C77_absolute : forall today w (height : path -> nat) p fuel, year today < max_year ->
  (forall q t f, files w q = Some t -> includes t f -> is_absolute f = true /\ (height (located [] f) < height q)%nat) ->
  (height (located (cwd w) p) < fuel)%nat -> from_file fuel today p w <> Loop.
Proof.
  intros td w h p fuel T H L. apply (C77_load td w (fun _ => True) h p fuel T); auto.
  intros q t f d F I _. destruct (H q t f F I) as [A B]. split; [exact Coq.Init.Logic.I|]. rewrite (located_absolute d [] f A). exact B.
Qed.
Print Assumptions C77_absolute.
Theorem C77_plain : forall x args f w, parse_args args = Some (Ok f) -> f_cmd f <> Import -> year (x_today x) < max_year ->
  (forall q t g, files w q = Some t -> ~ includes t g) -> (0 < x_fuel x)%nat -> o_res (main x args w) <> Loop.
Proof.
  intros x args f w P C T H L. apply (C77_run x args f w (fun _ => True) (fun _ => 0%nat) P T); auto.
  - intros q t g d F I _. destruct (H q t g F I).
  - intros c l w' E. contradiction.
Qed.
Print Assumptions C77_plain.

(** Three files, two levels; the rules file of an import includes another. *)
Example C77_case :
  let a := world_of [([lit "d"; lit "j"], text ["include k"; "include /d/k"; "2024/01/01 * x"; " a 1"; " b"]%string);
                     ([lit "d"; lit "k"], text ["include /d/m"]%string);
                     ([lit "d"; lit "m"], text ["account a"; "account b"]%string)] [[]; [lit "d"]] [] in
  (match from_file 3 today (lit "/d/j") a with Ok (l, _) => Some (account_names l) | _ => None end = Some [lit "a"; lit "b"]
  /\ from_file 2 today (lit "/d/j") a = Loop
  /\ match rules_from_file 2 (world_of [(j, text ["include /k"]%string); ([lit "k"], text ["skip 3"]%string)] [[]] []) (lit "j") default_rules with
     | Ok r => r_skip r = 3 | _ => False end
  /\ rules_from_file 40 (world_of [(j, text ["include /j"]%string)] [[]] []) (lit "j") default_rules = Loop)%Z.
Proof. vm_compute. repeat split; reflexivity. Qed.
(** A rules file that includes itself is read for ever. *)
Theorem C77_rules_cycle : exists w p, forall fuel r, rules_from_file fuel w p r = Loop.
Proof.
  exists (world_of [(j, lit "use j")] [[]] []), (lit "j"). induction fuel as [|k IH]; intro r; [reflexivity|].
  cbn [rules_from_file].
  transitivity (let! root := rules_from_file k (world_of [(j, lit "use j")] [[]] []) (lit "j") r in Ok root).
  - unfold rules_from_str. change (read_file (world_of [(j, lit "use j")] [[]] []) (lit "j")) with (Ok (lit "use j")).
    cbn [bind]. change (lines (lit "use j")) with [lit "use j"]. cbn [fold_res].
    assert (rules_line (rules_from_file k (world_of [(j, lit "use j")] [[]] [])) (mkRState r None false) (lit "use j")
      = let! root := rules_from_file k (world_of [(j, lit "use j")] [[]] []) (lit "j") r in Ok (mkRState root None false)) as -> by reflexivity.
    rewrite IH. reflexivity.
  - rewrite IH. reflexivity.
Qed.
Print Assumptions C77_rules_cycle.
