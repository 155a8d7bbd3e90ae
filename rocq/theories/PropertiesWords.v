(** Claim about the words of entries: status, description, payee and comment
    have no effect on the numbers (C115). *)
From Coq Require Import ZArith NArith List Bool String.
From Verif Require Import Base Str F64 Date World Amount Posting Entry Envelope Account Register Ledger Importer Cli SpecText SpecEntry SpecLedger SpecCrash SpecWords SpecLayout
  StrFacts EntryFacts AlikeFacts WordsFacts PropertiesLedger PropertiesCli TwinFacts.
Import ListNotations.

Lemma worlds_mono (L M : str -> str -> Prop) w v : (forall a b, L a b -> M a b) -> worlds L w v -> worlds M w v.
Proof.
  intros H (D & C & F). split; [exact D|]. split; [exact C|]. intro p. specialize (F p). destruct (files w p), (files v p); auto.
  unfold texts in *. induction F; constructor; auto.
Qed.
Lemma ledgers_mono (R S : entry -> entry -> Prop) l m : (forall a b, R a b -> S a b) -> ledgers R l m -> ledgers S l m.
Proof. intros H (P & F & A & C & E). repeat (split; [assumption|]). induction E; constructor; auto. Qed.
Lemma together_mono {A B} (R S : A -> B -> Prop) r s : (forall a b, R a b -> S a b) -> together R r s -> together S r s.
Proof. destruct r, s; cbn; auto. Qed.
Lemma Lin_false a b : reworded_line a b -> Lin false a b.
Proof. intros [->|(d & s & s' & e & e' & p & p' & H & K)]; [left; reflexivity|right]. exists d, s, s', e, e', p, p'. repeat split; try apply H; try apply K; discriminate. Qed.
Lemma Lin_true a b : repaid_line a b -> Lin true a b.
Proof. intros [->|(d & s & e & p & p' & H & K)]; [left; reflexivity|right]. exists d, s, s, e, e, p, p'. split; [exact H|]. split; [exact K|]. auto. Qed.
Lemma Lin_reworded b x y : Lin b x y -> reworded_line x y.
Proof. intros [->|(d & s & s' & e & e' & p & p' & H & K & _)]; [left; reflexivity|right]. exists d, s, s', e, e', p, p'. auto. Qed.

(** ** C115 *)
Theorem C115_loading : forall fuel today p w v, worlds reworded_line w v ->
  together (fun s t => ledgers reworded_entry (fst s) (fst t) /\ worlds reworded_line (snd s) (snd t))
    (from_file fuel today p w) (from_file fuel today p v).
Proof.
  intros fuel today p w v W. eapply together_mono; [|apply (w_from_file false), (worlds_mono _ _ _ _ Lin_false W)].
  intros [l x] [m y] [L X]. split; [eapply ledgers_mono; [|exact L]; intros a b H; apply H|eapply worlds_mono; [|exact X]; apply Lin_reworded].
Qed.
Print Assumptions C115_loading.

Theorem C115_reports : forall today l m, ledgers reworded_entry l m ->
  together eq (show_balance l) (show_balance m)
  /\ show_envelopes today l = show_envelopes today m
  /\ fill_postings today l = fill_postings today m
  /\ forall e f, reworded_entry e f -> together (ledgers reworded_entry) (add_entry today l e) (add_entry today m f).
Proof.
  intros today l m L. pose proof L as (P & F & A & C & E). split; [|split; [|split]].
  - unfold show_balance. apply (together_bind eq); [apply w_totals, E|]. intros ? ? <-. reflexivity.
  - unfold show_envelopes. rewrite A. reflexivity.
  - unfold fill_postings. rewrite A. reflexivity.
  - intros e f R. eapply together_mono; [|apply (w_add_entry false)].
    + intros x y. apply ledgers_mono. intros a b H. apply H.
    + eapply ledgers_mono; [|exact L]. intros a b H. split; [exact H|discriminate].
    + split; [exact R|discriminate].
Qed.
Print Assumptions C115_reports.

(** Payees and comments are not in the register either. *)
Theorem C115_register : forall tty l m b e a, ledgers repaid_entry l m -> show_register tty l b e a = show_register tty m b e a.
Proof.
  intros tty l m b e a (P & F & A & C & E). unfold show_register. rewrite F.
  pose proof (w_display tty (l_entries l) (l_entries m) (l_format m) b e a E) as D.
  destruct (register_display tty (l_entries l) _ _ _ _), (register_display tty (l_entries m) _ _ _ _); cbn in D; try contradiction; congruence.
Qed.
Print Assumptions C115_register.

(** ** Whole runs *)
Lemma worlds_twin L w v : worlds L w v -> Twin w v.
Proof.
  intros (_ & C & F). split; [exact C|]. intro p. specialize (F p). destruct (files w p), (files v p); try contradiction; split; intro E; try discriminate; reflexivity.
Qed.
Lemma run_related b x f w v : worlds (Lin b) w v -> (f_cmd f = CmdRegister -> b = true) ->
  (forall j c, f_cmd f = Import -> journal_path x f = Some j -> f_csv f = Some c -> same_sources w v j c (rules_for f c)) ->
  o_out (execute x f w) = o_out (execute x f v) /\ exit_status (execute x f w) = exit_status (execute x f v)
  /\ same_additions w (o_world (execute x f w)) v (o_world (execute x f v)).
Proof.
  intros W K S. apply (twin_execute (Ent b)) with (WR := worlds (Lin b)) (Reg := b = true); try assumption.
  - intros today l m e L. apply w_add_entry; [exact L|apply Ent_refl].
  - apply worlds_twin.
  - intros fuel today p w' v' W'. apply w_from_file, W'.
  - intros l m L. unfold show_balance. apply (together_bind eq); [|intros ? ? <-; reflexivity]. apply w_totals.
    destruct L as (_ & _ & _ & _ & L). induction L as [|? ? ? ? H]; constructor; [apply H|assumption].
  - intros -> tty l m b0 e a L. apply C115_register. eapply ledgers_mono; [|exact L]. intros ? ? [H1 H2]. split; [exact H1|exact (H2 eq_refl)].
Qed.

(** Whatever is asked for, except the register: the same output, the same exit
    status, and the same text is appended to the journal.  For the register too,
    if only payees and comments differ.  Importing reads the same files. *)
Theorem C115_run : forall x args w v,
  (worlds reworded_line w v /\ forall f, parse_args args = Some (Ok f) -> f_cmd f <> CmdRegister) \/ worlds repaid_line w v ->
  (forall f j c, parse_args args = Some (Ok f) -> f_cmd f = Import -> journal_path x f = Some j -> f_csv f = Some c ->
     same_sources w v j c (rules_for f c)) ->
  o_out (main x args w) = o_out (main x args v)
  /\ exit_status (main x args w) = exit_status (main x args v)
  /\ same_additions w (o_world (main x args w)) v (o_world (main x args v)).
Proof.
  intros x args w v H S. assert (Z : same_additions w w v v) by (apply same_none; reflexivity). unfold main.
  destruct (parse_args args) as [[f| | |]|]; try (cbn; auto; fail). destruct H as [[W R]|W].
  - apply (run_related false); [exact (worlds_mono _ _ _ _ Lin_false W)| |intros j c; apply S; reflexivity].
    intro E. exfalso. exact (R f eq_refl E).
  - apply (run_related true); [exact (worlds_mono _ _ _ _ Lin_true W)|reflexivity|intros j c; apply S; reflexivity].
Qed.
Print Assumptions C115_run.

Definition said : list string :=
  ["account assets:a"; "  goal food by 2024/07/20"; "    amount $30"; "    funding aggressive"; "account b";
   "2024/03/01 * Salary [ACME]"; "  assets:a  $100"; "  b"; "2024/03/02 ? x"; "  envelope assets:a food $7"]%string.
Definition unsaid : list string :=
  ["account assets:a"; "  goal food by 2024/07/20"; "    amount $30"; "    funding aggressive"; "account b";
   "2024/03/01 ~ ; nothing"; "  assets:a  $100"; "  b"; "2024/03/02   * a longer story [] // and more"; "  envelope assets:a food $7"]%string.
Example C115_case :
  let w := world_of [([lit "j"], text said)] [[]] [] in
  let v := world_of [([lit "j"], text unsaid)] [[]] [] in
  worlds reworded_line w v
  /\ o_out (main (ctx [("SILVERFOX_FILE", "j")]%string (fun _ => [])) [lit "b"] w) = o_out (main (ctx [("SILVERFOX_FILE", "j")]%string (fun _ => [])) [lit "b"] v)
  /\ o_out (main (ctx [("SILVERFOX_FILE", "j")]%string (fun _ => [])) [lit "b"] w) <> []
  /\ o_out (main (ctx [("SILVERFOX_FILE", "j")]%string (fun _ => [])) [lit "r"] w) <> o_out (main (ctx [("SILVERFOX_FILE", "j")]%string (fun _ => [])) [lit "r"] v).
Proof.
  cbv zeta. split; [|split; [vm_compute; reflexivity|split; vm_compute; discriminate]].
  split; [reflexivity|]. split; [reflexivity|]. intro p. unfold world_of. cbn [files find fst].
  destruct (path_eqb [lit "j"] p); [|exact I]. cbn [option_map snd]. unfold texts.
  assert (E1 : lines (text said) = map lit said) by (vm_compute; reflexivity).
  assert (E2 : lines (text unsaid) = map lit unsaid) by (vm_compute; reflexivity). rewrite E1, E2.
  repeat (constructor; [first [left; reflexivity|right]|]); [| |constructor].
  - exists (lit "2024/03/01"), Reconciled, Cleared, (lit "Salary"), [], (Some (lit "ACME")), None.
    split; (split; [intros (c & r & E & W); injection E as <- <-; discriminate|split; [|vm_compute; intuition discriminate]]).
    + exists (lit "*"), [lit "Salary"; lit "[ACME]"]. split; [vm_compute; reflexivity|]. split; [apply parse_status_Ok; reflexivity|]. apply (split_payee_Ok []). vm_compute. reflexivity.
    + exists (lit "~"), []. split; [vm_compute; reflexivity|]. split; [apply parse_status_Ok; reflexivity|]. apply (split_payee_Ok []). vm_compute. reflexivity.
  - exists (lit "2024/03/02"), Pending, Reconciled, (lit "x"), (lit "a longer story"), None, (Some []).
    split; (split; [intros (c & r & E & W); injection E as <- <-; discriminate|split; [|vm_compute; intuition discriminate]]).
    + exists (lit "?"), [lit "x"]. split; [vm_compute; reflexivity|]. split; [apply parse_status_Ok; reflexivity|]. apply (split_payee_Ok []). vm_compute. reflexivity.
    + exists (lit "*"), [lit "a"; lit "longer"; lit "story"; lit "[]"]. split; [vm_compute; reflexivity|]. split; [apply parse_status_Ok; reflexivity|]. apply (split_payee_Ok []). vm_compute. reflexivity.
Qed.
