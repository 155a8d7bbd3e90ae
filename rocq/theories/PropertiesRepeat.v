(** Claim about a report that is asked for again (C120). *)
From Coq Require Import ZArith NArith List Bool String Permutation Lia.
From Verif Require Import Base Str F64 Date Amount Posting Entry Envelope Account World Register Ledger Importer Cli
  SpecAmount SpecDate SpecEntry SpecLedger SpecReport SpecImport SpecCli SpecRun SpecInclude SpecMoves SpecAgain SpecWords
  LedgerFacts LoadFacts IncludeFacts UnfoldFacts RunFacts AgainFacts WordsFacts TwinFacts
  PropertiesEntry PropertiesLedger PropertiesCli PropertiesRun PropertiesMoves PropertiesAgain PropertiesWords.
Import ListNotations.
Local Open Scope list_scope.

Lemma uncommented_repaid l m : uncommented l m -> ledgers repaid_entry l m.
Proof.
  intros (P & F & A & C & E). split; [exact P|]. split; [exact F|]. split; [exact A|]. split; [exact C|].
  induction E as [|e f es fs H E IH]; constructor; [|exact IH]. destruct H as [->| ->]; repeat split.
Qed.
Lemma repaid_printed x f f' l m w v : ledgers repaid_entry l m -> f_cmd f <> Import -> f_cmd f' = f_cmd f -> f_begin f' = f_begin f -> f_end f' = f_end f ->
  o_out (run_command x f l w) = o_out (run_command x f' m v).
Proof.
  intros L Ni Ec Eb Ee. unfold run_command. rewrite Ec, Eb, Ee.
  assert (R : ledgers reworded_entry l m) by (eapply ledgers_mono; [|exact L]; intros a b [H _]; exact H).
  destruct (C115_reports (x_today x) l m R) as (B & V & _).
  destruct (f_cmd f); try reflexivity; try congruence.
  - destruct (show_balance l), (show_balance m); cbn in *; try contradiction; subst; reflexivity.
  - rewrite V. destruct (show_envelopes (x_today x) m); reflexivity.
  - rewrite (C115_register (x_tty x) l m _ _ _ L). destruct (show_register _ _ _ _ _); reflexivity.
Qed.

(** A run that moves money, and then the same report with [--no-move]. *)
Theorem C120_again_partial : forall x args f args' f' w p l w1 l' w2,
  parse_args args = Some (Ok f) -> f_no_move f = false -> f_cmd f <> Import ->
  parse_args args' = Some (Ok f') -> f_no_move f' = true -> f_cmd f' = f_cmd f -> f_begin f' = f_begin f -> f_end f' = f_end f ->
  chosen x f p -> chosen x f' p -> ready x f w l' w2 -> from_file (x_fuel x) (x_today x) p w = Ok (l, w1) ->
  proper w -> file_path p -> (forall r t g, files w r = Some t -> includes t g -> file_path g) ->
  resolve w1 p = resolve w p -> (0 <= year (x_today x) < 10000)%Z -> journal_date (l_format l) (x_today x) ->
  (forall e ep, In e (l_entries l') -> e_date e = x_today x -> In (EnvPosting ep) (e_postings e) -> writable (ep_amount ep) /\ to8 (ep_amount ep) = ep_amount ep) ->
  let after := o_world (main x args w) in
  o_out (main x args' (later w after)) = o_out (main x args w)
  /\ forall q, files (o_world (main x args' (later w after))) q = files after q.
Proof.
  intros x args f args' f' w p l w1 l' w2 Pa Nm Ni Pa' Nm' Ec Eb Ee Ch Ch' Re L P Fp Hf R Y J Ex after.
  assert (M : forall v, main x args v = execute x f v) by (intro v; unfold main; rewrite Pa; reflexivity).
  assert (M' : forall v, main x args' v = execute x f' v) by (intro v; unfold main; rewrite Pa'; reflexivity).
  unfold after. rewrite M, (ready_run x f w l' w2 Re), (run_world x f l' w2 Ni), M'.
  destruct (C112_same_partial x f w p l w1 l' w2 Nm Re Ch L P Fp Hf R Y J Ex) as (l3 & w3 & F & U).
  rewrite (ready_run x f' (later w w2) l3 w3 (ready_still _ _ _ _ _ _ Ch' F Nm')).
  split.
  - symmetry. apply repaid_printed; try assumption. apply uncommented_repaid, U.
  - rewrite run_world by congruence. intro q. pose proof (load_files _ _ _ _ _ F) as E. cbn [snd] in E. rewrite E. reflexivity.
Qed.
Print Assumptions C120_again_partial.

(** *** The full statement: the amounts of a move are written with eight decimals,
    and counted with all of them before. *)
Definition third (name : string) : list string := ["  goal " ++ name ++ " by 2024/03/23"; "    amount 100"; "    funding conservative"]%string.
Definition thirds : list string :=
  ["account a"]%string ++ third "x" ++ third "y" ++ third "z" ++ ["account b"; "2024/03/01 * Salary"; "  a  1000"; "  b"]%string.
Definition third_world : world := world_of [([lit "j"], text thirds)] [[]] [].
Definition balance_at : list str := map lit ["balance"; "-f"; "/j"]%string.
Definition balance_after : list str := map lit ["balance"; "--no-move"; "-f"; "/j"]%string.

Theorem C120_refuted : exists x args f args' f' w p,
  parse_args args = Some (Ok f) /\ f_no_move f = false /\ f_cmd f <> Import
  /\ parse_args args' = Some (Ok f') /\ f_no_move f' = true /\ f_cmd f' = f_cmd f /\ f_begin f' = f_begin f /\ f_end f' = f_end f
  /\ chosen x f p /\ chosen x f' p /\ is_absolute p = true /\ proper w
  /\ journal_date default_format (x_today x)
  /\ (let after := o_world (main x args w) in
      o_res (main x args w) = Ok tt /\ o_res (main x args' (later w after)) = Ok tt
      /\ o_out (main x args w) = text ["a                                       1100"; "b                                       0"; ""]%string
      /\ o_out (main x args' (later w after)) = text ["a                                       1099.99999999"; "b                                       0"; ""]%string).
Proof.
  exists unset, balance_at, (mkFlags (Some (lit "/j")) Balance false None None None None),
    balance_after, (mkFlags (Some (lit "/j")) Balance true None None None None), third_world, (lit "/j").
  split; [vm_compute; reflexivity|]. split; [reflexivity|]. split; [discriminate|].
  split; [vm_compute; reflexivity|]. split; [reflexivity|]. split; [reflexivity|]. split; [reflexivity|]. split; [reflexivity|].
  split; [apply by_flag; reflexivity|]. split; [apply by_flag; reflexivity|]. split; [reflexivity|].
  split; [apply world_of_proper; vm_compute; reflexivity|]. split; [apply C63_default; cbn; lia|].
  vm_compute. split; [reflexivity|]. split; [reflexivity|]. split; reflexivity.
Qed.
Print Assumptions C120_refuted.

(** *** A case *)
Definition tenths (a : string) : list string :=
  ["account a"; "  goal x by 2024/03/23"; "    amount 1"; "    funding aggressive"; "  goal y by 2024/03/23"; "    amount 0.1"; "    funding aggressive";
   "  goal z by 2024/03/23"; "    amount 0.7"; "    funding aggressive"; "account b"; "2024/03/01 * Salary"; "  a  " ++ a; "  b"]%string.
Definition moved_for (a : string) : option (list str) :=
  let w := world_of [([lit "j"], text (tenths a))] [[]] [] in
  option_map (fun t => lines (skipn (List.length (text (tenths a))) t)) (files (o_world (main unset balance_at w)) [lit "j"]).
(** Money is left for the last goal; the same report with [--no-move] afterwards. *)
Example C120_case :
  let w := world_of [([lit "j"], text (tenths "1.05"))] [[]] [] in
  let o := main unset balance_at w in
  moved_for "1.05" = Some (map lit [""; "2024/03/20 ~ move to envelopes // automatically generated by silverfox"; "    envelope a z                                        0.7"; "    envelope a y                                        0.1"; "    envelope a x                                        0.25"]%string)
  /\ o_out o = text ["a                                       2.1"; "b                                       0"; ""]%string
  /\ o_out (main unset balance_after (later w (o_world o))) = o_out o.
Proof. vm_compute. split; [reflexivity|]. split; reflexivity. Qed.
(** If [0.8] is there, [0.7] and [0.1] leave a little more than nothing, and it is moved. *)
Example C120_nothing : moved_for "0.8" = Some (map lit [""; "2024/03/20 ~ move to envelopes // automatically generated by silverfox"; "    envelope a z                                        0.7"; "    envelope a y                                        0.1"; "    envelope a x                                        0"]%string).
Proof. vm_compute. reflexivity. Qed.
