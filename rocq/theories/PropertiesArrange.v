(** Claim about the order of definitions (C119). *)
From Coq Require Import ZArith NArith List Bool String Permutation.
From Verif Require Import Base Str F64 Date World Amount Posting Entry Envelope Account Ledger Cli
  SpecText SpecEnvelope SpecLedger SpecImport SpecCrash SpecLayout SpecArrange
  AccountFacts LedgerFacts LoadFacts PropertiesLedger PropertiesCli TwinFacts PropertiesLayout ArrangeFacts ArrangeLoad ArrangeRun.
Import ListNotations.

(** Both journals are refused, or both are read, with the same entries and settings
    and the same accounts. *)
Theorem C119_loading : forall fuel today p w v, rearranged_world w v ->
  both (fun s t => same_ledger (fst s) (fst t) /\ rearranged_world (snd s) (snd t)) (from_file fuel today p w) (from_file fuel today p v).
Proof.
  intros fuel today p w v W. pose proof (St_from_file fuel today p w v W) as H.
  destruct (from_file fuel today p w), (from_file fuel today p v); cbn in *; auto. destruct H as [[L _] R]. auto.
Qed.
Print Assumptions C119_loading.

(** The same output; the same lines are appended to the journal.  ([register] after
    a move shows the lines of the move in their order.) *)
Theorem C119_run : forall x args w v, rearranged_world w v ->
  (forall f, parse_args args = Some (Ok f) -> f_cmd f = CmdRegister -> f_no_move f = true) ->
  (forall f j c, parse_args args = Some (Ok f) -> f_cmd f = Import -> journal_path x f = Some j -> f_csv f = Some c ->
     same_sources w v j c (rules_for f c)) ->
  o_out (main x args w) = o_out (main x args v)
  /\ ((exists u, o_res (main x args w) = Ok u) <-> (exists u, o_res (main x args v) = Ok u))
  /\ same_lines w (o_world (main x args w)) v (o_world (main x args v)).
Proof.
  intros x args w v W K S. assert (Z : same_lines w w v v) by (apply Lines_same, Lines_none; reflexivity). unfold main.
  destruct (parse_args args) as [[f| | |]|]; try (split; [reflexivity|split; [cbn; split; intros (u & E); first [discriminate|exists u; exact E]|exact Z]]; fail).
  destruct (arr_execute x f w v W (K f eq_refl) (fun j c => S f j c eq_refl)) as (O & E & L). split; [exact O|]. split; [exact E|]. apply Lines_same, L.
Qed.
Print Assumptions C119_run.

(** The accounts are kept in a hash map: whatever their order there, the same moves
    are made and written, and both reports are the same after them. *)
Theorem C119_moves : forall today l es m w, built today l es -> same_ledger l m ->
  same_lines w (fst (fill_envelopes today l w)) w (fst (fill_envelopes today m w))
  /\ both (fun l' m' => both eq (show_balance l') (show_balance m') /\ show_envelopes today l' = show_envelopes today m')
       (snd (fill_envelopes today l w)) (snd (fill_envelopes today m w)).
Proof.
  intros today l es m w H L. assert (L' : Led l m) by (split; [exact L|exact (proj1 (built_well_keyed _ _ _ H))]).
  destruct (arr_fill today l m w w (Led_2 _ _ L') (built_owned _ _ _ H)) as (S & _ & R); [split; [reflexivity|intro; reflexivity]|].
  split; [apply Lines_same, S|]. destruct (snd (fill_envelopes today l w)), (snd (fill_envelopes today m w)); cbn in *; auto.
  split; [apply balance_same, R|apply envelopes_same, R].
Qed.
Print Assumptions C119_moves.

Definition before : list string :=
  ["account shop"; "account assets:a"; "  goal food by 2024/07/20"; "    amount $30"; "    funding aggressive"; "    for market";
   "account b"; "  goal car by 2025/01/01"; "    amount $900"; "    funding aggressive";
   "2024/03/01 * Salary"; "  assets:a  $100"; "  b  $10"; "  shop"]%string.
Definition after : list string :=
  ["account b"; "  goal car by 2025/01/01"; "    amount $900"; "    funding aggressive";
   "account assets:a"; "  goal food by 2024/07/20"; "    funding aggressive"; "    amount $30"; "    for market"; "account shop";
   "2024/03/01 * Salary"; "  assets:a  $100"; "  b  $10"; "  shop"]%string.
Definition run_on (cmd : string) (ls : list string) : outcome :=
  main (ctx [("SILVERFOX_FILE", "j")]%string (fun _ => [])) [lit cmd] (world_of [([lit "j"], text ls)] [[]] []).
Definition appended (cmd : string) (ls : list string) : option (list str) :=
  option_map (fun t => lines (skipn (List.length (text ls)) t)) (files (o_world (run_on cmd ls)) [lit "j"]).
Lemma swap_accounts c d m n cs ds : defines c m -> defines d n -> m <> n -> rearranged (c :: cs) ds -> rearranged (c :: d :: cs) (d :: ds).
Proof. intros C D N R. eapply rearranged_trans; [apply (rearranged_accounts c d m n); assumption|]. apply rearranged_next, R. Qed.
Ltac defined name := exists (lit "account " ++ name); eexists; split; vm_compute; reflexivity.
Example C119_case :
  let w := world_of [([lit "j"], text before)] [[]] [] in
  let v := world_of [([lit "j"], text after)] [[]] [] in
  rearranged_world w v
  /\ o_out (run_on "e" before) = o_out (run_on "e" after) /\ o_out (run_on "e" before) <> []
  /\ appended "e" before = Some (map lit [""; "2024/03/20 ~ move to envelopes // automatically generated by silverfox"; "    envelope assets:a food                             $ 30"; "    envelope b car                                     $ 10"]%string)
  /\ appended "e" after = Some (map lit [""; "2024/03/20 ~ move to envelopes // automatically generated by silverfox"; "    envelope b car                                     $ 10"; "    envelope assets:a food                             $ 30"]%string).
Proof.
  cbv zeta. split; [|split; [vm_compute; reflexivity|split; [vm_compute; discriminate|split; vm_compute; reflexivity]]].
  split; [reflexivity|]. split; [reflexivity|]. intro p. unfold world_of. cbn [files find fst].
  destruct (path_eqb [lit "j"] p); [|exact I]. cbn [option_map snd].
  exists (cut [] (contents (lines (text before)))), (cut [] (contents (lines (text after)))). split; [apply cut_chunks|]. split; [apply cut_chunks|].
  let cs := eval vm_compute in (cut [] (contents (lines (text before)))) in assert (Ec : cut [] (contents (lines (text before))) = cs) by (vm_compute; reflexivity).
  let ds := eval vm_compute in (cut [] (contents (lines (text after)))) in assert (Ed : cut [] (contents (lines (text after))) = ds) by (vm_compute; reflexivity).
  rewrite Ec, Ed. clear Ec Ed.
  apply rearranged_next.
  eapply rearranged_trans.
  { apply rearranged_next. apply (rearranged_accounts _ _ (lit "assets:a") (lit "b")); [defined (lit "assets:a")|defined (lit "b")|discriminate]. }
  eapply swap_accounts with (m := lit "shop") (n := lit "b"); [defined (lit "shop")|defined (lit "b")|discriminate|].
  eapply rearranged_trans.
  { apply (rearranged_accounts _ _ (lit "shop") (lit "assets:a")); [defined (lit "shop")|defined (lit "assets:a")|discriminate]. }
  eapply (rearranged_settings _ _ (lit "account assets:a") [lit "  goal food by 2024/07/20"] (lit "    amount $30") (lit "    funding aggressive") [lit "    for market"]);
    [vm_compute; reflexivity| |vm_compute; reflexivity|vm_compute; reflexivity].
  split; [|split].
  - rewrite <- starts_envelope_iff. vm_compute. discriminate.
  - rewrite <- starts_envelope_iff. vm_compute. discriminate.
  - exists (lit "amount"), (lit "funding"). split; [vm_compute; reflexivity|]. split; [vm_compute; reflexivity|]. left. discriminate.
Qed.

(** The order of the envelopes of an account matters: the one defined last is
    filled first. *)
Definition goal_of (name day : string) : list string := ["  goal " ++ name ++ " by " ++ day; "    amount $900"; "    funding aggressive"]%string.
Definition food_car (x y : list string) : list string :=
  ["account a"%string] ++ x ++ y ++ ["account b"; "2024/03/01 * Salary"; "  a  $100"; "  b"]%string.
Theorem C119_refuted : exists x y : list string,
  appended "e" (food_car x y) = Some (map lit [""; "2024/03/20 ~ move to envelopes // automatically generated by silverfox"; "    envelope a car                                     $ 100"]%string)
  /\ appended "e" (food_car y x) = Some (map lit [""; "2024/03/20 ~ move to envelopes // automatically generated by silverfox"; "    envelope a food                                    $ 100"]%string).
Proof. exists (goal_of "food" "2024/07/20"), (goal_of "car" "2025/01/01"). split; vm_compute; reflexivity. Qed.
Print Assumptions C119_refuted.
