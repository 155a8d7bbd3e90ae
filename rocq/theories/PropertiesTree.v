(** C141: typed journals in several files. *)
From Coq Require Import ZArith NArith List Bool Ascii String Reals Lia Lra Permutation Sorted.
From Verif Require Import Base Str F64 Date World Amount Posting Entry Envelope Account Register Ledger Importer Cli
  SpecAmount SpecDate SpecEntry SpecEnvelope SpecLedger SpecReport SpecTotals SpecCli SpecRun SpecTyped SpecRows SpecTree
  StrFacts LineFacts F64Facts AmountFacts EntryFacts ErrorFacts EntryText EnvelopeFacts LoadFacts AgainFacts LedgerFacts OrderFacts DecimalFacts TypedFacts PropertiesLedger PropertiesReport PropertiesTotals PropertiesCli PropertiesRun PropertiesFrame PropertiesTyped PropertiesRows.
Import ListNotations.
Local Open Scope Z_scope.

Section Tree.
Context (today : date) (w0 : world).
Lemma account_step inc accounts line name es0 l w : ~ indented line -> plain_line line -> words line = [lit "account"; name] -> so_far today accounts es0 l ->
  exists l', parse_chunk today inc (l, w) line = Ok (l', w) /\ so_far today (name :: accounts) es0 l'.
Proof.
  intros Ni P1 Ew (fs & B & L & Cs & Fm & N & Si).
  assert (ledger_parse_account l line = Ok (mkLedger (l_path l) (l_entries l) (l_format l)
    (map_insert name (mkAccount name [] [] []) (l_accounts l)) (l_currency l))) as E.
  { unfold ledger_parse_account, parse_account. rewrite lines_one.
    - unfold account_header. unfold words in Ew. rewrite Ew. reflexivity.
    - apply P1.
    - intros ->. discriminate. }
  exists (mkLedger (l_path l) (l_entries l) (l_format l) (map_insert name (mkAccount name [] [] []) (l_accounts l)) (l_currency l)). split.
  { unfold parse_chunk. rewrite <- (plain_words line P1), Ew. cbv zeta. rewrite (proj2 (str_eqb_eq _ _) eq_refl). cbn [fst]. rewrite E. reflexivity. }
  exists fs. split; [eapply built_account; eassumption|]. split; [exact L|]. split; [exact Cs|]. split; [exact Fm|]. split.
  + intros n I. unfold account_names. cbn [l_accounts]. rewrite map_insert_keys.
    destruct (in_dec str_dec name (map fst (l_accounts l))) as [J|J]; destruct I as [<-|I]; auto; [apply in_or_app; right; left; reflexivity|apply in_or_app; left; apply N, I].
  + intros k a I. cbn [l_accounts] in I. apply ErrorFacts.insert_In in I as [->|I]; [split; reflexivity|exact (Si k a I)].
Qed.
Lemma entry_step inc accounts line d ls ps es0 l w : typed_header line d -> Forall2 (typed_posting accounts) ls ps -> complete ps -> plain_line line -> Forall plain_line ls ->
  so_far today accounts es0 l ->
  exists l', parse_chunk today inc (l, w) (chunk_of line ls) = Ok (l', w) /\ so_far today accounts (es0 ++ [(d, ps)]) l'.
Proof.
  intros H F C P1 Pl (fs & B & L & Cs & Fm & N & Si).
  destruct (entry_read accounts (account_names l) line d ls ps H F C N P1 Pl) as (e & Pe & Le).
  destruct (simple_add today l e Si (fun q I => like_worth (d, ps) e q Le C I)) as (l' & A & Si' & Na & Fm').
  exists l'. split.
  { unfold parse_chunk. destruct (entry_words line d ls H P1) as (k & r & Ek & c & Dc & Ic). rewrite Ek. cbv zeta.
    rewrite (keyword_no_digit k "account" c Dc Ic), (keyword_no_digit k "currency" c Dc Ic), (keyword_no_digit k "date_format" c Dc Ic), (keyword_no_digit k "include" c Dc Ic) by reflexivity. cbn [fst snd]. unfold ledger_parse_entry. rewrite Fm. unfold decimal_symbol.
    change (chr ".") with 46%N. rewrite Pe. cbn [bind]. rewrite A. reflexivity. }
  exists (fs ++ [e]). split; [eapply built_entry; eassumption|]. split; [apply Forall2_app; [exact L|constructor; [exact Le|constructor]]|].
  split; [apply Forall_app; split; [exact Cs|constructor; [exact C|constructor]]|]. split; [congruence|]. split; [rewrite Na; exact N|exact Si'].
Qed.
Lemma chdir_some w f : components f <> [] -> exists w1, chdir_parent w f = Ok w1 /\ same_disk w w1.
Proof.
  intro Np. unfold chdir_parent. destruct (components f) as [|c cs]; [contradiction|]. cbv zeta.
  destruct (_ && _); eexists; (split; [reflexivity|split; reflexivity]).
Qed.
Lemma tree_read depth accounts ls accounts' es : typed_tree w0 depth accounts ls accounts' es -> Forall plain_line ls ->
  exists cs, (forall cur, chunks cur ls (cur :: cs))
  /\ forall fuel es0 l w, (depth <= fuel)%nat -> same_disk w0 w -> so_far today accounts es0 l ->
     exists l' w', fold_res (parse_chunk today (add_from_file fuel today)) cs (l, w) = Ok (l', w') /\ same_disk w0 w' /\ so_far today accounts' (es0 ++ es) l'.
Proof.
  induction 1 as [depth accounts|depth accounts line name rest accounts' es Ni Ew _ IH|depth accounts line d ls ps rest accounts' es H F C _ IH
    |depth accounts line f text between rest accounts' es es' Ni Ew Ab Np Fi _ IHf _ IH]; intro P.
  - exists []. split; [intro; constructor|]. intros fuel es0 l w _ D S. exists l, w. rewrite app_nil_r. split; [reflexivity|]. auto.
  - destruct (IH (Forall_inv_tail P)) as (cs & Hc & Hf). exists (line :: cs). split; [intro; apply chunks_new; [exact Ni|apply Hc]|].
    intros fuel es0 l w Le D S. cbn [fold_res]. destruct (account_step (add_from_file fuel today) accounts line name es0 l w Ni (Forall_inv P) Ew S) as (l1 & -> & S1). cbn [bind].
    exact (Hf fuel es0 l1 w Le D S1).
  - pose proof (Forall_inv P) as P1. apply Forall_inv_tail, Forall_app in P as [Pl P2]. destruct (IH P2) as (cs & Hc & Hf). exists (chunk_of line ls :: cs).
    assert (Forall indented ls) as In_ by (clear - F; induction F as [|l p ls ps (I & _) _ IH]; constructor; assumption).
    split; [intro; apply chunks_new; [apply H|apply indented_chunks; assumption]|].
    intros fuel es0 l w Le D S. cbn [fold_res]. destruct (entry_step (add_from_file fuel today) accounts line d ls ps es0 l w H F C P1 Pl S) as (l1 & -> & S1). cbn [bind].
    destruct (Hf fuel _ l1 w Le D S1) as (l2 & w2 & E2 & D2 & S2). exists l2, w2. rewrite <- app_assoc in S2. auto.
  - destruct (IH (Forall_inv_tail P)) as (cs & Hc & Hf). exists (line :: cs). split; [intro; apply chunks_new; [exact Ni|apply Hc]|].
    intros fuel es0 l w Le D S. destruct fuel as [|fuel]; [lia|]. cbn [fold_res].
    assert (exists l1 w1, parse_chunk today (add_from_file (Datatypes.S fuel) today) (l, w) line = Ok (l1, w1) /\ same_disk w0 w1 /\ so_far today between (es0 ++ es) l1) as (l1 & w1 & -> & D1 & S1).
    { assert (parse_chunk today (add_from_file (Datatypes.S fuel) today) (l, w) line = add_from_file (Datatypes.S fuel) today f (l, w)) as ->
        by (unfold parse_chunk; rewrite <- (plain_words line (Forall_inv P)), Ew; reflexivity).
      cbn [add_from_file snd fst]. unfold read_file. rewrite IncludeFacts.resolve_located, (IncludeFacts.located_absolute (cwd w) [] f ltac:(destruct Ab as (r & ->); reflexivity)). destruct D as [D1 D2]. rewrite D1, Fi. cbn [bind].
      destruct (chdir_some w f Np) as (w1 & -> & [E1 E2]). cbn [bind]. destruct (IHf (plain_contents text)) as (cs' & Hc' & Hf').
      rewrite (add_from_str_chunks today _ text _ _ (Hc' [])). cbn [fold_res]. change (parse_chunk today (add_from_file fuel today) (l, w1) []) with (Ok (l, w1)). cbn [bind].
      apply Hf'; [lia|split; congruence|exact S]. }
    cbn [bind]. destruct (Hf (Datatypes.S fuel) (es0 ++ es) l1 w1 Le D1 S1) as (l2 & w2 & E2 & D2 & S2). exists l2, w2. rewrite <- app_assoc in S2. auto.
Qed.
End Tree.

Lemma tree_loaded x w p text depth accounts es : (depth < x_fuel x)%nat -> components p <> [] -> files w (resolve w p) = Some text ->
  typed_tree w depth [] (contents (lines text)) accounts es ->
  exists l w1, from_file (x_fuel x) (x_today x) p w = Ok (l, w1) /\ same_disk w w1 /\ so_far (x_today x) accounts es l.
Proof.
  intros Fu Np Fi T.
  unfold from_file. destruct (x_fuel x) as [|n]; [lia|]. cbn [add_from_file snd fst]. unfold read_file. rewrite Fi. cbn [bind]. destruct (chdir_some w p Np) as (w1 & -> & Sd). cbn [bind].
    destruct (tree_read (x_today x) w depth [] _ accounts es T (plain_contents text)) as (cs & Hc & Hf).
    rewrite (add_from_str_chunks _ _ text _ _ (Hc [])). cbn [fold_res]. change (parse_chunk (x_today x) (add_from_file n (x_today x)) (new_ledger p, w1) []) with (Ok (new_ledger p, w1)). cbn [bind].
    apply (Hf n [] (new_ledger p) w1); [lia|exact Sd|]. exists []. split; [constructor|]. split; [constructor|]. split; [constructor|]. split; [reflexivity|]. split; [intros n0 []|intros k a []].
Qed.
(** What [silverfox balance] prints for a journal in several files. *)
Theorem C141_files : forall x args f w p text depth accounts es,
  parse_args args = Some (Ok f) -> f_cmd f = Balance -> chosen x f p -> (depth < x_fuel x)%nat ->
  components p <> [] -> files w (resolve w p) = Some text ->
  typed_tree w depth [] (contents (lines text)) accounts es -> opened es -> modest_sums es ->
  o_res (main x args w) = Ok tt /\ same_disk w (o_world (main x args w))
  /\ exists rows, o_out (main x args w) = flat_map row_text rows /\ in_order (map fst rows)
  /\ (forall name, In name (map fst rows) <-> named_in es name)
  /\ (forall name ts, In (name, ts) rows -> NoDup (map fst ts)
       /\ (forall sym, In sym (map fst ts) <-> moves es name sym <> [])
       /\ (forall sym t, In (sym, t) ts -> total_shown t (Zsum (moves es name sym)) sym)).
Proof.
  intros x args f w p text depth accounts es Pa Fc Ch Fu Np Fi T O M.
  destruct (tree_loaded x w p text depth accounts es Fu Np Fi T) as (l & w1 & Ff & Sd & S).
  exact (balances_loaded x args f w p l w1 accounts es Pa Fc Ch Ff Sd S O M).
Qed.
Print Assumptions C141_files.

(** And [silverfox register]. *)
Lemma tree_years w depth accounts ls accounts' es : typed_tree w depth accounts ls accounts' es -> Forall (fun t => 0 <= year (fst t) < 10000) es.
Proof.
  induction 1 as [| |depth accounts line d lns ps rest accounts' es (_ & Y & _) _ _ _ IH|depth accounts line f text between rest accounts' es es' _ _ _ _ _ _ IHf _ IH];
    [constructor|assumption|constructor; assumption|apply Forall_app; split; assumption].
Qed.
Theorem C141_register : forall x args f w p text depth accounts es,
  parse_args args = Some (Ok f) -> f_cmd f = CmdRegister -> x_tty x = true -> chosen x f p -> (depth < x_fuel x)%nat ->
  components p <> [] -> files w (resolve w p) = Some text ->
  typed_tree w depth [] (contents (lines text)) accounts es -> modest_assets es ->
  o_res (main x args w) = Ok tt /\ same_disk w (o_world (main x args w))
  /\ exists ts rows texts, Permutation es ts /\ StronglySorted (fun e e' => not_later (fst e) (fst e')) ts
     /\ right_rows [] ts rows /\ o_out (main x args w) = List.concat texts /\ Forall2 row_of rows texts.
Proof.
  intros x args f w p text depth accounts es Pa Fc Ty Ch Fu Np Fi T M.
  destruct (tree_loaded x w p text depth accounts es Fu Np Fi T) as (l & w1 & Ff & Sd & S).
  exact (register_loaded x args f w p l w1 accounts es Pa Fc Ty Ch Ff Sd S (tree_years _ _ _ _ _ _ T) M).
Qed.
Print Assumptions C141_register.

(** The accounts and the opening entry of the journal in files of their own. *)
Local Notation D y m d := (mkDate y m d eq_refl).
Local Ltac far := let E := fresh in let W := fresh in intros (? & ? & E & W); injection E as <- _; discriminate W.
Local Ltac near := eexists _, _; split; [reflexivity|reflexivity].
Local Ltac digits := repeat (constructor; [vm_compute; split; discriminate|]); constructor.
Local Ltac number n i f way := exists (lit n ++ lit i ++ lit f); exists (match n with EmptyString => false | _ => true end), (lit i), (lit (match f with EmptyString => EmptyString | String _ r => r end));
  split; [split; [digits|split; [digits|split; [discriminate|exists (lit i ++ lit f); split; [reflexivity|cbn; tauto]]]]|
  split; [unfold decimal_value; vm_compute (SpecAmount.number_of _); vm_compute (10 ^ _); cbn; lra|split; [reflexivity|way]]].
Local Ltac line way := split; [near|split; [cbn; tauto|split; [discriminate|eexists; split; [vm_compute; reflexivity|way]]]].
Local Ltac head st := split; [far|split; [split; [discriminate|reflexivity]|exists st; eexists _, _; split; [vm_compute; reflexivity|split; [constructor|]]]];
  repeat (constructor; [let H := fresh in intro H; cbn in H; repeat destruct H as [H|H]; try discriminate H; destruct H|]); constructor.
Definition main_text : str := text ["include /names"; "2024/02/05 ~ market"; "  food  12.25"; "  assets:cash"; "include /d/old ; the start"]%string.
Definition names_text : str := text ["account assets:cash"; "account equity"; "account food"]%string.
Definition old_text : str := text ["2024/02/01 * opening"; "  assets:cash  100.5"; "  equity  -100.5"]%string.
Definition three_files : world := world_of [(j, main_text); ([lit "names"], names_text); ([lit "d"; lit "old"], old_text)] [[]; [lit "d"]] [].
Example C141_case : typed_tree three_files 1 [] (contents (lines main_text)) [lit "food"; lit "equity"; purse]
    [(D 2024 2 5, [mkTyped (lit "food") (Some (1225000000, None)); mkTyped purse None]);
     (D 2024 2 1, [mkTyped purse (Some (10050000000, None)); mkTyped (lit "equity") (Some (-10050000000, None))])]
  /\ shown_by ["b"]%string three_files = map lit
      ["assets:cash                             88.25"; "equity                                 -100.5"; "food                                    12.25"]%string
  /\ shown_by ["r"]%string three_files = map lit
      ["2024/02/01 * opening       equity -> assets:cash   100.5   100.5";
       "2024/02/05 ~ market   assets:cash -> food         -12.25   88.25"]%string.
Proof.
  split; [|split; vm_compute; reflexivity].
  let c := eval vm_compute in (contents (lines main_text)) in change (contents (lines main_text)) with c.
  eapply (tree_include _ _ _ _ (lit "/names") names_text _ _ _ [] _); [far|vm_compute; reflexivity|eexists; reflexivity|vm_compute; discriminate|vm_compute; reflexivity| |].
  { let c := eval vm_compute in (contents (lines names_text)) in change (contents (lines names_text)) with c. do 3 (eapply tree_account; [far|vm_compute; reflexivity|]). apply tree_end. }
  eapply (tree_entry _ _ _ _ _ [_; _]); [head Cleared|constructor; [line ltac:(number ""%string "12"%string ".25"%string reflexivity)|constructor; [line reflexivity|constructor]]| |].
  { split; [reflexivity|]. intros p _ _. eexists. split; [left; reflexivity|]. intros y [<-|[]]. reflexivity. }
  eapply (tree_include _ _ _ _ (lit "/d/old") old_text _ _ _ [_] []); [far|vm_compute; reflexivity|eexists; reflexivity|vm_compute; discriminate|vm_compute; reflexivity| |apply tree_end].
  let c := eval vm_compute in (contents (lines old_text)) in change (contents (lines old_text)) with c.
  eapply (tree_entry _ _ _ _ _ [_; _]); [head Reconciled| | |apply tree_end].
  { constructor; [line ltac:(number ""%string "100"%string ".5"%string reflexivity)|]. constructor; [line ltac:(number "-"%string "100"%string ".5"%string reflexivity)|constructor]. }
  split; [vm_compute; lia|]. intros p I N. cbn in I. repeat destruct I as [<-|I]; try discriminate N; destruct I.
Qed.
