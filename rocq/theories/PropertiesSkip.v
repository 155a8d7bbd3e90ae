(** Property C97: the records that an import skips. *)
From Coq Require Import ZArith NArith List Bool String Lia.
From Verif Require Import Base Str F64 Date Amount Posting Entry Envelope Account World Register Ledger Importer Cli Csv SpecCsv
  IncludeFacts PropertiesLedger PropertiesCsv PropertiesImport PropertiesCli.
Import ListNotations.
Local Open Scope Z_scope.

Definition rules_path (csv_file : str) (rules_file : option str) : str :=
  match rules_file with Some p => p | None => csv_file ++ lit ".rules" end.

Lemma skipn_exact {A} (l : list A) : forall r, skipn (List.length l) (l ++ r) = r.
Proof. induction l as [|x l IH]; intro r; [reflexivity|]. apply IH. Qed.
Lemma open_reader fuel w c rf s rs t ru pre rest r0 rs' :
  csv_text s rs -> (forall t, s <> 65279%N :: t) -> rs = pre ++ rest -> rs = r0 :: rs' ->
  read_file w c = Ok s -> read_file w (rules_path c rf) = Ok t -> parse_rules fuel w t = Ok ru ->
  r_skip ru = Z.of_nat (List.length pre) ->
  open_importer fuel w csv_reader c rf
  = let! recs := collect_records (map (fun r => if Nat.eqb (List.length r) (List.length r0) then Some r else None) rest) in Ok (ru, recs).
Proof.
  intros T M E E0 Rc Rr P K. unfold open_importer. fold (rules_path c rf). rewrite Rc. cbn [bind]. rewrite Rr. cbn [bind]. rewrite P. cbn [bind].
  rewrite (C70_read s rs T M), E0, <- E0, E. unfold skip_records. rewrite K.
  destruct (Z.ltb_spec (Z.of_nat (List.length pre)) 0) as [L|_]; [lia|].
  rewrite Nat2Z.id, map_app. rewrite <- (map_length (fun r => if Nat.eqb (List.length r) (List.length r0) then Some r else None) pre), skipn_exact.
  reflexivity.
Qed.
Lemma collect_some f (rs : list record) : Forall (fun r => f r = true) rs ->
  collect_records (map (fun r => if f r then Some r else None) rs) = Ok rs.
Proof. induction 1 as [|r rs E _ IH]; [reflexivity|]. cbn [map]. rewrite E. cbn [collect_records]. rewrite IH. reflexivity. Qed.
Lemma collect_none f (rs : list record) : Exists (fun r => f r = false) rs ->
  collect_records (map (fun r => if f r then Some r else None) rs) = Err (EParse CsvRecord).
Proof.
  induction 1 as [r rs E|r rs _ IH]; cbn [map].
  - rewrite E. reflexivity.
  - destruct (f r); [|reflexivity]. cbn [collect_records]. rewrite IH. reflexivity.
Qed.

(** ** C97 *)
(** If the records to import have as many fields as the first record of the
    file, skipped or not, then they are imported, whatever stands in the
    skipped ones. *)
Theorem C97_partial : forall fuel w csv_file rules_file s pre rest t ru,
  csv_text s (pre ++ rest) -> (forall t, s <> 65279%N :: t) ->
  read_file w csv_file = Ok s -> read_file w (rules_path csv_file rules_file) = Ok t -> parse_rules fuel w t = Ok ru ->
  r_skip ru = Z.of_nat (List.length pre) ->
  (forall r r', In r rest -> hd_error (pre ++ rest) = Some r' -> List.length r = List.length r') ->
  open_importer fuel w csv_reader csv_file rules_file = Ok (ru, rest).
Proof.
  intros fuel w c rf s pre rest t ru T M Rc Rr P K U.
  destruct (pre ++ rest) as [|r0 rs'] eqn:E.
  - apply app_eq_nil in E as (-> & ->). unfold open_importer. fold (rules_path c rf). rewrite Rc. cbn [bind]. rewrite Rr. cbn [bind].
    rewrite P. cbn [bind]. rewrite (C70_read s [] T M). unfold skip_records. rewrite K. reflexivity.
  - rewrite (open_reader fuel w c rf s _ t ru pre rest r0 rs' T M (eq_sym E) eq_refl Rc Rr P K).
    rewrite (collect_some (fun r => Nat.eqb (List.length r) (List.length r0))); [reflexivity|].
    apply Forall_forall. intros r I. apply Nat.eqb_eq. apply U; [exact I|reflexivity].
Qed.
Print Assumptions C97_partial.

(** Otherwise nothing is imported, however many records are skipped. *)
Theorem C97_error : forall fuel today lower ord l w csv_file rules_file s pre rest t ru r r',
  csv_text s (pre ++ rest) -> (forall t, s <> 65279%N :: t) ->
  read_file w csv_file = Ok s -> read_file w (rules_path csv_file rules_file) = Ok t -> parse_rules fuel w t = Ok ru ->
  r_skip ru = Z.of_nat (List.length pre) ->
  In r rest -> hd_error (pre ++ rest) = Some r' -> List.length r <> List.length r' ->
  import_csv fuel today lower ord csv_reader l w csv_file rules_file = (w, Err (EParse CsvRecord)).
Proof.
  intros fuel td lower ord l w c rf s pre rest t ru r r' T M Rc Rr P K I H N.
  destruct (pre ++ rest) as [|r0 rs'] eqn:E; [discriminate|]. injection H as ->.
  unfold import_csv. rewrite (open_reader fuel w c rf s _ t ru pre rest r' rs' T M (eq_sym E) eq_refl Rc Rr P K).
  rewrite (collect_none (fun r => Nat.eqb (List.length r) (List.length r'))); [reflexivity|].
  apply Exists_exists. exists r. split; [exact I|]. apply Nat.eqb_neq. exact N.
Qed.
Print Assumptions C97_error.

(** A file of a bank with a title above its records.  The title is to be
    skipped, but the import fails; with a title of three fields, or without
    title, it does not. *)
Definition statement_world (csv_lines : list string) (skip : string) : world :=
  world_of [(j, text bank); ([lit "c"], text csv_lines);
            ([lit "r"], text ["skip " ++ skip; "fields date,description,amount"; "account assets:bank"]%string)] [[]] [].
Definition imported_run (csv_lines : list string) (skip : string) : outcome :=
  main (ctx [] csv_reader) (map lit ["i"; "-f"; "/j"; "--csv"; "/c"; "--rules"; "/r"]%string) (statement_world csv_lines skip).
Definition row : string := "2024/03/01,shop,-5".

Theorem C97_refuted : exists x args title row w1 w2,
  csv_text (title ++ 10%N :: row) [[title]; [lit "2024/03/01"; lit "shop"; lit "-5"]]
  /\ (exists rules, files w1 [lit "r"] = Some (lit "skip 1" ++ rules) /\ files w2 [lit "r"] = Some (lit "skip 0" ++ rules))
  /\ (forall p, p <> [lit "r"] -> p <> [lit "c"] -> files w1 p = files w2 p)
  /\ files w1 [lit "c"] = Some (title ++ 10%N :: row) /\ files w2 [lit "c"] = Some row
  /\ o_res (main x args w2) = Ok tt /\ o_res (main x args w1) = Err (EParse CsvRecord).
Proof.
  exists (ctx [] csv_reader), (map lit ["i"; "-f"; "/j"; "--csv"; "/c"; "--rules"; "/r"]%string),
    (lit "Account 1"), (lit row), (statement_world ["Account 1"; row]%string "1"), (statement_world [row] "0").
  assert (B : forall v, forallb (fun c => negb (N.eqb c 44 || N.eqb c 13 || N.eqb c 10)) v = true -> hd_error v <> Some 34%N -> field_text v v).
  { intros v H Q. rewrite forallb_forall in H. constructor.
    - intros c I. specialize (H c I). apply negb_true_iff, orb_false_iff in H as (H & H3). apply orb_false_iff in H as (H1 & H2).
      apply N.eqb_neq in H1, H2, H3. unfold line_end. intuition congruence.
    - intros t ->. apply Q. reflexivity. }
  split.
  { apply (csv_line (lit "Account 1") [lit "Account 1"] 10); [apply record_last, B; [reflexivity|discriminate]|discriminate|right; reflexivity|].
    apply csv_last; [|discriminate].
    apply (record_more (lit "2024/03/01") _ (lit "shop,-5")); [apply B; [reflexivity|discriminate]|].
    apply (record_more (lit "shop") _ (lit "-5")); [apply B; [reflexivity|discriminate]|]. apply record_last, B; [reflexivity|discriminate]. }
  split.
  { exists (10%N :: text ["fields date,description,amount"; "account assets:bank"]%string). split; vm_compute; reflexivity. }
  split.
  { intros p Nr Nc. unfold statement_world, world_of. cbn [files]. f_equal. cbn [find fst].
    destruct (path_eqb j p); [reflexivity|]. 
    assert (X : forall q, p <> q -> path_eqb q p = false).
    { intros q Nq. destruct (path_eqb q p) eqn:E; [|reflexivity]. apply path_eqb_eq in E. congruence. }
    rewrite (X _ Nc), (X _ Nr). reflexivity. }
  vm_compute. repeat split; reflexivity.
Qed.
Print Assumptions C97_refuted.

Example C97_case :
  o_res (imported_run [row] "0") = Ok tt /\ o_res (imported_run ["Account 1"; row]%string "1") = Err (EParse CsvRecord)
  /\ o_res (imported_run ["Account 1,,"; row]%string "1") = Ok tt
  /\ files (o_world (imported_run ["Account 1"; row]%string "1")) j = Some (text bank).
Proof. vm_compute. repeat split; reflexivity. Qed.
