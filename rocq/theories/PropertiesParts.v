(** Property C124: importing a csv file in parts. *)
From Coq Require Import ZArith NArith List Bool String Permutation Lia.
From Verif Require Import Base Str F64 Date Amount Posting Entry Envelope Account World Register Ledger Importer Csv Cli
  SpecAmount SpecDate SpecEntry SpecEnvelope SpecLedger SpecImport SpecCsv SpecCli SpecRun SpecCrash SpecAgain SpecInclude SpecUnfold SpecParts
  StrFacts EntryFacts LedgerFacts LoadFacts IncludeFacts UnfoldFacts RunFacts ExpandFacts AgainFacts LineFacts CrashImport TwinFacts
  PropertiesLedger PropertiesCsv PropertiesImport PropertiesCli PropertiesEntry PropertiesInclude PropertiesRun PropertiesAgain.
Import ListNotations.
Local Open Scope list_scope.

(** ** Records one by one *)
Lemma records_app today mk ra rb : forall l w,
  import_records today mk l w (ra ++ rb)
  = match import_records today mk l w ra with (w', Ok l') => import_records today mk l' w' rb | r => r end.
Proof.
  induction ra as [|rec ra IH]; intros l w; cbn [app import_records]; [reflexivity|].
  destruct (mk rec); try reflexivity. destruct (append_entry today l w a) as [w' [l'| | |]]; [apply IH|reflexivity..].
Qed.
Lemma add_bare_fails today l m e : uncommented l m ->
  match add_entry today l e, add_entry today m e with
  | Ok l', Ok m' => uncommented l' m'
  | Err a, Err b => a = b
  | Panic, Panic | Loop, Loop => True
  | _, _ => False
  end.
Proof.
  intro U. destruct (add_entry today l e) as [l'| | |] eqn:E.
  { destruct (add_bare today l m e e l' U (or_introl eq_refl) E) as (m' & -> & U'). exact U'. }
  all: rewrite add_entry_accounts_eq in *; destruct U as (_ & _ & <- & _); destruct (map_res (process_pair today e) (l_accounts l)); cbn [bind] in *; try discriminate; try exact I; congruence.
Qed.
Lemma records_bare today mk recs : forall l m w, uncommented l m ->
  fst (import_records today mk l w recs) = fst (import_records today mk m w recs)
  /\ (let! _ := snd (import_records today mk l w recs) in Ok tt) = (let! _ := snd (import_records today mk m w recs) in Ok tt).
Proof.
  induction recs as [|rec recs IH]; intros l m w U; cbn [import_records]; [split; reflexivity|].
  destruct (mk rec) as [e| | |]; try (split; reflexivity). pose proof U as (Ep & Ef & _).
  pose proof (add_bare_fails today l m e U) as A. unfold append_entry. rewrite <- Ep, <- Ef.
  destruct (append_file w (l_path l) (10%N :: show_entry (l_format l) e)) as [w'| | |]; [|split; reflexivity..].
  destruct (printable (l_format l)); [|split; reflexivity].
  destruct (add_entry today l e) as [l'| | |], (add_entry today m e) as [m'| | |]; try contradiction; try (split; reflexivity); [apply IH, A|].
  subst. split; reflexivity.
Qed.

(** ** Loading what an import has appended *)
Lemma import_again fuel today lower ord csv p w l w1 c r w2 l' rs recs es :
  proper w -> file_path p -> (forall q t g, files w q = Some t -> includes t g -> file_path g) ->
  from_file fuel today p w = Ok (l, w1) -> resolve w1 p = resolve w p ->
  import_csv fuel today lower ord csv l w1 c r = (w2, Ok l') -> open_importer fuel w1 csv c r = Ok (rs, recs) ->
  Forall2 (fun rec e => import_record lower ord rs (account_names l) rec = Ok e) recs es ->
  Forall (fun e => journal_date (l_format l) (e_date e)) es -> Forall (writable_entry (account_names l)) es ->
  Forall (fun e => map to8_posting (e_postings e) = e_postings e) es ->
  (forall q, q <> resolve w p -> files w2 q = files w1 q) /\ (forall q, dirs w2 q = dirs w1 q) /\ cwd w2 = cwd w1
  /\ exists l2, from_file fuel today p (later w w2) = Ok (l2, w2) /\ uncommented l' l2 /\ account_names l2 = account_names l.
Proof.
  intros P Fp Hf L R Im Op F2 J Wr Ex. pose proof (from_file_disk _ _ _ _ _ _ L) as (Df & Dd).
  unfold from_file in *. pose proof (load_path _ _ _ _ _ L) as Ep. cbn [fst new_ledger l_path] in Ep.
  destruct fuel as [|fuel]; [discriminate|]. set (q := resolve w p) in *.
  assert (exists text, files w q = Some text) as (text0 & Et0).
  { cbn [add_from_file snd fst] in L. unfold read_file in L. fold q in L. destruct (files w q); [eauto|discriminate]. }
  pose proof (C60_prefix _ _ _ _ _ _ _ _ _ _ _ Im) as Q. rewrite Op, Ep, R in Q. rewrite Df, Et0 in Q.
  destruct Q as (first & rest & es' & E & F2' & Eq & Eo & Ed & Ec & Z).
  assert (rest = [] /\ fold_res (add_entry today) es' l = Ok l') as (-> & Z').
  { destruct Z as [(-> & l1 & El & Z)|[(rec & rest' & -> & Z & _)|[(es0 & e & l1 & _ & _ & Z)|(_ & _ & _ & Z)]]].
    - split; [reflexivity|congruence].
    - destruct (import_record _ _ _ _ rec); cbn in Z; contradiction || discriminate.
    - destruct (add_entry today l1 e); cbn in Z; contradiction || discriminate.
    - discriminate. }
  rewrite app_nil_r in E. subst first.
  assert (es' = es) as ->.
  { clear -F2 F2'. revert es F2. induction F2' as [|x e' xs es' H H' IH]; intros es G; inversion G; subst; [reflexivity|].
    f_equal; [congruence|]. apply IH. assumption. }
  split; [exact Eo|]. split; [exact Ed|]. split; [exact Ec|].
  assert (except q w (later w w2)) as Exc.
  { split; [|intro d; unfold later; cbn [dirs]; rewrite Ed; apply Dd]. intros d N. unfold later. cbn [files]. rewrite (Eo d N). apply Df. }
  rewrite <- (at_cwd w) in L.
  destruct (load_itself today w (later w w2) q P Hf Exc fuel (cwd w) p _ l w1 Fp (proj1 (proj2 P)) (eq_sym (resolve_located w p)) L)
    as (text & d' & Et & _ & Ew1 & Ch & G).
  assert (text0 = text) as -> by congruence.
  assert (cwd w1 = d') as Ecd by (rewrite Ew1; reflexivity).
  destruct (fold_bare today es l l l' (uncommented_refl l) Ex Z') as (l2 & A2 & Un).
  exists l2. split; [|split; [exact Un|]].
  - cbn [add_from_file snd fst]. unfold read_file.
    replace (resolve (later w w2) p) with q by (unfold q; rewrite !resolve_located; reflexivity).
    unfold later at 1. cbn [files]. rewrite Eq. cbn [bind].
    change (later w w2) with (at_dir (later w w2) (cwd w)) at 1. rewrite Ch. cbn [bind].
    rewrite (reload_appended today (add_from_file fuel today) es text _ l _ G J Wr l2 A2).
    destruct w2 as [f2 d2 c2]. cbn [cwd] in Ec. unfold at_dir, later. cbn [files dirs]. rewrite <- Ecd, <- Ec. reflexivity.
  - clear -A2. revert l A2. induction es as [|e es IH]; intros l A2; cbn [map fold_res] in A2; [congruence|].
    apply bind_Ok in A2 as (l1 & A1 & A2). destruct (add_entry_same _ _ _ _ A1) as (_ & _ & <-). apply IH, A2.
Qed.

(** ** C124 *)
Theorem C124_parts_partial : forall x w p r c ca cb l w1 f fa fb rs ra rb es,
  proper w -> file_path p -> (forall q t g, files w q = Some t -> includes t g -> file_path g) ->
  from_file (x_fuel x) (x_today x) p w = Ok (l, w1) -> resolve w1 p = resolve w p ->
  chosen x f p -> imports f c r -> chosen x fa p -> imports fa ca r -> chosen x fb p -> imports fb cb r ->
  open_importer (x_fuel x) w1 (x_csv x) c (Some r) = Ok (rs, ra ++ rb) ->
  open_importer (x_fuel x) w1 (x_csv x) ca (Some r) = Ok (rs, ra) ->
  open_importer (x_fuel x) w1 (x_csv x) cb (Some r) = Ok (rs, rb) ->
  apart w1 (resolve w p) cb r ->
  Forall2 (fun rec e => import_record (x_lower x) (x_ord x) rs (account_names l) rec = Ok e) ra es ->
  Forall (fun e => journal_date (l_format l) (e_date e)) es -> Forall (writable_entry (account_names l)) es ->
  Forall (fun e => map to8_posting (e_postings e) = e_postings e) es ->
  o_res (execute x fa w) = Ok tt ->
  let o := execute x f w in
  let o' := execute x fb (later w (o_world (execute x fa w))) in
  same_disk (o_world o) (o_world o') /\ o_res o = o_res o'.
Proof.
  intros x w p r c ca cb l w1 f fa fb rs ra rb es P Fp Hf L R Cf (K & Nm & Cs & Ru) Ca (Ka & Na & Csa & Rua) Cb (Kb & Nb & Csb & Rub) Oi Oa Ob (Ab & Ar) F2 J Wr Ex Ho o o'.
  assert (run_command x fa l w1 = execute x fa w) as Ea by (symmetry; apply ready_run; econstructor; eassumption).
  assert (run_command x f l w1 = o) as Ef by (symmetry; apply ready_run; econstructor; eassumption).
  rewrite <- Ea in Ho. unfold run_command in Ho, Ef. rewrite Ka, Csa, Rua in Ho. rewrite K, Cs, Ru in Ef.
  assert (o_world (execute x fa w) = fst (import_csv (x_fuel x) (x_today x) (x_lower x) (x_ord x) (x_csv x) l w1 ca (Some r))) as Ew
    by (rewrite <- Ea; unfold run_command; rewrite Ka, Csa, Rua; reflexivity).
  destruct (import_csv (x_fuel x) (x_today x) (x_lower x) (x_ord x) (x_csv x) l w1 ca (Some r)) as [w2 rr] eqn:Im. cbn [fst] in Ew.
  unfold done in Ho. cbn [o_res snd] in Ho. destruct rr as [la| | |]; [|discriminate..].
  destruct (import_again _ _ _ _ _ _ _ _ _ _ _ _ _ _ _ _ P Fp Hf L R Im Oa F2 J Wr Ex) as (Eo & Ed & Ec & l2 & L2 & Un & Nam).
  assert (run_command x fb l2 w2 = o') as Eo' by (unfold o'; rewrite Ew; symmetry; apply ready_run; econstructor; eassumption).
  unfold run_command in Eo'. rewrite Kb, Csb, Rub in Eo'. subst o o'. rewrite <- Ef, <- Eo'.
  assert (open_importer (x_fuel x) w2 (x_csv x) cb (Some r) = Ok (rs, rb)) as Ob'.
  { rewrite <- Ob. symmetry. apply (open_agree w1 w2 r); [symmetry; exact Ec| |reflexivity|].
    - intros q Rq. symmetry. apply Eo, Ar, Rq.
    - symmetry. apply Eo, Ab. }
  unfold import_csv in Im |- *. rewrite Oi, Ob', Nam. rewrite Oa in Im. rewrite records_app, Im.
  destruct (records_bare (x_today x) (import_record (x_lower x) (x_ord x) rs (account_names l)) rb la l2 w2 Un) as (E1 & E2).
  unfold done. cbn [o_world o_res]. rewrite E1, E2. split; [split; reflexivity|reflexivity].
Qed.
Print Assumptions C124_parts_partial.

(** The same for csv files with titles above the records of each. *)
Lemma table_read t titles recs rs : table t titles recs -> r_skip rs = Z.of_nat (List.length titles) ->
  collect_records (skip_records (r_skip rs) (csv_reader t)) = Ok recs.
Proof.
  intros (T & M & n & U) Sk.
  assert (E : csv_reader t = map Some (titles ++ recs)).
  { rewrite (C70_read t _ T M). destruct (titles ++ recs) as [|r0 all]; [reflexivity|]. inversion U; subst. apply map_ext_in.
    intros y I. rewrite Forall_forall in U. rewrite (U y I), Nat.eqb_refl. reflexivity. }
  rewrite E, Sk. unfold skip_records. destruct (Z.ltb_spec (Z.of_nat (List.length titles)) 0) as [H|_]; [lia|].
  rewrite Nat2Z.id, skipn_map, skipn_app, skipn_all, Nat.sub_diag. cbn [app skipn]. apply collect_all.
Qed.
Theorem C124_tables_partial : forall x w p r c ca cb l w1 f fa fb tr rs t ta tb titles ra rb es,
  proper w -> file_path p -> (forall q t g, files w q = Some t -> includes t g -> file_path g) ->
  from_file (x_fuel x) (x_today x) p w = Ok (l, w1) -> resolve w1 p = resolve w p ->
  chosen x f p -> imports f c r -> chosen x fa p -> imports fa ca r -> chosen x fb p -> imports fb cb r ->
  x_csv x = csv_reader -> files w (resolve w1 r) = Some tr -> parse_rules (x_fuel x) w1 tr = Ok rs ->
  r_skip rs = Z.of_nat (List.length titles) ->
  files w (resolve w1 c) = Some t -> table t titles (ra ++ rb) ->
  files w (resolve w1 ca) = Some ta -> table ta titles ra ->
  files w (resolve w1 cb) = Some tb -> table tb titles rb ->
  apart w1 (resolve w p) cb r ->
  Forall2 (fun rec e => import_record (x_lower x) (x_ord x) rs (account_names l) rec = Ok e) ra es ->
  Forall (fun e => journal_date (l_format l) (e_date e)) es -> Forall (writable_entry (account_names l)) es ->
  Forall (fun e => map to8_posting (e_postings e) = e_postings e) es ->
  o_res (execute x fa w) = Ok tt ->
  let o := execute x f w in
  let o' := execute x fb (later w (o_world (execute x fa w))) in
  same_disk (o_world o) (o_world o') /\ o_res o = o_res o'.
Proof.
  intros x w p r c ca cb l w1 f fa fb tr rs t ta tb titles ra rb es P Fp Hf L R Cf Mf Ca Ma Cb Mb Xc Fr Pr Sk Fc T Fa Ta Fb Tb Ap F2 J Wr Ex Ho.
  pose proof (from_file_disk _ _ _ _ _ _ L) as (Df & _).
  assert (forall c' t' recs, files w (resolve w1 c') = Some t' -> table t' titles recs ->
    open_importer (x_fuel x) w1 (x_csv x) c' (Some r) = Ok (rs, recs)) as Op.
  { intros c' t' recs F' T'. unfold open_importer, read_file. rewrite !Df, F', Fr. cbn [bind]. rewrite Pr. cbn [bind].
    rewrite Xc, (table_read _ _ _ _ T' Sk). reflexivity. }
  exact (C124_parts_partial x w p r c ca cb l w1 f fa fb rs ra rb es P Fp Hf L R Cf Mf Ca Ma Cb Mb (Op _ _ _ Fc T) (Op _ _ _ Fa Ta) (Op _ _ _ Fb Tb) Ap F2 J Wr Ex Ho).
Qed.
Print Assumptions C124_tables_partial.

Lemma ruled_line ls is : layout ls is -> forall l, ruled is l -> In l ls.
Proof.
  induction 1 as [|l0 ls is Nb L IH|l0 ps rs ls is Sb Fp Fr E Nx L IH]; intros l [I|(h & qs & us & I & Il)].
  - destruct I.
  - destruct I.
  - destruct I as [I|I]; [injection I as <-; left; reflexivity|right; apply IH; left; exact I].
  - destruct I as [I|I]; [discriminate|right; apply IH; right; eauto].
  - destruct I as [I|I]; [discriminate|]. right. rewrite !in_app_iff. right; right. apply IH. left. exact I.
  - right. rewrite !in_app_iff. destruct I as [I|I]; [injection I as <- <- <-; right; left; exact Il|right; right; apply IH; right; eauto].
Qed.
Lemma apart_plain w j0 c r t : located (cwd w) c <> j0 -> located (cwd w) r <> j0 -> files w (located (cwd w) r) = Some t ->
  Forall (fun l => ~ includes_rules l) (rule_lines t) -> apart w j0 c r.
Proof.
  intros Nc Nr F A. split; [exact Nc|]. intros q R. enough (q = located (cwd w) r) as -> by exact Nr.
  induction R as [|q t' is l f R IH Fq L Ru If]; [reflexivity|]. exfalso. subst q. assert (t' = t) as -> by congruence.
  rewrite Forall_forall in A. exact (A l (ruled_line _ _ L l Ru) (includes_file_rules l f If)).
Qed.

(** Without the condition on the entries: what the first import wrote for an
    account that is not defined cannot be loaded, so nothing more is imported. *)
Definition halves (journal : list string) : world :=
  world_of [(j, text journal); ([lit "r"], text (one_account ++ ["skip 1"]%string));
            ([lit "c"], text ["date,what,amount"; "2024/03/01,one,-5"; "2024/02/01,two,6"]%string);
            ([lit "d"], text ["date,what,amount"; "2024/03/01,one,-5"]%string);
            ([lit "e"], text ["date,what,amount"; "2024/02/01,two,6"]%string)] [[]] [].
Definition half (c : string) : flags := mkFlags (Some (lit "/j")) Import true (Some (lit c)) (Some (lit "/r")) None None.
Definition reading : context := ctx [] csv_reader.
Theorem C124_refuted : exists x w p r c ca cb l w1 f fa fb rs ra rb es,
  proper w /\ file_path p /\ (forall q t g, files w q = Some t -> includes t g -> file_path g)
  /\ from_file (x_fuel x) (x_today x) p w = Ok (l, w1) /\ resolve w1 p = resolve w p
  /\ chosen x f p /\ imports f c r /\ chosen x fa p /\ imports fa ca r /\ chosen x fb p /\ imports fb cb r
  /\ open_importer (x_fuel x) w1 (x_csv x) c (Some r) = Ok (rs, ra ++ rb)
  /\ open_importer (x_fuel x) w1 (x_csv x) ca (Some r) = Ok (rs, ra)
  /\ open_importer (x_fuel x) w1 (x_csv x) cb (Some r) = Ok (rs, rb)
  /\ apart w1 (resolve w p) cb r
  /\ Forall2 (fun rec e => import_record (x_lower x) (x_ord x) rs (account_names l) rec = Ok e) ra es
  /\ Forall (fun e => journal_date (l_format l) (e_date e)) es
  /\ Forall (fun e => map to8_posting (e_postings e) = e_postings e) es
  /\ o_res (execute x fa w) = Ok tt /\ o_res (execute x f w) = Ok tt
  /\ let o' := execute x fb (later w (o_world (execute x fa w))) in
     ~ same_disk (o_world (execute x f w)) (o_world o') /\ exists e, o_res o' = Err e.
Proof.
  set (w := halves bank). 
  destruct (from_file 5 today (lit "/j") w) as [(l & w1)| | |] eqn:E; [|vm_compute in E; discriminate..].
  assert (E1 := E). vm_compute in E1.
  destruct (open_importer 5 w1 csv_reader (lit "/c") (Some (lit "/r"))) as [[rs recs]| | |] eqn:O; [|injection E1 as _ <-; vm_compute in O; discriminate..].
  destruct (import_record low as_is rs (account_names l) (rec_of ["2024/03/01"; "one"; "-5"]%string)) as [e| | |] eqn:M;
    [|injection E1 as <- <-; vm_compute in O; injection O as <- _; vm_compute in M; discriminate..].
  exists reading, w, (lit "/j"), (lit "/r"), (lit "/c"), (lit "/d"), (lit "/e"), l, w1, (half "/c"), (half "/d"), (half "/e"), rs,
    [rec_of ["2024/03/01"; "one"; "-5"]%string], [rec_of ["2024/02/01"; "two"; "6"]%string], [e].
  split; [apply world_of_proper; vm_compute; reflexivity|]. split; [discriminate|]. split.
  { intros q t g F I. apply includes_included in I. exfalso. revert F. unfold w, halves, world_of. cbn [files List.find fst].
    repeat (destruct (path_eqb _ q); [cbn; intros [= <-]; vm_compute in I; contradiction|]). discriminate. }
  split; [exact E|]. split; [injection E1 as _ <-; reflexivity|].
  do 3 (split; [apply by_flag; reflexivity|]; split; [repeat split|]).
  split; [|split; [|split; [|split; [|split; [|split; [|split; [|split; [|split; [|split]]]]]]]]].
  - injection E1 as _ <-. vm_compute in O. injection O as <- <-. vm_compute. reflexivity.
  - injection E1 as _ <-. vm_compute in O. injection O as <- <-. vm_compute. reflexivity.
  - injection E1 as _ <-. vm_compute in O. injection O as <- <-. vm_compute. reflexivity.
  - apply (apart_plain _ _ _ _ (text (one_account ++ ["skip 1"]%string))); [injection E1 as _ <-; vm_compute; discriminate..|injection E1 as _ <-; vm_compute; reflexivity|].
    match goal with |- Forall _ ?ls => let v := eval vm_compute in ls in change ls with v end.
    repeat constructor; intros (k & Hk & Q); vm_compute in Hk; injection Hk as <-; destruct Q; discriminate.
  - constructor; [exact M|constructor].
  - constructor; [|constructor]. injection E1 as <- <-. vm_compute in O. injection O as <- <-. vm_compute in M. injection M as <-. cbn [e_date l_format]. apply C63_default. cbn. lia.
  - constructor; [|constructor]. injection E1 as <- <-. vm_compute in O. injection O as <- <-. vm_compute in M. injection M as <-. vm_compute. reflexivity.
  - vm_compute. reflexivity.
  - vm_compute. reflexivity.
  - intros (F & _). specialize (F j). apply (f_equal (option_map (@List.length _))) in F. vm_compute in F. discriminate F.
  - vm_compute. eauto.
Qed.
Print Assumptions C124_refuted.

Example C124_case :
  let w := halves (bank ++ ["account expenses:unknown"]%string) in
  let w' := o_world (execute reading (half "/d") w) in
  files (o_world (execute reading (half "/c") w)) j = files (o_world (execute reading (half "/e") w')) j
  /\ files w' j <> files w j /\ files (o_world (execute reading (half "/e") w')) j <> files w' j.
Proof. vm_compute. repeat split; discriminate. Qed.

(** The conditions of the theorems hold here. *)
Example C124_conditions :
  let w := halves (bank ++ ["account expenses:unknown"]%string) in
  exists l w1 rs e, from_file 5 today (lit "/j") w = Ok (l, w1)
  /\ open_importer 5 w1 csv_reader (lit "/d") (Some (lit "/r")) = Ok (rs, [rec_of ["2024/03/01"; "one"; "-5"]%string])
  /\ import_record low as_is rs (account_names l) (rec_of ["2024/03/01"; "one"; "-5"]%string) = Ok e
  /\ journal_date (l_format l) (e_date e) /\ writable_entry (account_names l) e /\ map to8_posting (e_postings e) = e_postings e.
Proof.
  cbv zeta. eexists _, _, _, _. split; [vm_compute; reflexivity|]. split; [vm_compute; reflexivity|]. split; [vm_compute; reflexivity|].
  split; [apply C63_default; cbn; lia|]. split; [|vm_compute; reflexivity].
  assert (forall s, s <> [] -> forallb (fun c => negb (is_ws c)) s = true -> token s) as Tk.
  { intros s N F. split; [exact N|]. rewrite forallb_forall in F. apply Forall_forall. intros c I B. apply ws_blank in B. specialize (F c I). rewrite B in F. discriminate. }
  split; [cbn; lia|]. split; [exists [lit "one"]; split; [constructor; [apply Tk; [discriminate|reflexivity]|constructor]|reflexivity]|].
  split; [apply markfree_iff; reflexivity|]. split; [vm_compute; intuition discriminate|]. split; [exact I|]. split; [exact I|].
  split.
  - assert (forall n, n <> [] -> forallb (fun c => negb (is_ws c)) n = true -> markfree n = true -> name_ok n) as Nk
      by (intros n N F U; split; [apply Tk; assumption|apply markfree_iff, U]).
    constructor; [|constructor; [|constructor]]; (split; [apply Nk; [discriminate|reflexivity|reflexivity]|]); (split; [discriminate|]);
      (split; [cbn; auto|]); (split; [|split; exact I]); [|exact I]. split; [vm_compute; reflexivity|]. split; exact I.
  - split; [vm_compute; auto|]. intros _ s t Is It. vm_compute in Is, It. intuition congruence.
Qed.
