(** Properties C54-C60 and C67: importing csv files. *)
From Coq Require Import ZArith NArith List Bool String Permutation Lia.
From Verif Require Import Base Str F64 Date Amount Posting Entry Envelope Account World Register Ledger Importer
  SpecAmount SpecDate SpecEntry SpecEnvelope SpecLedger SpecRegister SpecImport StrFacts AmountFacts EntryFacts
  EnvelopeFacts AccountFacts LedgerFacts DateFormat LoadFacts IncludeFacts RegisterFacts ImportFacts RuleFacts SubstFacts ExpandFacts RunFacts
  PropertiesLedger.
Import ListNotations.
Local Open Scope Z_scope.

(** Lower case for letters without accents, an order, and the other order. *)
Definition low : str -> str := map (fun c => if ((65 <=? c) && (c <=? 90))%N then (c + 32)%N else c).
Definition as_is : list (str * str) -> list (str * str) := fun l => l.
Definition turned : list (str * str) -> list (str * str) := @rev (str * str).
Definition nowhere : world := world_of [] [[]] [].
Definition rules_of (ls : list string) : rules :=
  match parse_rules 3 nowhere (text ls) with Ok r => r | _ => default_rules end.
Definition rec_of (fs : list string) : record := map lit fs.

(** ** C54 *)
(** The text of a rules file has exactly one layout. *)
Theorem C54_layout : forall ls, exists is, layout ls is /\ forall is', layout ls is' -> is' = is.
Proof.
  intro ls. destruct (layout_total ls) as (is & L). exists is. split; [exact L|]. intros is' L'. symmetry. exact (layout_unique ls is L is' L').
Qed.
Print Assumptions C54_layout.

Theorem C54_first_block : forall fuel w rules_text is is' r lower ord accounts rec,
  layout (rule_lines rules_text) is -> expansion w is is' -> Forall plain_header is' ->
  parse_rules fuel w rules_text = Ok r ->
  exists ls r', used lower rec is' ls
    /\ fold_res (add_from_line no_file) ls default_rules = Ok r'
    /\ import_record lower ord r accounts rec = entry_of_record ord r' rec accounts.
Proof.
  intros fuel w t is is' r lower ord accounts rec L X Ph H. unfold parse_rules in H. rewrite (rules_layout _ _ _ _ L) in H.
  apply (expansion_fold w fuel is is' _ _ X) in H.
  destruct (select_used lower rec is' r Ph (expansion_flat w is is' X) H) as (ls & r' & U & F & Lk).
  exists ls, r'. split; [exact U|]. split; [exact F|]. unfold import_record. apply entry_of_record_like, Lk.
Qed.
Print Assumptions C54_first_block.

(** Which lines are used is determined by the file and the record. *)
Theorem C54_unique : forall lower rec is ls ls', used lower rec is ls -> used lower rec is ls' -> ls = ls'.
Proof.
  intros lower rec is ls ls'.
  assert (K : forall is1 is2 l ps rs l' ps' rs' t t',
     is1 ++ Block l ps rs :: t = is2 ++ Block l' ps' rs' :: t' ->
     Forall (fun i => ~ block_matches lower rec i) is1 -> Forall (fun i => ~ block_matches lower rec i) is2 ->
     block_matches lower rec (Block l ps rs) -> block_matches lower rec (Block l' ps' rs') -> is1 = is2 /\ rs = rs').
  { induction is1 as [|i is1 IH]; intros [|i' is2] l ps rs l' ps' rs' t t' E F F' M M'; cbn [app] in E.
    - injection E as -> -> -> ->. auto.
    - injection E as <- E. inversion F'; contradiction.
    - injection E as -> E. inversion F; contradiction.
    - injection E as <- E. inversion F; inversion F'; subst. destruct (IH _ _ _ _ _ _ _ _ _ E H2 H6 M M') as (-> & ->). auto. }
  intros [(is1 & l & ps & rs & t & E & M & F & ->)|(F & ->)] [(is2 & l' & ps' & rs' & t' & E' & M' & F' & ->)|(F' & ->)].
  - rewrite E in E'. destruct (K _ _ _ _ _ _ _ _ _ _ E' F F' M M') as (-> & ->). reflexivity.
  - rewrite E in F'. apply Forall_app in F' as (_ & F'). inversion F'; contradiction.
  - rewrite E' in F. apply Forall_app in F as (_ & F). inversion F; contradiction.
  - reflexivity.
Qed.
Print Assumptions C54_unique.

(** Every rules file that is read has an expansion if no block includes a file. *)
Theorem C54_expansion : forall fuel w rules_text is r,
  (forall p t, files w p = Some t -> flat_text t) -> flat_text rules_text ->
  layout (rule_lines rules_text) is -> parse_rules fuel w rules_text = Ok r -> exists is', expansion w is is'.
Proof.
  intros fuel w t is r Fl Ft L H. unfold parse_rules in H. rewrite (rules_layout _ _ _ _ L) in H.
  exact (expansion_exists w Fl fuel is _ _ (fun l ps rs I => Ft is l ps rs L I) H).
Qed.
Print Assumptions C54_expansion.

(** A pattern may begin in one field and end in the next. *)
Theorem C54_across_fields : exists lower rec pattern,
  matches lower rec [pattern] /\ forall f, In f rec -> occurs (lower pattern) (lower f) = false.
Proof.
  exists low, (rec_of ["tick"; "etc"]%string), (lit "ket"). split.
  - exists (lit "ket"). split; [left; reflexivity|vm_compute; reflexivity].
  - intros f [<-|[<-|[]]]; vm_compute; reflexivity.
Qed.
Print Assumptions C54_across_fields.

Definition drinks : list string :=
  ["fields date, description, amount"; "account assets:bank"; "if coffee"; "TEA"; "  account2 expenses:drinks";
   "  amount2 -%amount%"; "if shop"; "  comment a shop"; "comment // nothing"; "payee someone"]%string.
Definition accounts_here : list str := map lit ["assets:bank"; "expenses:drinks"]%string.
Definition summary (r : res entry) : option (list str * option str * option str) :=
  match r with Ok e => Some (map show_posting (e_postings e), e_payee e, e_comment e) | _ => None end.
Definition seen (ls fs : list string) : option (list str * option str * option str) :=
  summary (import_record low as_is (rules_of ls) accounts_here (rec_of fs)).
(** The first block wins even if the second matches as well; neither has the
    payee, which is set below them. *)
Example C54_case :
  option_map (fun x => (map (fun s => trim s) (fst (fst x)), snd (fst x), snd x))
    (seen drinks ["2024/01/02"; "A Coffee Shop"; "3"]%string)
  = Some (map lit ["expenses:drinks                                    -3"; "assets:bank"]%string, None, None)
  /\ option_map (fun x => (snd (fst x), snd x)) (seen drinks ["2024/01/02"; "green tea"; "3"]%string) = Some (None, None)
  /\ option_map (fun x => (snd (fst x), snd x)) (seen drinks ["2024/01/02"; "book SHOP"; "3"]%string) = Some (None, Some (lit "a shop"))
  /\ option_map (fun x => (snd (fst x), snd x)) (seen drinks ["2024/01/02"; "cinema"; "3"]%string) = Some (Some (lit "someone"), None).
Proof. vm_compute. repeat split; reflexivity. Qed.

(** ** C55 *)
(** The root rules are those of the root lines alone, whatever files are
    included. *)
Theorem C55_root : forall fuel w r0 rules_text is r,
  layout (rule_lines rules_text) is -> rules_from_str (rules_from_file fuel w) r0 rules_text = Ok r ->
  exists r', fold_res (add_from_line (rules_from_file fuel w)) (roots is) r0 = Ok r' /\ bare r = bare r'.
Proof.
  intros fuel w r0 t is r L H. rewrite (rules_layout _ _ _ _ L) in H.
  destruct (roots_only _ is (rules_file_like fuel w) r0 r0 r eq_refl H) as (r' & H' & Lk).
  exists r'. split; [|exact Lk]. rewrite <- H'. clear. revert r0.
  induction is as [|[l|l ps rs] is IH]; intro r0; cbn [roots filter is_root fold_res]; [reflexivity| |exact (IH r0)].
  cbn [item_step]. destruct (add_from_line _ r0 l); cbn [bind]; auto.
Qed.
Print Assumptions C55_root.

(** Each block starts from the root lines above it. *)
Theorem C55_block : forall fuel w rules_text is is' r l1 pats br l2,
  layout (rule_lines rules_text) is -> expansion w is is' -> parse_rules fuel w rules_text = Ok r ->
  r_subrules r = l1 ++ (pats, br) :: l2 ->
  exists is1 l ps rs is2 br', is' = is1 ++ Block l ps rs :: is2
    /\ fold_res (add_from_line no_file) (roots is1 ++ rs) default_rules = Ok br' /\ bare br = bare br'.
Proof.
  intros fuel w t is is' r l1 pats br l2 L X H E. unfold parse_rules in H. rewrite (rules_layout _ _ _ _ L) in H.
  apply (expansion_fold w fuel is is' _ _ X) in H.
  destruct (items_made is' (expansion_flat w is is' X) r H) as (_ & _ & _ & S).
  destruct (S l1 pats br l2 E) as (is1 & l & ps & rs & is2 & r2 & E' & _ & _ & F & Lk).
  exists is1, l, ps, rs, is2, r2. auto.
Qed.
Print Assumptions C55_block.

Example C55_case :
  bare (rules_of drinks)
  = bare (rules_of ["fields date, description, amount"; "account assets:bank"; "comment // nothing"; "payee someone"]%string)
  /\ map (fun b => bare (snd b)) (r_subrules (rules_of drinks))
     = [rules_of ["fields date, description, amount"; "account assets:bank"; "account2 expenses:drinks"; "amount2 -%amount%"]%string;
        rules_of ["fields date, description, amount"; "account assets:bank"; "comment a shop"]%string].
Proof. vm_compute. split; reflexivity. Qed.

(** ** C56 *)
Theorem C56_reset : forall inc xs n s r1 r2, Forall rule_ok xs -> rule_ok (n, lit "-") -> slot_of n = Some s ->
  fold_res (add_from_line inc) (map written_rule xs) default_rules = Ok r1 ->
  add_from_line inc r1 (written_rule (n, lit "-")) = Ok r2 ->
  fold_res (add_from_line inc) (map written_rule (filter (fun x => negb (about s x)) xs)) default_rules = Ok r2.
Proof. exact reset_forgets. Qed.
Print Assumptions C56_reset.

(** It always succeeds, except for [fields]. *)
Theorem C56_succeeds : forall inc r n s, rule_ok (n, lit "-") -> slot_of n = Some s ->
  match add_from_line inc r (written_rule (n, lit "-")) with
  | Ok _ => s <> SFields
  | _ => s = SFields
  end.
Proof.
  intros inc r n s R Hs. rewrite (written_rule_eq inc r _ R). cbn [fst snd]. unfold apply_rule. cbn [fst snd].
  change (str_eqb (trim (trim_start (lit "-"))) (lit "-")) with true. cbn iota.
  destruct (slot_dec s SFields) as [-> |N].
  - rewrite (reset_fields inc _ r n _ Hs). reflexivity.
  - rewrite (reset_slot inc _ r n s _ Hs N). exact N.
Qed.
Print Assumptions C56_succeeds.

Example C56_case :
  rules_of ["note x"; "account1 a"; "skip 3"; "account1 b"; "amount1 5"; "account2 c"; "account1 -"; "comment  -  "]%string
  = rules_of ["skip 3"; "amount1 5"; "account2 c"]%string
  /\ r_accounts (rules_of ["account1 a"; "account2 b"; "account1 -"]%string) = [(lit "2", lit "b")]
  /\ parse_rules 3 nowhere (text ["fields a, b"; "fields -"]%string) = Err (EValidation FieldsDiscarded).
Proof. vm_compute. repeat split; reflexivity. Qed.

(** ** C57 *)
Theorem C57_meaning_partial : forall ord vars ps, Permutation (ord vars) vars -> good_vars vars ->
  Forall (plain_piece vars) ps -> well_separated vars ps ->
  inject ord vars (template ps) = meaning vars ps.
Proof. intros ord vars ps O (D & F) G W. apply inject_template; assumption. Qed.
Print Assumptions C57_meaning_partial.

(** The full statement: [%a%b%c%] can be cut in two ways. *)
Theorem C57_refuted : exists ord ord' vars ps,
  Permutation (ord vars) vars /\ Permutation (ord' vars) vars /\ good_vars vars /\ Forall (plain_piece vars) ps
  /\ inject ord vars (template ps) <> inject ord' vars (template ps).
Proof.
  exists as_is, turned, [(lit "b", lit "1"); (lit "a", lit "2"); (lit "c", lit "3")],
    [Ref (lit "a"); Text (lit "b"); Ref (lit "c")].
  split; [reflexivity|]. split; [apply Permutation_sym, Permutation_rev|]. split.
  - split.
    + repeat constructor; cbn; intuition discriminate.
    + apply Forall_forall. unfold plain. intros x [<-|[<-|[<-|[]]]]; cbn; intuition discriminate.
  - split; [|vm_compute; discriminate].
    apply Forall_forall. intros x [<-|[<-|[<-|[]]]]; unfold plain_piece, plain; cbn; intuition discriminate.
Qed.
Print Assumptions C57_refuted.

Definition some_vars : list (str * str) := [(lit "b", lit "1"); (lit "a", lit "2"); (lit "c", lit "3")].
Example C57_case :
  inject as_is some_vars (lit "%a% of %b%, %c%%a%") = lit "2 of 1, 32"
  /\ inject turned some_vars (lit "%a% of %b%, %c%%a%") = lit "2 of 1, 32"
  /\ template [Ref (lit "a"); Text (lit " of "); Ref (lit "b"); Text (lit ", "); Ref (lit "c"); Ref (lit "a")]
     = lit "%a% of %b%, %c%%a%"
  /\ inject as_is some_vars (lit "%a%b%c%") = lit "%a1c%" /\ inject turned some_vars (lit "%a%b%c%") = lit "2b3".
Proof. vm_compute. repeat split; reflexivity. Qed.

(** ** C58 *)
Theorem C58_two_postings : forall lower ord r accounts rec e,
  import_record lower ord r accounts rec = Ok e -> (2 <= List.length (e_postings e))%nat.
Proof.
  intros lower ord r accounts rec e H. apply entry_of_record_Ok in H as (vars & d & st & ps & ps' & _ & _ & _ & _ & Hc & ->).
  cbn [new_entry e_postings]. apply (complete_spec _ _ _ Hc).
Qed.
Print Assumptions C58_two_postings.

(** One account rule: a second posting is made.  More: the postings are those
    of the rules and nothing else. *)
Theorem C58_completed : forall ord r accounts rec e, (forall l, Permutation (ord l) l) ->
  entry_of_record ord r rec accounts = Ok e -> exists vars ps, make_variables (r_fields r) rec [] = Ok vars
  /\ Forall2 (fun ka p => parse_posting (inject ord vars (posting_text r ka)) (r_decimal r) accounts = Ok p)
       (ord (account_rules r)) ps
  /\ match ps with
     | [p] => exists a, get_amount p = Some a
              /\ e_postings e = [p; Classic (mkClassic None
                   (lit (if fltb (mag a) fzero then "expenses:unknown"
                         else if fltb fzero (mag a) then "income:unknown" else "unknown")) None None)]
     | _ => Permutation (e_postings e) ps
     end.
Proof.
  intros ord r accounts rec e O H. apply entry_of_record_Ok in H as (vars & d & st & ps & ps' & Hv & _ & _ & Hp & Hc & ->).
  exists vars, ps. split; [exact Hv|]. split.
  - change (accounts_or_default r) with (account_rules r) in Hp. clear -Hp. induction Hp as [|ka p kas ps E Hp IH]; constructor; [|exact IH].
    rewrite <- import_posting_text. exact E.
  - cbn [new_entry e_postings]. apply complete_spec in Hc as (_ & [(Le & ->)|(p & a & E & Ha & ->)]).
    + rewrite rev_length in Le. destruct ps as [|p [|q ps]]; cbn in Le; try lia. apply Permutation_sym, Permutation_rev.
    + assert (ps = [p]) as ->.
      { rewrite <- (rev_involutive ps), E. reflexivity. }
      exists a. split; [exact Ha|reflexivity].
Qed.
Print Assumptions C58_completed.

Definition one_account : list string := ["fields date, description, amount"; "account assets:bank"]%string.
Definition completed (amount : string) : option (list str) :=
  match import_record low as_is (rules_of one_account) accounts_here (rec_of ["2024/01/02"; "x"; amount]%string) with
  | Ok e => Some (map get_account (e_postings e))
  | _ => None
  end.
Example C58_case :
  completed "-3.5" = Some (map lit ["assets:bank"; "expenses:unknown"]%string)
  /\ completed "$4" = Some (map lit ["assets:bank"; "income:unknown"]%string)
  /\ completed "0" = Some (map lit ["assets:bank"; "unknown"]%string)
  /\ completed "" = None.
Proof. vm_compute. repeat split; reflexivity. Qed.

(** ** C60 *)
Theorem C60_prefix : forall fuel today lower ord csv l w csv_file rules_file w' res,
  import_csv fuel today lower ord csv l w csv_file rules_file = (w', res) ->
  match open_importer fuel w csv csv_file rules_file with
  | Ok (r, recs) =>
      match files w (resolve w (l_path l)) with
      | None => w' = w
      | Some old =>
          let mk := import_record lower ord r (account_names l) in
          exists first rest es, recs = first ++ rest /\ Forall2 (fun rec e => mk rec = Ok e) first es
            /\ files w' (resolve w (l_path l)) = Some (old ++ appended (l_format l) es)
            /\ (forall q, q <> resolve w (l_path l) -> files w' q = files w q)
            /\ (forall q, dirs w' q = dirs w q) /\ cwd w' = cwd w
            /\ ((rest = [] /\ exists l', res = Ok l' /\ fold_res (add_entry today) es l = Ok l')
                \/ (exists rec rest', rest = rec :: rest' /\ fails_as (mk rec) res
                      /\ exists l', fold_res (add_entry today) es l = Ok l')
                \/ (exists es0 e l', es = es0 ++ [e] /\ fold_res (add_entry today) es0 l = Ok l'
                      /\ fails_as (add_entry today l' e) res)
                \/ (~ valid_format (l_format l) /\ es = [] /\ rest <> [] /\ res = Panic))
      end
  | failure => w' = w /\ fails_as failure res
  end.
Proof.
  intros fuel td lower ord csv l w c rf w' rr H. unfold import_csv in H.
  destruct (open_importer fuel w csv c rf) as [(r & recs)| | |]; try (injection H as <- <-; split; reflexivity).
  destruct (files w (resolve w (l_path l))) as [old|] eqn:F.
  - destruct (import_records_spec _ _ _ _ _ _ _ _ H F) as (first & rest & es & E & F2 & (J & O & Dd & C) & Z).
    exists first, rest, es. repeat (split; [assumption|]).
    rewrite <- printable_iff, not_true_iff_false. exact Z.
  - exact (import_records_no_file _ _ _ _ _ _ _ H F).
Qed.
Print Assumptions C60_prefix.

(** The third record cannot be read as an entry; the first two have been
    appended. *)
Definition bank : list string := ["account assets:bank"; "account income:unknown"]%string.
Definition bank_world : world :=
  world_of [(j, text bank); ([lit "c"], []); ([lit "c.rules"], text (one_account ++ ["skip 0"]%string))] [[]] [].
Definition csv_of (rs : list (list string)) : str -> list (option record) := fun _ => map (fun r => Some (rec_of r)) rs.
Definition importing (rs : list (list string)) : world * res ledger :=
  import_csv 3 today low as_is (csv_of rs) (loaded bank) bank_world (lit "/c") None.
Example C60_case :
  let r := importing [["2024/03/01"; "one"; "5"]; ["2024/02/01"; "two"; "6"]; ["never"; "three"; "7"]; ["2024/03/01"; "four"; "8"]]%string in
  files (fst r) j = Some (text bank ++ text [""; "2024/03/01 ~ one"; "    assets:bank                                         5";
    "    income:unknown                                     "; ""; "2024/02/01 ~ two"; "    assets:bank                                         6";
    "    income:unknown                                     "; ""]%string)
  /\ snd r = Err (EParse (ImportDate (lit "never") default_format)).
Proof. vm_compute. split; reflexivity. Qed.

(** ** C59 *)
Theorem C59_reload_partial : forall fuel today lower ord csv inc old s0 l wl w csv_file rules_file w' l' r recs es,
  add_from_str today inc old s0 = Ok (l, wl) ->
  Forall (fun e => journal_date (l_format l) (e_date e)) es ->
  files w (resolve w (l_path l)) = Some old ->
  import_csv fuel today lower ord csv l w csv_file rules_file = (w', Ok l') ->
  open_importer fuel w csv csv_file rules_file = Ok (r, recs) ->
  Forall2 (fun rec e => import_record lower ord r (account_names l) rec = Ok e) recs es ->
  Forall (writable_entry (account_names l)) es ->
  Forall (fun e => map to8_posting (e_postings e) = e_postings e) es ->
  exists text l2, files w' (resolve w (l_path l)) = Some text
    /\ add_from_str today inc text s0 = Ok (l2, wl) /\ uncommented l' l2.
Proof.
  intros fuel td lower ord csv inc old s0 l wl w c rf w' l' r recs es Hold P F H Ho F2 Wr Ex.
  unfold import_csv in H. rewrite Ho in H.
  destruct (import_records_spec _ _ _ _ _ _ _ _ H F) as (first & rest & es' & E & F2' & (J & _) & Z).
  destruct Z as [(-> & l1 & El & Z)|[(rec & rest' & -> & Z & _)|[(es0 & e & l1 & _ & _ & Z)|(_ & _ & _ & Z)]]].
  - injection El as <-. rewrite app_nil_r in E. subst first.
    assert (es' = es) as ->.
    { clear -F2 F2'. revert es F2. induction F2' as [|x e' xs es' H H' IH]; intros es G; inversion G; subst; [reflexivity|].
      f_equal; [congruence|]. apply IH. assumption. }
    destruct (fold_bare td es l l l' (uncommented_refl l) Ex Z) as (l2 & G & Un).
    exists (old ++ appended (l_format l) es), l2. split; [exact J|]. split; [|exact Un].
    exact (reload_appended td inc es old s0 l wl Hold P Wr l2 G).
  - exfalso. unfold fails_as in Z. destruct (import_record _ _ _ _ rec); [exact Z|discriminate|discriminate|discriminate].
  - exfalso. unfold fails_as in Z. destruct (add_entry td l1 e); [exact Z|discriminate|discriminate|discriminate].
  - discriminate.
Qed.
Print Assumptions C59_reload_partial.

(** The full statement: the added account is not defined. *)
Theorem C59_refuted : exists w csv l w1 w' l', proper w
  /\ from_file 3 today (lit "/j") w = Ok (l, w1)
  /\ import_csv 3 today low as_is csv l w1 (lit "/c") None = (w', Ok l')
  /\ forall fuel, match from_file (S fuel) today (lit "/j") w' with Err _ => True | _ => False end.
Proof.
  set (w := world_of [(j, text ["account assets:bank"]%string); ([lit "c"], []); ([lit "c.rules"], text (one_account ++ ["skip 0"]%string))] [[]] []).
  set (csv := csv_of [["2024/03/01"; "one"; "5"]]%string).
  destruct (from_file 3 today (lit "/j") w) as [(l & w1)| | |] eqn:E; [|vm_compute in E; discriminate..].
  destruct (import_csv 3 today low as_is csv l w1 (lit "/c") None) as [w' [l'| | |]] eqn:E2.
  - exists w, csv, l, w1, w', l'. split; [apply world_of_proper; vm_compute; reflexivity|]. split; [exact E|]. split; [exact E2|].
    intro fuel. unfold w in E. vm_compute in E. injection E as <- <-. vm_compute in E2. injection E2 as <- _. vm_compute. exact I.
  - unfold w in E. vm_compute in E. injection E as <- <-. vm_compute in E2. discriminate.
  - unfold w in E. vm_compute in E. injection E as <- <-. vm_compute in E2. discriminate.
  - unfold w in E. vm_compute in E. injection E as <- <-. vm_compute in E2. discriminate.
Qed.
Print Assumptions C59_refuted.

Example C59_case :
  let r := importing [["2024/03/01"; "one"; "5"]; ["2024/02/01"; "two"; "6"]]%string in
  match from_file 3 today (lit "/j") (fst r), snd r with
  | Ok (l, _), Ok l' => l = l' /\ List.length (l_entries l) = 2%nat
  | _, _ => False
  end.
Proof. vm_compute. split; reflexivity. Qed.

(** ** C67 *)
Theorem C67_order_partial : forall ord ord' r rec accounts e,
  (forall l, Permutation (ord l) l) -> (forall l, Permutation (ord' l) l) ->
  good_vars (combine (r_fields r) rec) -> Forall (good_text (combine (r_fields r) rec)) (rule_texts r) ->
  entry_of_record ord r rec accounts = Ok e ->
  exists e', entry_of_record ord' r rec accounts = Ok e' /\ same_but_order e e'.
Proof. exact record_orders. Qed.
Print Assumptions C67_order_partial.

Definition two_accounts : list string :=
  ["fields date, description, amount"; "account1 assets:bank"; "account2 expenses:drinks"; "amount1 %amount%"]%string.
(** The full statement: the postings can come in either order. *)
Theorem C67_refuted : exists r accounts rec e e', 
  entry_of_record as_is r rec accounts = Ok e /\ entry_of_record turned r rec accounts = Ok e'
  /\ good_vars (combine (r_fields r) rec)
  /\ show_entry default_format e <> show_entry default_format e'.
Proof.
  set (r := rules_of two_accounts). set (rec := rec_of ["2024/01/02"; "x"; "3"]%string).
  destruct (entry_of_record as_is r rec accounts_here) as [e| | |] eqn:E; [|vm_compute in E; discriminate..].
  destruct (entry_of_record turned r rec accounts_here) as [e'| | |] eqn:E'; [|vm_compute in E'; discriminate..].
  exists r, accounts_here, rec, e, e'. split; [exact E|]. split; [exact E'|]. split.
  - split.
    + vm_compute. repeat constructor; cbn; intuition discriminate.
    + unfold r, rec, rules_of, rec_of. vm_compute. apply Forall_forall. intros x [<-|[<-|[<-|[]]]]; cbn; intuition discriminate.
  - vm_compute in E, E'. injection E as <-. injection E' as <-. vm_compute. discriminate.
Qed.
Print Assumptions C67_refuted.

Example C67_case :
  let r := rules_of two_accounts in
  let rec := rec_of ["2024/01/02"; "x"; "3"]%string in
  match entry_of_record as_is r rec accounts_here, entry_of_record turned r rec accounts_here with
  | Ok e, Ok e' => e_postings e' = rev (e_postings e) /\ e_desc e = lit "x" /\ e_desc e' = lit "x"
  | _, _ => False
  end.
Proof. vm_compute. repeat split; reflexivity. Qed.
