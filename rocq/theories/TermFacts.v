(** No function of the model runs out of fuel, but for include cycles. *)
From Coq Require Import ZArith NArith List Bool String Lia.
From Verif Require Import Base Str F64 Date World Amount Posting Entry Envelope Account Register Ledger Importer Cli
  SpecAmount SpecDate SpecEntry SpecEnvelope SpecLedger SpecRegister SpecImport SpecCli SpecRun
  StrFacts LineFacts EntryFacts EnvelopeFacts FreqFacts FillFacts AccountFacts LedgerFacts LoadFacts IncludeFacts ImportFacts ExpandFacts.
Import ListNotations.
Local Open Scope Z_scope.

Definition calm {A} (r : res A) : Prop := r <> Loop.
Lemma calm_bind {A B} (r : res A) (f : A -> res B) : calm r -> (forall a, r = Ok a -> calm (f a)) -> calm (bind r f).
Proof. intros R F H. apply bind_Loop in H as [H|(a & E & H)]; [exact (R H)|exact (F a E H)]. Qed.
Lemma calm_fold {A S} (f : S -> A -> res S) l : (forall s a, In a l -> calm (f s a)) -> forall s, calm (fold_res f l s).
Proof.
  induction l as [|a l IH]; intros H s; cbn [fold_res]; [discriminate|]. apply calm_bind; [apply H; left; reflexivity|].
  intros s' _. apply IH. intros s1 b I. apply H. right. exact I.
Qed.
Lemma calm_map {A B} (f : A -> res B) l : (forall a, In a l -> calm (f a)) -> calm (map_res f l).
Proof.
  induction l as [|a l IH]; intro H; cbn [map_res]; [discriminate|]. apply calm_bind; [apply H; left; reflexivity|].
  intros b _. apply calm_bind; [|discriminate]. apply IH. intros c I. apply H. right. exact I.
Qed.
Ltac calm := repeat match goal with
  | |- calm (Ok _) => discriminate
  | |- calm (Err _) => discriminate
  | |- calm Panic => discriminate
  | |- calm (bind _ _) => apply calm_bind; [|intros ? ?]
  | |- calm (let (_, _) := ?x in _) => destruct x eqn:?
  | |- calm (match ?x with _ => _ end) => destruct x eqn:?
  | |- calm (unwrap ?x) => destruct x; discriminate
  | |- calm (ok_or ?x _) => destruct x; discriminate
  | |- calm (map_res _ _) => apply calm_map; intros ? ?
  | |- calm (fold_res _ _ _) => apply calm_fold; intros ? ? ?
  end.

(** ** Amounts and entries *)
Lemma calm_add a b : calm (amount_add a b).
Proof. unfold amount_add. calm. Qed.
Lemma calm_sub a b : calm (amount_sub a b).
Proof. unfold amount_sub, amount_add. calm. Qed.
Lemma calm_sub_assign a b : calm (amount_sub_assign a b).
Proof. unfold amount_sub_assign. calm. Qed.
Lemma calm_amount s d : calm (parse_amount s d).
Proof. apply parse_amount_total. Qed.
Lemma calm_native e ps : forall x, calm (blank_native e ps x).
Proof. induction ps as [|p ps IH]; intro x; cbn [blank_native]; calm; apply IH. Qed.
Lemma calm_rest ps : forall x, calm (blank_rest ps x).
Proof. induction ps as [|p ps IH]; intro x; cbn [blank_rest]; calm; try apply IH. apply calm_sub_assign. Qed.
Lemma calm_blank e : calm (get_blank_amount e).
Proof. unfold get_blank_amount. calm; [apply calm_native|apply calm_rest]. Qed.

(** ** Envelopes *)
Section Day.
Context (today : date) (T : year today < max_year).
Lemma calm_next f : calm (freq_next today f).
Proof. destruct (freq_next_total today f T) as (o & ->). discriminate. Qed.
Lemma calm_last f : calm (freq_last today f).
Proof. unfold freq_last, subtract_months. calm. apply calm_next. Qed.
Lemma calm_due v : calm (env_next_due today v).
Proof. destruct (env_next_due_total today v T) as (o & ->). discriminate. Qed.
Lemma calm_apply v a d : calm (apply_amount today v a d).
Proof. unfold apply_amount. calm; try apply calm_add. apply calm_last. Qed.
Lemma calm_env v e : calm (env_process today v e).
Proof.
  unfold env_process, process_manual, infer, manual_step, infer_step, infer_amount. calm; try apply calm_apply; try apply calm_blank; apply calm_add.
Qed.
Lemma calm_acc a e : calm (acc_process today a e).
Proof. unfold acc_process, real_step. calm; try apply calm_env. apply calm_blank. Qed.
Lemma calm_entry l e : calm (add_entry today l e).
Proof. unfold add_entry. calm. apply calm_acc. Qed.
Lemma calm_filling a : calm (filling_postings today a).
Proof. unfold filling_postings, filling_step, filling_posting, filling_amount, remaining_next. calm; [apply calm_due|apply calm_sub]. Qed.
Lemma calm_fill l w : calm (snd (fill_envelopes today l w)).
Proof.
  unfold fill_envelopes. assert (calm (fill_postings today l)) as F by (unfold fill_postings; calm; apply calm_filling).
  destruct (fill_postings today l) as [[|p ps]| | |]; try discriminate; [|exfalso; apply F; reflexivity].
  unfold append_entry, append_file. destruct (files w _); [destruct (printable _)|]; cbn [snd]; [apply calm_entry|discriminate|discriminate].
Qed.
Lemma calm_append l w e : calm (snd (append_entry today l w e)).
Proof. unfold append_entry, append_file. destruct (files w _); [destruct (printable _)|]; cbn [snd]; [apply calm_entry|discriminate|discriminate]. Qed.
Lemma calm_envelopes l : calm (show_envelopes today l).
Proof. unfold show_envelopes, show_account, show_envelope, make_bar. calm; apply calm_due. Qed.
Lemma calm_ledger_entry l c : calm (ledger_parse_entry today l c).
Proof. unfold ledger_parse_entry. calm; [apply parse_entry_Loop|apply calm_entry]. Qed.
End Day.

(** ** Reports *)
Lemma calm_balance l : calm (show_balance l).
Proof. unfold show_balance, get_totals, totals_step. calm. apply calm_blank. Qed.
Lemma calm_register_loop e m ps : forall a b c, calm (register_loop e m ps a b c).
Proof. induction ps as [|p ps IH]; intros a b c; cbn [register_loop]; calm; try apply IH. apply calm_blank. Qed.
Lemma calm_register tty l b e m : calm (show_register tty l b e m).
Proof.
  unfold show_register, register_display. destruct tty; [|discriminate].
  assert (calm (maximum_lengths (l_format l) m (filter (register_filter b e m) (l_entries l)))) as K.
  { assert (forall x, calm (as_register_data x (l_format l) m)) as D.
    { intro x. unfold as_register_data. calm; apply calm_register_loop. }
    unfold maximum_lengths, lens_step, max_len. calm. specialize (D a). congruence. }
  destruct (maximum_lengths _ _ _) as [(ml & rds)| | |]; try discriminate. contradiction.
Qed.

(** ** Loading *)
Lemma calm_envelope c a d f : calm (parse_envelope c a d f).
Proof.
  unfold parse_envelope, envelope_header, parse_envtype, extract_starting, extract_frequency, parse_frequency, add_body_line, parse_funding.
  calm. apply calm_amount.
Qed.
Lemma calm_account c d f : calm (parse_account c d f).
Proof.
  unfold parse_account, account_header, account_line, flush_envelope, add_envelope. calm; apply calm_envelope.
Qed.

(** The current directory after a file has been opened. *)
Lemma chdir_cwd w p w' : chdir_parent w p = Ok w' -> cwd w' = cwd w \/ cwd w' = folder (cwd w) p.
Proof.
  unfold chdir_parent, folder. destruct (components p) as [|c cs]; [discriminate|].
  destruct (_ && _); intro H; injection H as <-; auto.
Qed.
Section Load.
Context (today : date) (T : year today < max_year).
Lemma calm_chunks (J : lw -> Prop) inc cs :
  (forall s s', J s -> snd s' = snd s -> J s') ->
  (forall f s, (exists c, In c cs /\ keyword c "include" /\ value c = Some f) -> J s -> calm (inc f s)) ->
  (forall f s s', (exists c, In c cs /\ keyword c "include" /\ value c = Some f) -> J s -> inc f s = Ok s' -> J s') ->
  forall s, J s -> calm (fold_res (parse_chunk today inc) cs s).
Proof.
  intros JS. induction cs as [|c cs IH]; intros C JI s Js; [discriminate|]. cbn [fold_res].
  assert (parse_chunk today inc s c = Loop -> False) as P.
  { change (calm (parse_chunk today inc s c)). unfold parse_chunk. destruct (split_ws c) as [|k rest] eqn:E; [discriminate|].
    unfold on_ledger. destruct (str_eqb k (lit "account")).
    { unfold ledger_parse_account. calm. apply calm_account. }
    destruct (str_eqb k (lit "currency")); [unfold set_currency; calm|].
    destruct (str_eqb k (lit "date_format")); [unfold set_date_format; calm|].
    destruct (str_eqb_spec k (lit "include")) as [->|_].
    { destruct (hd_error rest) as [f|] eqn:Ef; [|discriminate]. apply C; [|exact Js]. exists c. split; [left; reflexivity|].
      unfold keyword, value. rewrite E. auto. }
    calm. apply calm_ledger_entry, T. }
  apply calm_bind; [exact P|]. intros s1 E1. apply IH.
  - intros f s2 (c' & I & K). apply C. exists c'. split; [right; exact I|exact K].
  - intros f s2 s3 (c' & I & K). apply JI. exists c'. split; [right; exact I|exact K].
  - apply (chunks_invariant J today inc [c] JS) with (s := s) (s' := s1); [|cbn [fold_res]; rewrite E1; reflexivity|exact Js].
    intros f s2 s3 (c' & [<-|[]] & K). apply JI. exists c. split; [left; reflexivity|exact K].
Qed.

Context (w0 : world) (reached : path -> Prop) (height : path -> nat) (W : descending w0 reached height).
Definition fine (s : lw) : Prop := same_disk w0 (snd s) /\ reached (cwd (snd s)).
Lemma fine_load fuel : forall p s s', add_from_file fuel today p s = Ok s' -> fine s -> reached (folder (cwd (snd s)) p) -> fine s'.
Proof.
  induction fuel as [|k IH]; intros p s s' H (D & R) Rp; [discriminate|].
  cbn [add_from_file] in H. apply bind_Ok in H as (t & Ht & H). apply bind_Ok in H as (w & Hw & H).
  destruct (cut_up_total t) as (cs & C). rewrite (add_from_str_chunks _ _ _ _ _ C) in H.
  apply (chunks_invariant fine today) in H; [exact H| | |].
  - intros a b J E. unfold fine. rewrite E. exact J.
  - intros f a b (c & I & K & V) J E. eapply IH; [exact E|exact J|].
    unfold read_file in Ht. destruct (files (snd s) _) as [t'|] eqn:F; [|discriminate]. injection Ht as ->.
    destruct D as [DF DD]. rewrite DF in F.
    destruct (W _ t f (cwd (snd a)) F) as [X _]; [exists cs, c; auto|apply J|exact X].
  - split; cbn [snd]; [eapply same_disk_trans; [exact D|eapply chdir_disk; exact Hw]|].
    apply chdir_cwd in Hw as [-> | ->]; assumption.
Qed.
Lemma calm_load fuel : forall p s, fine s -> reached (folder (cwd (snd s)) p) -> (height (located (cwd (snd s)) p) < fuel)%nat ->
  calm (add_from_file fuel today p s).
Proof.
  induction fuel as [|k IH]; intros p s (D & R) Rp L; [lia|]. cbn [add_from_file].
  apply calm_bind; [unfold read_file; calm|]. intros t Ht. apply calm_bind; [unfold chdir_parent; calm|]. intros w Hw.
  destruct (cut_up_total t) as (cs & C). rewrite (add_from_str_chunks _ _ _ _ _ C).
  assert (files w0 (located (cwd (snd s)) p) = Some t) as F.
  { unfold read_file in Ht. rewrite resolve_located in Ht. destruct (files (snd s) _) as [t'|] eqn:F; [|discriminate].
    injection Ht as ->. destruct D as [DF DD]. rewrite DF in F. exact F. }
  assert (forall f a, (exists c, In c cs /\ keyword c "include" /\ value c = Some f) -> fine a ->
    reached (folder (cwd (snd a)) f) /\ (height (located (cwd (snd a)) f) < k)%nat) as K.
  { intros f a (c & I & K & V) J. destruct (W _ t f (cwd (snd a)) F) as [X Y]; [exists cs, c; auto|apply J|]. split; [exact X|lia]. }
  apply (calm_chunks fine).
  - intros a b J E. unfold fine. rewrite E. exact J.
  - intros f a I J. destruct (K f a I J). apply IH; assumption.
  - intros f a b I J E. destruct (K f a I J). eapply fine_load; eassumption.
  - split; cbn [snd]; [eapply same_disk_trans; [exact D|eapply chdir_disk; exact Hw]|].
    apply chdir_cwd in Hw as [-> | ->]; assumption.
Qed.
End Load.

(** ** Rules *)
Lemma calm_line inc r l : (forall p, includes_file l p -> calm (inc p r)) -> calm (add_from_line inc r l).
Proof.
  intros F H. pose proof H as H0. unfold add_from_line in H. destruct (position is_ws (trim_start l)) as [i|] eqn:P; [|discriminate].
  destruct (slice_to i (trim_start l)) as [name| | |] eqn:Hn; try discriminate;
    [|unfold slice_to in Hn; destruct (split_at_byte _ _) as [[]|]; discriminate]. cbn [bind] in H.
  destruct (slice_from (S i) (trim_start l)) as [rest| | |] eqn:Hr; try discriminate;
    [|unfold slice_from in Hr; destruct (split_at_byte _ _) as [[]|]; discriminate]. cbn [bind] in H.
  change (apply_rule inc (trim_start l) r (name, trim_start rest) = Loop) in H.
  destruct (include_name name) eqn:N.
  - rewrite apply_include in H by exact N. set (v := trim_start rest) in *.
    pose (inc0 := fun (p : str) (r : rules) => if str_dec p v then Ok r else Panic).
    assert (includes_rules l) as I.
    { destruct (first_token l i name P Hn N) as (w & c & b & -> & W & Hc & _ & _ & T).
      exists name. rewrite split_ws_ws by exact W. rewrite split_ws_tok by assumption. split; [reflexivity|apply include_names, N]. }
    assert (add_from_line inc0 r l = Ok r) as E.
    { unfold add_from_line. rewrite P, Hn. cbn [bind]. rewrite Hr. cbn [bind].
      change (apply_rule inc0 (trim_start l) r (name, v) = Ok r). rewrite apply_include by exact N. unfold inc0. destruct (str_dec v v); congruence. }
    destruct (add_from_line_file inc0 r l r I E) as (p & Ip & Ep). unfold inc0 in Ep.
    destruct (str_dec p v) as [->|]; [|discriminate]. exact (F v Ip H).
  - rewrite (apply_rule_free inc (fun _ r => Ok r)) in H by exact N. revert H.
    change (calm (apply_rule (fun _ r => Ok r) (trim_start l) r (name, trim_start rest))).
    unfold apply_rule, reset_rule, set_rule. calm.
Qed.
Lemma calm_root inc r l : (forall p r, includes_file l p -> calm (inc p r)) -> calm (root_line inc r l).
Proof.
  intro F. unfold root_line, slice_from. calm. apply calm_line. intros ?. apply F.
Qed.
Lemma calm_rules_line inc st l : (In (remove_comments l) (filter (fun l => negb (forallb is_ws l)) [remove_comments l]) ->
  forall p r, includes_file (remove_comments l) p -> calm (inc p r)) -> calm (rules_line inc st l).
Proof.
  intro F. unfold rules_line. destruct (trim (remove_comments l)) as [|h t] eqn:E; [discriminate|].
  assert (forall p r, includes_file (remove_comments l) p -> calm (inc p r)) as G.
  { apply F. cbn [filter]. destruct (forallb is_ws (remove_comments l)) eqn:B; [|left; reflexivity].
    rewrite (proj2 (trim_nil _)) in E by exact B. discriminate. }
  destruct (remove_comments l) as [|c b] eqn:E1; [discriminate|].
  calm; try (apply calm_root; exact G). apply calm_line. intros ?. apply G.
Qed.
Lemma calm_rules inc r s : (forall l p r, In l (rule_lines s) -> includes_file l p -> calm (inc p r)) -> calm (rules_from_str inc r s).
Proof.
  intro F. unfold rules_from_str. calm. apply calm_rules_line. intros I p r0 Hp.
  apply (F (remove_comments a) p r0); [|exact Hp]. unfold rule_lines. apply filter_In in I as [_ I].
  apply filter_In. split; [apply in_map; assumption|exact I].
Qed.
Lemma calm_rules_file w height : descending_rules w height -> forall fuel p r, (height (resolve w p) < fuel)%nat ->
  calm (rules_from_file fuel w p r).
Proof.
  intro D. induction fuel as [|k IH]; intros p r L; [lia|]. cbn [rules_from_file].
  apply calm_bind; [unfold read_file; calm|]. intros t Ht. unfold read_file in Ht.
  destruct (files w (resolve w p)) as [t'|] eqn:F; [|discriminate]. injection Ht as ->.
  apply calm_rules. intros l q r0 I Hq. apply IH. pose proof (D _ t l q F I Hq). lia.
Qed.
Lemma calm_record lower ord r names rec : calm (import_record lower ord r names rec).
Proof.
  unfold import_record, entry_of_record, import_posting, complete_postings, parse_status.
  apply calm_bind. { generalize (@nil (str * str)) as acc. generalize (r_fields (select_rules lower rec r)) as fs.
    revert r. induction rec as [|v rec IH]; intros r0 [|f fs] acc; cbn [make_variables]; try discriminate.
    calm. apply (IH r0). }
  intros vars _. calm. apply parse_posting_total.
Qed.
Lemma calm_records today mk recs : year today < max_year -> (forall r, calm (mk r)) -> forall l w,
  calm (snd (import_records today mk l w recs)).
Proof.
  intros T M. induction recs as [|r recs IH]; intros l w; cbn [import_records]; [discriminate|].
  pose proof (M r) as Mr. destruct (mk r) as [e| | |]; try discriminate; [|exfalso; apply Mr; reflexivity].
  pose proof (calm_append today T l w e) as A. destruct (append_entry today l w e) as [w1 [l1| | |]]; cbn [snd] in *; try discriminate; [apply IH|].
  exact A.
Qed.
Lemma calm_import fuel today lower ord csv l w c rf height : year today < max_year -> descending_rules w height ->
  (height (resolve w (match rf with Some p => p | None => c ++ lit ".rules" end)) <= fuel)%nat ->
  calm (snd (import_csv fuel today lower ord csv l w c rf)).
Proof.
  intros T D L. unfold import_csv.
  assert (calm (open_importer fuel w csv c rf)) as O.
  { unfold open_importer, parse_rules. apply calm_bind; [unfold read_file; calm|]. intros ct _.
    apply calm_bind; [unfold read_file; calm|]. intros t Ht. unfold read_file in Ht.
    destruct (files w (resolve w _)) as [t'|] eqn:F in Ht; [|discriminate]. injection Ht as ->.
    calm.
    - apply calm_rules. intros l0 q r0 I Hq. apply (calm_rules_file w height D). pose proof (D _ t l0 q F I Hq). lia.
    - generalize (skip_records (r_skip a) (csv ct)) as rs. induction rs as [|[r|] rs IH]; cbn [collect_records]; calm. exact IH. }
  destruct (open_importer fuel w csv c rf) as [[r recs]| | |]; try discriminate; [|exfalso; apply O; reflexivity].
  apply calm_records; [exact T|]. intro rec. apply calm_record.
Qed.
