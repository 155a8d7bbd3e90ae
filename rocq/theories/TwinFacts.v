(** Two runs in worlds whose files differ: what is printed and appended. *)
From Coq Require Import ZArith NArith List Bool String.
From Verif Require Import Base Str F64 Date World Amount Posting Entry Envelope Account Register Ledger Importer Cli
  SpecText SpecLedger SpecImport SpecCrash SpecWords SpecLayout
  StrFacts EntryFacts ImportFacts ExpandFacts CrashImport IncludeFacts AlikeFacts WordsFacts PropertiesCli.
Import ListNotations.

Lemma same_none w w' v v' : files w' = files w -> files v' = files v -> same_additions w w' v v'.
Proof.
  intros W V p. exists []. rewrite W, V.
  assert (N : forall o : option str, o = option_map (fun t => t ++ []) o) by (intros [t|]; cbn; [rewrite app_nil_r|]; reflexivity). split; apply N.
Qed.
Lemma chdir_files w w' s : chdir_parent w s = Ok w' -> files w' = files w.
Proof. unfold chdir_parent. destruct (components s); [discriminate|]. destruct (_ && _); intro H; injection H as <-; reflexivity. Qed.
Lemma parse_chunk_files today inc s c s' : (forall f u u', inc f u = Ok u' -> files (snd u') = files (snd u)) -> parse_chunk today inc s c = Ok s' -> files (snd s') = files (snd s).
Proof.
  intros H. unfold parse_chunk. destruct (split_ws c) as [|k r]; [intro E; injection E as <-; reflexivity|]. cbv zeta.
  assert (O : forall q, on_ledger s q = Ok s' -> files (snd s') = files (snd s)) by (intros [q| | |]; cbn; intro E; try discriminate; injection E as <-; reflexivity).
  destruct (str_eqb k (lit "account")); [apply O|]. destruct (str_eqb k (lit "currency")); [apply O|]. destruct (str_eqb k (lit "date_format")); [apply O|].
  destruct (str_eqb k (lit "include")); [|apply O]. destruct (hd_error r); [apply H|discriminate].
Qed.
Lemma load_files today : forall fuel p s s', add_from_file fuel today p s = Ok s' -> files (snd s') = files (snd s).
Proof.
  induction fuel as [|fuel IH]; intros p s s' H; [discriminate|]. cbn in H. destruct (read_file (snd s) p); [|discriminate..]. cbn in H.
  destruct (chdir_parent (snd s) p) as [w| | |] eqn:C; [|discriminate..]. cbn in H. rewrite <- (chdir_files _ _ _ C). unfold add_from_str in H.
  apply bind_Ok in H as ([c u] & H & K). apply parse_chunk_files in K; [|apply IH].
  rewrite K. clear K.
  assert (G : forall xs st st', fold_res (line_step today (add_from_file fuel today)) xs st = Ok st' -> files (snd (snd st')) = files (snd (snd st)));
    [|exact (G _ _ _ H)].
  clear - IH. induction xs as [|x xs IHx]; intros st st' H; [injection H as ->; reflexivity|].
  cbn [fold_res] in H. apply bind_Ok in H as (s1 & H & K). rewrite (IHx s1 _ K). destruct st as [d z]. unfold line_step in H.
  destruct (remove_comments (trim_end x)) as [|y ys]; [injection H as <-; reflexivity|]. destruct (is_ws y); [injection H as <-; reflexivity|].
  apply bind_Ok in H as (z' & H & E). injection E as <-. cbn. apply parse_chunk_files in H; [exact H|apply IH].
Qed.

(** ** What an import reads *)
Lemma line_ext inc inc' r l : (forall f r, includes_file l f -> inc f r = inc' f r) -> add_from_line inc r l = add_from_line inc' r l.
Proof.
  intro H. unfold add_from_line. destruct (position is_ws (trim_start l)) as [i|] eqn:P; [|reflexivity].
  destruct (slice_to i (trim_start l)) as [name| | |] eqn:Hn; try reflexivity. cbn [bind].
  destruct (slice_from (S i) (trim_start l)) as [rest| | |] eqn:Hr; try reflexivity. cbn [bind].
  change (apply_rule inc (trim_start l) r (name, trim_start rest) = apply_rule inc' (trim_start l) r (name, trim_start rest)).
  destruct (include_name name) eqn:N; [|apply apply_rule_free; exact N]. rewrite !apply_include by exact N. apply H.
  set (probe := fun p (_ : rules) => if str_eqb p (trim_start rest) then Ok r else Err (EFile p)).
  assert (E : add_from_line probe r l = Ok r).
  { unfold add_from_line. rewrite P, Hn. cbn [bind]. rewrite Hr. cbn [bind].
    change (apply_rule probe (trim_start l) r (name, trim_start rest) = Ok r). rewrite apply_include by exact N. unfold probe. rewrite str_eqb_refl. reflexivity. }
  apply add_from_line_file in E as (p & Ip & E).
  - unfold probe in E. destruct (str_eqb_spec p (trim_start rest)) as [<-|_]; [exact Ip|discriminate].
  - destruct (first_token l i name P Hn N) as (w & c & b & -> & W & Hc & _ & _ & T).
    exists name. rewrite split_ws_ws by exact W. rewrite split_ws_tok by assumption. split; [reflexivity|apply include_names, N].
Qed.
Lemma items_same inc inc' is : (forall l f r, ruled is l -> includes_file l f -> inc f r = inc' f r) ->
  forall r, fold_res (item_step inc) is r = fold_res (item_step inc') is r.
Proof.
  intro H. apply fold_ext. intros s i Ii. destruct i as [l|h ps rs]; cbn [item_step].
  - apply line_ext. intros f r If. apply (H l); [left; exact Ii|exact If].
  - destruct (header_patterns h); cbn [bind]; try reflexivity.
    rewrite (fold_ext (add_from_line inc) (add_from_line inc') rs); [reflexivity|]. intros r' l Il. apply line_ext. intros f r If.
    apply (H l); [right; exists h, ps, rs; auto|exact If].
Qed.
Section Sources.
Context (w v : world) (r : str) (Cw : cwd w = cwd v) (Same : forall q, rules_file w (cwd w) r q -> files w q = files v q).
Lemma rules_agree n : forall p rs, rules_file w (cwd w) r (located (cwd w) p) -> rules_from_file n w p rs = rules_from_file n v p rs.
Proof.
  induction n as [|n IH]; intros p rs R; [reflexivity|]. cbn [rules_from_file]. unfold read_file.
  change (resolve w p) with (located (cwd w) p). change (resolve v p) with (located (cwd v) p). rewrite <- Cw, <- (Same _ R).
  destruct (files w (located (cwd w) p)) as [t|] eqn:F; [|reflexivity]. cbn [bind].
  destruct (layout_total (rule_lines t)) as (is & L). rewrite !(rules_layout _ _ _ _ L). apply items_same. intros l f rs' Rl If.
  apply IH. eapply rules_include; eauto.
Qed.
Lemma open_agree fuel csv (c : str) (rf : option str) : match rf with Some p => p | None => c ++ lit ".rules" end = r -> files w (located (cwd w) c) = files v (located (cwd w) c) ->
  open_importer fuel w csv c rf = open_importer fuel v csv c rf.
Proof.
  intros Er Fc. unfold open_importer. cbv zeta. rewrite Er. unfold read_file.
  change (resolve w c) with (located (cwd w) c). change (resolve v c) with (located (cwd v) c). change (resolve w r) with (located (cwd w) r). change (resolve v r) with (located (cwd v) r).
  rewrite <- Cw, <- Fc. pose proof (rules_main w (cwd w) r) as R. rewrite <- (Same _ R). destruct (files w (located (cwd w) c)); [|reflexivity]. cbn [bind].
  destruct (files w (located (cwd w) r)) as [t|] eqn:F; [|reflexivity]. cbn [bind].
  assert (parse_rules fuel w t = parse_rules fuel v t) as ->; [|reflexivity]. unfold parse_rules.
  destruct (layout_total (rule_lines t)) as (is & L). rewrite !(rules_layout _ _ _ _ L). apply items_same. intros l f rs' Rl If.
  apply rules_agree. eapply rules_include; [exact R|exact F|exact L|exact Rl|exact If].
Qed.
End Sources.

(** ** Appending *)
Definition Twin (w v : world) : Prop := cwd w = cwd v /\ forall p, files w p = None <-> files v p = None.
Lemma same_trans w w1 w2 v v1 v2 : same_additions w w1 v v1 -> same_additions w1 w2 v1 v2 -> same_additions w w2 v v2.
Proof.
  intros A B p. destruct (A p) as (x & Ax & Ay). destruct (B p) as (y & Bx & By). exists (x ++ y). rewrite Bx, By, Ax, Ay.
  split; [destruct (files w p)|destruct (files v p)]; cbn; try reflexivity; rewrite app_assoc; reflexivity.
Qed.
Lemma same_twin w w1 v v1 : Twin w v -> same_additions w w1 v v1 -> cwd w1 = cwd w -> cwd v1 = cwd v -> Twin w1 v1.
Proof.
  intros [C N] A Cw Cv. split; [congruence|]. intro p. destruct (A p) as (x & -> & ->). specialize (N p).
  destruct (files w p), (files v p); cbn; split; intro E; try discriminate; try reflexivity; exfalso; destruct N as [N1 N2]; first [discriminate (N1 eq_refl)|discriminate (N2 eq_refl)].
Qed.
Lemma path_eqb_true p q : path_eqb p q = true -> p = q.
Proof.
  revert q. induction p as [|c p IH]; intros [|d r]; cbn; try discriminate; [reflexivity|].
  rewrite andb_true_iff. intros [Q1 Q2]. apply str_eqb_eq in Q1. rewrite Q1, (IH _ Q2). reflexivity.
Qed.

Section Twins.
Context (E : entry -> entry -> Prop).
Context (Hadd : forall today l m e, ledgers E l m -> together (ledgers E) (add_entry today l e) (add_entry today m e)).
Lemma twin_append today l m w v e : ledgers E l m -> Twin w v ->
  same_additions w (fst (append_entry today l w e)) v (fst (append_entry today m v e))
  /\ Twin (fst (append_entry today l w e)) (fst (append_entry today m v e))
  /\ together (ledgers E) (snd (append_entry today l w e)) (snd (append_entry today m v e)).
Proof.
  intros L T. pose proof L as (P & F & A & C & Es). pose proof T as [Cw N].
  assert (Z : same_additions w w v v) by (apply same_none; reflexivity).
  unfold append_entry, append_file. rewrite P, F.
  assert (R : resolve w (l_path m) = resolve v (l_path m)) by (unfold resolve; rewrite Cw; reflexivity). rewrite R.
  specialize (N (resolve v (l_path m))) as Np. destruct (files w (resolve v (l_path m))) as [t|] eqn:Ew, (files v (resolve v (l_path m))) as [u|] eqn:Ev.
  - destruct (printable (l_format m)); cbn [fst snd]; [|split; [exact Z|split; [exact T|exact I]]].
    assert (S : same_additions w (mkWorld (fun q => if path_eqb q (resolve v (l_path m)) then Some (t ++ 10%N :: show_entry (l_format m) e) else files w q) (dirs w) (cwd w))
                  v (mkWorld (fun q => if path_eqb q (resolve v (l_path m)) then Some (u ++ 10%N :: show_entry (l_format m) e) else files v q) (dirs v) (cwd v))).
    { intro q. cbn [files]. destruct (path_eqb q (resolve v (l_path m))) eqn:Q; [|apply (Z q)]. apply path_eqb_true in Q as ->.
      exists (10%N :: show_entry (l_format m) e). rewrite Ew, Ev. split; reflexivity. }
    split; [exact S|]. split; [eapply same_twin; [exact T|exact S|reflexivity|reflexivity]|]. apply Hadd, L.
  - destruct Np as [_ Np]. discriminate (Np eq_refl).
  - destruct Np as [Np _]. discriminate (Np eq_refl).
  - split; [exact Z|]. split; [exact T|exact I].
Qed.
Lemma twin_fill today l m w v : ledgers E l m -> Twin w v ->
  same_additions w (fst (fill_envelopes today l w)) v (fst (fill_envelopes today m v))
  /\ Twin (fst (fill_envelopes today l w)) (fst (fill_envelopes today m v))
  /\ together (ledgers E) (snd (fill_envelopes today l w)) (snd (fill_envelopes today m v)).
Proof.
  intros L T. pose proof L as (P & F & A & C & Es). unfold fill_envelopes.
  replace (fill_postings today m) with (fill_postings today l) by (unfold fill_postings; rewrite A; reflexivity).
  assert (Z : same_additions w w v v) by (apply same_none; reflexivity).
  destruct (fill_postings today l) as [[|p ps]| | |]; try (split; [exact Z|split; [exact T|first [exact L|exact I]]]).
  apply twin_append; assumption.
Qed.
Lemma twin_import today mk recs : forall l m w v, ledgers E l m -> Twin w v ->
  same_additions w (fst (import_records today mk l w recs)) v (fst (import_records today mk m v recs))
  /\ together (ledgers E) (snd (import_records today mk l w recs)) (snd (import_records today mk m v recs)).
Proof.
  induction recs as [|rec recs IH]; intros l m w v L T; assert (Z : same_additions w w v v) by (apply same_none; reflexivity); cbn [import_records].
  - split; [exact Z|exact L].
  - destruct (mk rec) as [e| | |]; try (split; [exact Z|exact I]).
    pose proof (twin_append today l m w v e L T) as (S & T' & R).
    destruct (append_entry today l w e) as [w1 r], (append_entry today m v e) as [v1 s]. cbn [fst snd] in *.
    destruct r as [l1| | |], s as [m1| | |]; cbn in R; try contradiction; try (split; [exact S|exact I]).
    destruct (IH l1 m1 w1 v1 R T') as [S2 R2]. split; [eapply same_trans; eassumption|exact R2].
Qed.

(** ** Runs *)
Context (WR : world -> world -> Prop) (Reg : Prop).
Context (Htwin : forall w v, WR w v -> Twin w v).
Context (Hload : forall fuel today p w v, WR w v ->
  together (fun s t => ledgers E (fst s) (fst t) /\ WR (snd s) (snd t)) (from_file fuel today p w) (from_file fuel today p v)).
Context (Hbal : forall l m, ledgers E l m -> together eq (show_balance l) (show_balance m)).
Context (Hreg : Reg -> forall tty l m b e a, ledgers E l m -> show_register tty l b e a = show_register tty m b e a).

Lemma twin_execute x f w v : WR w v -> (f_cmd f = CmdRegister -> Reg) ->
  (forall j c, f_cmd f = Import -> journal_path x f = Some j -> f_csv f = Some c -> same_sources w v j c (rules_for f c)) ->
  o_out (execute x f w) = o_out (execute x f v) /\ exit_status (execute x f w) = exit_status (execute x f v)
  /\ same_additions w (o_world (execute x f w)) v (o_world (execute x f v)).
Proof.
  intros W K Src. unfold execute. assert (Z : same_additions w w v v) by (apply same_none; reflexivity).
  destruct (journal_path x f) as [p|] eqn:J; [|cbn; auto].
  pose proof (Hload (x_fuel x) (x_today x) p w v W) as L.
  assert (FW : forall s, from_file (x_fuel x) (x_today x) p w = Ok s -> files (snd s) = files w /\ l_path (fst s) = p)
    by (intros s Q; split; [exact (load_files _ _ _ _ _ Q)|exact (load_path _ _ _ _ _ Q)]).
  assert (FV : forall s, from_file (x_fuel x) (x_today x) p v = Ok s -> files (snd s) = files v) by (intros s Q; exact (load_files _ _ _ _ _ Q)).
  destruct (from_file (x_fuel x) (x_today x) p w) as [[l w1]| | |], (from_file (x_fuel x) (x_today x) p v) as [[m v1]| | |]; cbn in L; try contradiction; try (cbn; auto; fail).
  destruct L as [L W1]. cbn [fst snd] in L, W1. specialize (FW _ eq_refl). specialize (FV _ eq_refl). cbn [fst snd] in FW, FV. destruct FW as [FW Pw].
  apply Htwin in W1.
  assert (RC : forall l m w2 v2, ledgers E l m -> same_additions w w2 v v2 -> Twin w2 v2 -> (forall q, q <> resolve w1 p -> files w2 q = files w q) ->
    o_out (run_command x f l w2) = o_out (run_command x f m v2) /\ exit_status (run_command x f l w2) = exit_status (run_command x f m v2)
    /\ same_additions w (o_world (run_command x f l w2)) v (o_world (run_command x f m v2))).
  { intros l' m' w2 v2 L' S T O. unfold run_command.
    assert (PR : forall r s : res str, together eq r s -> o_out (printed w2 r) = o_out (printed v2 s) /\ exit_status (printed w2 r) = exit_status (printed v2 s)
       /\ same_additions w (o_world (printed w2 r)) v (o_world (printed v2 s))).
    { intros r s Q. destruct r, s; cbn in Q; try contradiction; subst; cbn; auto. }
    destruct (f_cmd f) eqn:Cmd; try (split; [reflexivity|split; [reflexivity|exact S]]; fail).
    - apply PR, Hbal, L'.
    - apply PR. unfold show_envelopes. destruct L' as (_ & _ & -> & _). apply together_eq.
    - apply PR. rewrite (Hreg (K eq_refl) (x_tty x) l' m' _ _ _ L'). apply together_eq.
    - destruct (f_csv f) as [c|] eqn:Csv; [|cbn; auto]. specialize (Src p c eq_refl eq_refl eq_refl).
      assert (Away : forall d q, rules_file w d (rules_for f c) q \/ q = located d c -> files w2 q = files w q /\ files v2 q = files w q).
      { intros d q Rq. destruct (Src d q Rq) as [Eq Nj]. assert (Ew : files w2 q = files w q) by (apply O; exact (Nj (cwd w1))). split; [exact Ew|].
        destruct (S q) as (y & Sw & Sv). rewrite Ew in Sw. rewrite Sv, <- Eq. symmetry. exact Sw. }
      assert (Rules : forall d q, rules_file w2 d (rules_for f c) q -> rules_file w d (rules_for f c) q).
      { intros d q Rq. induction Rq as [|q t is l0 f0 Rq IH Fq La Ru In]; [apply rules_main|]. eapply rules_include; [exact IH| |exact La|exact Ru|exact In].
        rewrite <- Fq. symmetry. apply (Away d). left. exact IH. }
      assert (OI : open_importer (x_fuel x) w2 (x_csv x) c (f_rules f) = open_importer (x_fuel x) v2 (x_csv x) c (f_rules f)).
      { apply (open_agree w2 v2 (rules_for f c)); [exact (proj1 T)| |reflexivity|].
        - intros q Rq. destruct (Away (cwd w2) q) as [-> ->]; [left; apply Rules, Rq|reflexivity].
        - destruct (Away (cwd w2) (located (cwd w2) c)) as [-> ->]; [right; reflexivity|reflexivity]. }
      unfold import_csv. rewrite <- OI. assert (account_names l' = account_names m') as -> by (unfold account_names; destruct L' as (_ & _ & -> & _); reflexivity).
      destruct (open_importer _ _ _ _ _) as [[rs recs]| | |]; try (cbn; auto; fail).
      destruct (twin_import (x_today x) (import_record (x_lower x) (x_ord x) rs (account_names m')) recs l' m' w2 v2 L' T) as [S2 R2].
      unfold done. cbn [o_out o_world o_res exit_status]. split; [reflexivity|]. split; [|eapply same_trans; eassumption].
      unfold exit_status. cbn [o_res]. destruct (snd (import_records _ _ l' _ _)), (snd (import_records _ _ m' _ _)); cbn in R2; try contradiction; reflexivity. }
  assert (Z1 : same_additions w w1 v v1) by (apply same_none; assumption).
  destruct (f_no_move f); [apply RC; [exact L|exact Z1|exact W1|intros q _; rewrite FW; reflexivity]|].
  pose proof (twin_fill (x_today x) l m w1 v1 L W1) as (S & T & R).
  destruct (fill_envelopes (x_today x) l w1) as [w2 r] eqn:Fl, (fill_envelopes (x_today x) m v1) as [v2 r']. cbn [fst snd] in S, T, R.
  assert (S' : same_additions w w2 v v2) by (eapply same_trans; eassumption).
  pose proof (fill_longer _ _ _ _ _ Fl) as ((O & _) & _ & _). rewrite Pw in O.
  destruct r, r'; cbn in R; try contradiction; try (cbn; auto; fail).
  apply RC; [exact R|exact S'|exact T|]. intros q Nq. rewrite (O q Nq), FW. reflexivity.
Qed.
End Twins.
