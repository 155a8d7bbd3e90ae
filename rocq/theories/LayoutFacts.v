(** Layout: reading depends on lines and words. *)
From Coq Require Import NArith List Bool String Lia.
From Verif Require Import Base Str F64 Date World Amount Posting Entry Envelope Account Ledger
  SpecText SpecLedger SpecWords SpecCrash SpecLayout
  StrFacts LineFacts PostingFacts EntryFacts DefinitionFacts LoadFacts WordsFacts.
Import ListNotations.

Lemma together_trans {A} (r s t : res A) : together eq r s -> together eq s t -> together eq r t.
Proof. destruct r, s, t; cbn; congruence || tauto. Qed.
Lemma together_sym {A} (r s : res A) : together eq r s -> together eq s r.
Proof. destruct r, s; cbn; congruence || tauto. Qed.

(** ** Lines of a text *)
Definition some_words (ws : list str) : bool := match ws with [] => false | _ => true end.
Definition nonblank (l : str) : bool := some_words (split_ws l).
Lemma sentences_map ls : filter some_words (map split_ws ls) = map split_ws (filter nonblank ls).
Proof. induction ls as [|l ls IH]; [reflexivity|]. cbn [map filter]. unfold nonblank at 1. destruct (some_words (split_ws l)); cbn [map]; rewrite IH; reflexivity. Qed.
Lemma finish_words ps : filter some_words (map split_ws (finish_lines ps)) = filter some_words (map split_ws ps).
Proof.
  induction ps as [|p ps IH]; [reflexivity|]. cbn [finish_lines]. destruct ps as [|q ps].
  - destruct p; reflexivity.
  - cbn [map filter] in *. rewrite split_ws_strip_cr, IH. reflexivity.
Qed.
Lemma sentences_pieces s : sentences s = filter some_words (map split_ws (split_on 10%N s)).
Proof. apply finish_words. Qed.
Lemma sentences_start w s : all_ws w -> sentences (w ++ s) = sentences s.
Proof.
  rewrite !sentences_pieces. induction w as [|c w IH]; intro W; [reflexivity|].
  apply all_ws_cons in W as [Hc W]. cbn [app split_on]. destruct (N.eqb c 10).
  - cbn [map filter]. apply IH, W.
  - rewrite <- (IH W). pose proof (split_on_nonempty 10%N (w ++ s)) as N. destruct (split_on 10%N (w ++ s)) as [|p ps]; [contradiction|].
    cbn [map]. change (c :: p) with ([c] ++ p). rewrite split_ws_ws by (apply all_ws_cons; split; [exact Hc|reflexivity]). reflexivity.
Qed.
Lemma split_on_snoc s c : split_on 10%N (s ++ [c]) =
  if N.eqb c 10 then split_on 10%N s ++ [[]] else removelast (split_on 10%N s) ++ [List.last (split_on 10%N s) [] ++ [c]].
Proof.
  induction s as [|x s IH]; [cbn; destruct (N.eqb c 10); reflexivity|].
  cbn [app split_on]. pose proof (split_on_nonempty 10%N s) as N. destruct (N.eqb x 10).
  - rewrite IH. destruct (N.eqb c 10); [reflexivity|]. destruct (split_on 10%N s) as [|p ps]; [contradiction|]. reflexivity.
  - rewrite IH. destruct (split_on 10%N s) as [|p ps]; [contradiction|]. destruct (N.eqb c 10); [reflexivity|].
    destruct ps as [|q ps]; reflexivity.
Qed.
Lemma sentences_end s c : is_ws c = true -> sentences (s ++ [c]) = sentences s.
Proof.
  intro H. rewrite !sentences_pieces, split_on_snoc. destruct (N.eqb c 10).
  - rewrite map_app, filter_app. cbn. apply app_nil_r.
  - pose proof (split_on_nonempty 10%N s) as N. rewrite (app_removelast_last [] N) at 3.
    rewrite !map_app, !filter_app. cbn [map]. rewrite split_ws_snoc_ws by exact H. reflexivity.
Qed.
Lemma sentences_ends s w : all_ws w -> sentences (s ++ w) = sentences s.
Proof.
  induction w as [|c w IH] using rev_ind; intro W; [rewrite app_nil_r; reflexivity|].
  apply all_ws_app in W as [W H]. apply all_ws_cons in H as [H _]. rewrite app_assoc, sentences_end by exact H. apply IH, W.
Qed.
Lemma sentences_trim s : sentences (trim s) = sentences s.
Proof.
  destruct (trim_spec s) as (a & b & E & A & B & _). rewrite E at 2. rewrite sentences_start, sentences_ends by assumption. reflexivity.
Qed.

Lemma markfree_pieces s : markfree s = true -> Forall (fun l => markfree l = true) (split_on 10%N s).
Proof.
  intro M. remember (List.length s) as n eqn:Hn. assert (Le : (List.length s <= n)%nat) by lia. clear Hn. revert s M Le.
  induction n as [|n IH]; intros s M Le; [destruct s; [repeat constructor|cbn in Le; lia]|].
  destruct (newline_cut s) as [N|(a & b & -> & N)]; [rewrite split_on_none by exact N; repeat constructor; exact M|].
  rewrite split_on_app by exact N. constructor; [exact (markfree_app_l _ _ M)|]. apply IH; [apply (markfree_app_r (a ++ [10%N])); rewrite <- app_assoc; exact M|].
  rewrite app_length in Le. cbn in Le. lia.
Qed.
Lemma finish_markfree ps : Forall (fun l => markfree l = true) ps -> Forall (fun l => markfree l = true) (finish_lines ps).
Proof.
  induction 1 as [|p ps H F IH]; [constructor|]. cbn [finish_lines]. destruct ps as [|q ps]; [destruct p; repeat constructor; exact H|].
  constructor; [apply markfree_strip_cr, H|exact IH].
Qed.
Lemma markfree_lines s : markfree s = true -> Forall (fun l => markfree l = true) (lines s).
Proof. intro M. apply finish_markfree, markfree_pieces, M. Qed.

(** ** Entries *)
Lemma words_posting a b dsym accounts : markfree a = true -> markfree b = true -> split_ws a = split_ws b ->
  together eq (parse_posting a dsym accounts) (parse_posting b dsym accounts).
Proof.
  intros A B E. rewrite !parse_posting_markfree. unfold parse_envposting, parse_classic.
  rewrite !split_ws_trim, !remove_comments_idem, (remove_comments_markfree _ A), (remove_comments_markfree _ B), E.
  destruct (split_ws b) as [|t ts]; [exact I|]. destruct (str_eqb t (lit "envelope")); [|apply together_eq].
  cbn [skipn]. destruct ts as [|x [|y ts]]; try exact I. apply together_eq.
Qed.
Lemma postings_nonblank dsym accounts ls : parse_postings ls dsym accounts = parse_postings (filter nonblank ls) dsym accounts.
Proof.
  induction ls as [|l ls IH]; [reflexivity|]. cbn [filter]. unfold nonblank at 1. cbn [parse_postings].
  destruct (split_ws l) as [|t ts] eqn:E; cbn [some_words].
  - apply split_ws_nil, trim_nil in E. rewrite E. exact IH.
  - cbn [parse_postings]. rewrite IH. reflexivity.
Qed.
Lemma words_postings dsym accounts ls ms : Forall (fun l => markfree l = true) ls -> Forall (fun l => markfree l = true) ms ->
  filter some_words (map split_ws ls) = filter some_words (map split_ws ms) ->
  together eq (parse_postings ls dsym accounts) (parse_postings ms dsym accounts).
Proof.
  intros L M E. rewrite !sentences_map in E. rewrite (postings_nonblank _ _ ls), (postings_nonblank _ _ ms).
  assert (L' : Forall (fun l => markfree l = true) (filter nonblank ls)) by (apply incl_Forall with (l1 := ls); [intros x H; apply filter_In in H; apply H|exact L]).
  assert (M' : Forall (fun l => markfree l = true) (filter nonblank ms)) by (apply incl_Forall with (l1 := ms); [intros x H; apply filter_In in H; apply H|exact M]).
  assert (B : forall xs, Forall (fun l => split_ws l <> []) (filter nonblank xs)).
  { intro xs. apply Forall_forall. intros x H. apply filter_In in H as [_ H]. unfold nonblank in H. destruct (split_ws x); discriminate. }
  pose proof (B ls) as Bl. pose proof (B ms) as Bm. clear B L M.
  revert E L' M' Bl Bm. generalize (filter nonblank ls) (filter nonblank ms). clear ls ms. intros ls.
  induction ls as [|l ls IH]; intros [|m ms] E L M Bl Bm; try discriminate; [exact eq_refl|].
  cbn [map] in E. injection E as E1 E2. inversion L; subst. inversion M; subst. inversion Bl; subst. inversion Bm; subst. cbn [parse_postings].
  assert (T : forall x, split_ws x <> [] -> exists c t, trim x = c :: t).
  { intros x N. destruct (trim x) as [|c t] eqn:Q; [|eauto]. apply trim_nil, split_ws_nil in Q. contradiction. }
  destruct (T l) as (c1 & t1 & ->); [assumption|]. destruct (T m) as (c2 & t2 & ->); [assumption|].
  eapply together_bind; [apply words_posting; eassumption|]. intros p ? <-. eapply together_bind; [apply IH; assumption|]. intros ps ? <-. reflexivity.
Qed.
Lemma words_header a b fmt : markfree a = true -> markfree b = true -> split_ws a = split_ws b -> together eq (parse_header a fmt) (parse_header b fmt).
Proof.
  intros A B E. unfold parse_header. rewrite (remove_comments_markfree _ A), (remove_comments_markfree _ B), E.
  destruct (split_ws b) as [|d ws]; [exact I|]. destruct (parse_date d fmt); [|exact I]. destruct ws as [|s ws]; [exact I|].
  eapply together_bind; [apply together_eq|]. intros st ? <-. eapply together_bind with (R := eq).
  - unfold split_payee. destruct (find_char _ _); [|reflexivity]. destruct (rfind_char _ _); [|exact I]. destruct (Nat.leb _ _); reflexivity.
  - intros [x y] ? <-. reflexivity.
Qed.
Lemma validate_together c d e : together eq (validate_entry c e) (validate_entry d e).
Proof.
  unfold validate_entry. eapply together_bind with (R := eq).
  - generalize 0%nat (@nil str). induction (e_postings e) as [|p ps IH]; intros n syms; cbn [validate_loop]; [reflexivity|].
    destruct (get_amount p); [apply IH|]. destruct (Nat.ltb _ _); [exact I|apply IH].
  - intros [n s] ? <-. destruct (_ && _); reflexivity.
Qed.
Lemma trim_first_line s h ls : lines (trim s) = h :: ls -> split_ws h <> [].
Proof.
  intro E. destruct (trim s) as [|c t] eqn:T; [discriminate|].
  assert (W : is_ws c = false). { destruct (trim_spec s) as (_ & _ & _ & _ & _ & K & _). rewrite T in K. exact K. }
  assert (G : exists r, h = c :: r).
  { unfold lines in E. cbn [split_on] in E. assert (N.eqb c 10 = false) as N.
    { destruct (N.eqb_spec c 10) as [->|]; [discriminate|reflexivity]. }
    rewrite N in E. pose proof (split_on_nonempty 10%N t) as Ne. destruct (split_on 10%N t) as [|p ps]; [contradiction|]. cbn [finish_lines] in E.
    destruct ps as [|q ps]; [injection E as <- _; eauto|]. injection E as <- _.
    destruct (strip_cr_spec (c :: p)) as [->|K]; [eauto|]. destruct (strip_cr (c :: p)) as [|x y]; [|cbn in K; injection K as <- _; eauto].
    cbn in K. injection K as -> _. discriminate. }
  destruct G as (r & ->). intro Z. apply split_ws_nil in Z. apply all_ws_cons in Z as [Z _]. congruence.
Qed.
Lemma words_entry c d fmt dsym accounts : markfree c = true -> markfree d = true -> sentences c = sentences d ->
  together eq (parse_entry c fmt dsym accounts) (parse_entry d fmt dsym accounts).
Proof.
  intros C D E. rewrite <- (sentences_trim c), <- (sentences_trim d) in E. unfold parse_entry. cbv zeta.
  pose proof (markfree_lines _ (markfree_trim _ C)) as Lc. pose proof (markfree_lines _ (markfree_trim _ D)) as Ld.
  pose proof (trim_first_line c) as Fc. pose proof (trim_first_line d) as Fd. unfold sentences in E. fold some_words in E.
  assert (G : forall s, trim s <> [] -> exists h ls, lines (trim s) = h :: ls).
  { intros s N. destruct (lines (trim s)) as [|h ls] eqn:Q; [|eauto]. exfalso. unfold lines in Q. pose proof (split_on_nonempty 10%N (trim s)) as Ne.
    destruct (split_on 10%N (trim s)) as [|p [|q ps]] eqn:K; [contradiction| |discriminate]. destruct p; [|discriminate].
    destruct (trim s) as [|x y]; [apply N; reflexivity|]. cbn in K. destruct (N.eqb x 10); [injection K as K; exact (split_on_nonempty _ _ K)|].
    destruct (split_on 10%N y); discriminate. }
  assert (Z : forall s h ls, lines (trim s) = h :: ls -> trim s <> []) by (intros s h ls Q K; rewrite K in Q; discriminate).
  assert (T : forall s, trim s = [] \/ exists h ls, lines (trim s) = h :: ls) by (intro s; destruct (trim s) eqn:Q; [left; reflexivity|right; rewrite <- Q; apply G; congruence]).
  destruct (T c) as [Tc|(h & ls & Ec)], (T d) as [Td|(k & ms & Ed)].
  - rewrite Tc, Td. exact I.
  - rewrite Tc, Ed in E. cbn [lines map filter] in E. change (lines []) with (@nil str) in E. cbn [map filter] in E. exfalso. specialize (Fd _ _ Ed). destruct (split_ws k); [contradiction|discriminate].
  - rewrite Td, Ec in E. change (lines []) with (@nil str) in E. cbn [map filter] in E. exfalso. specialize (Fc _ _ Ec). destruct (split_ws h); [contradiction|discriminate].
  - pose proof (Z _ _ _ Ec) as Nc. pose proof (Z _ _ _ Ed) as Nd. rewrite Ec, Ed in *. destruct (trim c); [contradiction|]. destruct (trim d); [contradiction|].
    specialize (Fc _ _ eq_refl). specialize (Fd _ _ eq_refl). inversion Lc; subst. inversion Ld; subst.
    cbn [map filter] in E. destruct (split_ws h) as [|x xs] eqn:Eh; [contradiction|]. destruct (split_ws k) as [|y ys] eqn:Ek; [contradiction|]. cbn [some_words] in E.
    injection E as -> -> E. eapply together_bind; [apply words_header; [assumption|assumption|congruence]|]. intros e ? <-.
    eapply together_bind; [apply words_postings; eassumption|]. intros ps ? <-. eapply together_bind; [apply validate_together|]. intros ? ? _. reflexivity.
Qed.

(** ** Definitions of accounts *)
Definition Def (a b : str) : Prop := markfree a = true /\ markfree b = true /\ same_setting a b.
Fixpoint ts (ps : list str) : list str :=
  match ps with
  | [] => []
  | p :: ps' => match trim_start p with [] => match ps' with [] => [[]] | _ => ts ps' end | t => t :: ps' end
  end.
Lemma pieces_trim_start s : split_on 10%N (trim_start s) = ts (split_on 10%N s).
Proof.
  induction s as [|c s IH]; [reflexivity|]. cbn [trim_start split_on]. pose proof (split_on_nonempty 10%N s) as N.
  destruct (N.eqb_spec c 10) as [->|Nc].
  - change (is_ws 10) with true. cbv iota. rewrite IH. cbn [ts trim_start]. destruct (split_on 10%N s); [contradiction|reflexivity].
  - destruct (is_ws c) eqn:W.
    + rewrite IH. destruct (split_on 10%N s) as [|p ps]; [contradiction|]. cbn [ts trim_start]. rewrite W. reflexivity.
    + cbn [split_on]. rewrite (proj2 (N.eqb_neq c 10) Nc). destruct (split_on 10%N s) as [|p ps]; [contradiction|]. cbn [ts trim_start]. rewrite W. reflexivity.
Qed.
Fixpoint te (ps : list str) : list str :=
  match ps with
  | [] => []
  | p :: ps' => match ps' with [] => [trim_end p] | _ => match te ps' with [[]] => [trim_end p] | r => p :: r end end
  end.
Lemma te_cons p ps : ps <> [] -> te (p :: ps) = match te ps with [[]] => [trim_end p] | r => p :: r end.
Proof. destruct ps; [contradiction|reflexivity]. Qed.
Lemma te_nonempty ps : ps <> [] -> te ps <> [].
Proof.
  induction ps as [|p ps IH]; [contradiction|]. intros _. destruct ps as [|q ps]; [discriminate|]. rewrite te_cons by discriminate.
  destruct (te (q :: ps)) as [|[|] [|]]; discriminate.
Qed.
Lemma split_on_one s : split_on 10%N s = [[]] -> s = [].
Proof.
  destruct s as [|c s]; [reflexivity|]. cbn [split_on]. pose proof (split_on_nonempty 10%N s). destruct (N.eqb c 10); [intro E; injection E as E; contradiction|].
  destruct (split_on 10%N s); discriminate.
Qed.
Lemma pieces_trim_end s : split_on 10%N (trim_end s) = te (split_on 10%N s).
Proof.
  induction s as [|c s IH]; [reflexivity|]. cbn [trim_end]. pose proof (split_on_nonempty 10%N s) as N.
  destruct (trim_end s) as [|x t] eqn:T.
  - cbn [split_on] in IH. cbn [split_on]. destruct (N.eqb_spec c 10) as [->|Nc].
    + change (is_ws 10) with true. cbv iota. rewrite te_cons by exact N. rewrite <- IH. reflexivity.
    + destruct (split_on 10%N s) as [|p ps]; [contradiction|]. destruct ps as [|q ps].
      * cbn [te] in *. injection IH as IH. cbn [trim_end]. rewrite <- IH. destruct (is_ws c); [reflexivity|]. cbn. rewrite (proj2 (N.eqb_neq c 10) Nc). reflexivity.
      * rewrite te_cons in * by discriminate. destruct (te (q :: ps)) as [|[|y l] [|]] eqn:Q; try discriminate; [exfalso; apply (te_nonempty (q :: ps)); [discriminate|exact Q]|].
        injection IH as IH. cbn [trim_end]. rewrite <- IH. destruct (is_ws c); [reflexivity|]. cbn. rewrite (proj2 (N.eqb_neq c 10) Nc). reflexivity.
  - remember (x :: t) as u eqn:U. cbn [split_on]. destruct (N.eqb_spec c 10) as [->|Nc].
    + rewrite te_cons by exact N. rewrite <- IH. destruct (split_on 10%N u) as [|[|y l] [|]] eqn:Q; try reflexivity. apply split_on_one in Q. congruence.
    + rewrite IH. destruct (split_on 10%N s) as [|p ps]; [contradiction|]. destruct ps as [|q ps].
      * cbn [te] in *. cbn [trim_end]. destruct (trim_end p); [apply split_on_one in IH; congruence|reflexivity].
      * rewrite te_cons in IH by discriminate. rewrite (te_cons p), (te_cons (c :: p)) by discriminate. destruct (te (q :: ps)) as [|[|y l] [|]] eqn:Q; try reflexivity.
        cbn [trim_end]. destruct (trim_end p); [apply split_on_one in IH; congruence|reflexivity].
Qed.

Lemma trim_commute s : trim_start (trim_end s) = trim_end (trim_start s).
Proof.
  induction s as [|c s IH]; [reflexivity|]. cbn [trim_end trim_start]. destruct (is_ws c) eqn:W.
  - rewrite <- IH. destruct (trim_end s) as [|x t]; [reflexivity|]. cbn [trim_start]. rewrite W. reflexivity.
  - cbn [trim_end]. destruct (trim_end s); cbn [trim_start]; rewrite W; reflexivity.
Qed.
Lemma trim_of_start s : trim (trim_start s) = trim s.
Proof. unfold trim. destruct (trim_start_spec s) as (w & _ & _ & K). rewrite (trim_start_id (trim_start s)) by exact K. reflexivity. Qed.
Lemma trim_of_end s : trim (trim_end s) = trim s.
Proof. unfold trim. rewrite trim_commute. destruct (trim_end_spec (trim_start s)) as (w & _ & _ & K). apply trim_end_id. exact K. Qed.
Lemma trim_start_nil s : trim_start s = [] <-> all_ws s.
Proof.
  split; [|intro W; rewrite <- (app_nil_r s), trim_start_ws by exact W; reflexivity].
  intro E. destruct (trim_start_spec s) as (w & K & W & _). rewrite E, app_nil_r in K. congruence.
Qed.

Lemma trim_start_cr s : trim_start (strip_cr s) = strip_cr (trim_start s) \/ all_ws s.
Proof.
  destruct (trim_start_spec s) as (w & E & W & K). destruct (trim_start s) as [|c r] eqn:T; [right; rewrite E, app_nil_r; exact W|left].
  destruct (strip_cr_spec s) as [Q|Q].
  - rewrite Q, T. symmetry. apply strip_cr_id. intro L. rewrite E in Q.
    assert (X : exists r', c :: r = r' ++ [13%N]) by (exists (removelast (c :: r)); rewrite <- L; apply app_removelast_last; discriminate).
    destruct X as (r' & X). rewrite X, app_assoc, strip_cr_snoc in Q. apply (f_equal (@List.length _)) in Q. rewrite !app_length in Q. cbn in Q. lia.
  - set (z := strip_cr s) in *. rewrite Q in T.
    assert (X : exists r', c :: r = r' ++ [13%N] /\ z = w ++ r').
    { rewrite Q in E. destruct (c :: r) as [|y l] eqn:Y using rev_ind; [discriminate|]. clear IHl. rewrite app_assoc in E. apply app_inj_tail in E as [E1 E2]. subst y. eauto. }
    destruct X as (r' & X & Z). rewrite X, strip_cr_snoc, Z, trim_start_ws by exact W. apply trim_start_id.
    destruct r' as [|y l]; [exact I|]. injection X as <- _. exact K.
Qed.
Lemma Def_cr a b : Def a b -> Def (strip_cr a) (strip_cr b).
Proof.
  intros (A & B & H). split; [apply markfree_strip_cr, A|]. split; [apply markfree_strip_cr, B|].
  assert (T : forall s, trim (strip_cr s) = trim s).
  { intro s. destruct (strip_cr_spec s) as [->|E]; [reflexivity|]. rewrite E at 2. unfold trim.
    rewrite <- !trim_commute, trim_end_ws by reflexivity. reflexivity. }
  destruct H as [H|(key & x & y & K & E & F & V)].
  - left. assert (W : forall s, all_ws s -> all_ws (strip_cr s)) by (intros s S; destruct (strip_cr_spec s) as [->|E]; [exact S|rewrite E in S; apply all_ws_app in S; apply S]).
    destruct (trim_start_cr a) as [->|Wa].
    + destruct (trim_start_cr b) as [->|Wb]; [rewrite H; reflexivity|]. rewrite (proj2 (trim_start_nil b) Wb) in H. rewrite H. symmetry. apply trim_start_nil, W, Wb.
    + rewrite (proj2 (trim_start_nil a) Wa) in H. symmetry in H. apply trim_start_nil in H. rewrite !(proj2 (trim_start_nil _)) by (apply W; assumption). reflexivity.
  - right. exists key, x, y. rewrite !T. auto.
Qed.
Lemma Def_start a b : Def a b -> Def (trim_start a) (trim_start b).
Proof.
  intros (A & B & H). destruct (trim_start_spec a) as (wa & Ea & _ & Ka). destruct (trim_start_spec b) as (wb & Eb & _ & Kb).
  split; [apply (markfree_app_r wa); rewrite <- Ea; exact A|]. split; [apply (markfree_app_r wb); rewrite <- Eb; exact B|].
  destruct H as [H|H]; [left; rewrite H; reflexivity|right]. rewrite !trim_of_start. exact H.
Qed.
Lemma Def_end a b : Def a b -> Def (trim_end a) (trim_end b).
Proof.
  intros (A & B & H). split; [apply markfree_trim_end, A|]. split; [apply markfree_trim_end, B|].
  destruct H as [H|H]; [left; rewrite !trim_commute, H; reflexivity|right]. rewrite !trim_of_end. exact H.
Qed.
Lemma Def_blank a b : Def a b -> (all_ws a <-> all_ws b).
Proof.
  intros (_ & _ & [H|(key & x & y & K & E & F & V)]).
  - rewrite <- !trim_start_nil, H. reflexivity.
  - split; intro W; apply trim_nil in W; exfalso; rewrite W in *; destruct key; discriminate.
Qed.
Lemma Def_ts ps qs : Forall2 Def ps qs -> Forall2 Def (ts ps) (ts qs).
Proof.
  induction 1 as [|p q ps qs H F IH]; [constructor|]. cbn [ts].
  pose proof (Def_blank _ _ H) as B. rewrite <- !trim_start_nil in B. apply Def_start in H.
  destruct (trim_start p) as [|x s], (trim_start q) as [|y t]; try (exfalso; destruct B as [B1 B2]; first [discriminate (B1 eq_refl)|discriminate (B2 eq_refl)]).
  - destruct F; [constructor; [exact H|constructor]|exact IH].
  - constructor; assumption.
Qed.
Lemma te_blank ps : ps <> [] -> (te ps = [[]] <-> Forall all_ws ps).
Proof.
  induction ps as [|p ps IH]; [contradiction|]. intros _. destruct ps as [|q ps].
  - cbn [te]. split; [intro E; injection E as E; apply trim_end_nil_iff in E; repeat constructor; exact E|intro F; inversion F; subst; f_equal; apply trim_end_nil_iff; assumption].
  - rewrite te_cons by discriminate. assert (IH' := IH ltac:(discriminate)). pose proof (te_nonempty (q :: ps) ltac:(discriminate)) as Ne. split.
    + intro E. assert (te (q :: ps) = [[]] /\ trim_end p = []) as [E1 E2].
      { destruct (te (q :: ps)) as [|[|] [|]]; try discriminate; [contradiction|]. split; [reflexivity|]. injection E as E. exact E. }
      constructor; [apply trim_end_nil_iff, E2|apply IH', E1].
    + intro F. inversion F as [|? ? P Q]; subst. apply IH' in Q. rewrite Q. f_equal. apply trim_end_nil_iff, P.
Qed.
Lemma te_more p ps : ps <> [] -> te ps <> [[]] -> te (p :: ps) = p :: te ps.
Proof. intros N B. rewrite te_cons by exact N. destruct (te ps) as [|[|] [|]]; try reflexivity. contradiction. Qed.
Lemma te_only p ps : ps <> [] -> te ps = [[]] -> te (p :: ps) = [trim_end p].
Proof. intros N B. rewrite te_cons, B by exact N. reflexivity. Qed.
Lemma Def_te ps qs : Forall2 Def ps qs -> Forall2 Def (te ps) (te qs).
Proof.
  induction 1 as [|p q ps qs H F IH]; [constructor|]. destruct F as [|p' q' ps qs H' F]; [constructor; [apply Def_end, H|constructor]|].
  assert (G : te (p' :: ps) = [[]] <-> te (q' :: qs) = [[]]).
  { rewrite !te_blank by discriminate. assert (F' : Forall2 Def (p' :: ps) (q' :: qs)) by (constructor; assumption).
    clear - F'. induction F' as [|a b l m D F IH]; [split; constructor|]. apply Def_blank in D. split; intro X; inversion X; subst; constructor; tauto. }
  destruct (list_eq_dec (list_eq_dec N.eq_dec) (te (p' :: ps)) [[]]) as [E|N].
  - rewrite (te_only p), (te_only q) by first [discriminate|tauto]. constructor; [apply Def_end, H|constructor].
  - rewrite (te_more p), (te_more q) by first [discriminate|tauto]. constructor; assumption.
Qed.
Lemma last_te ps : ps <> [] -> te ps = [[]] \/ ~ all_ws (List.last (te ps) []).
Proof.
  induction ps as [|p ps IH]; [contradiction|]. intros _. destruct ps as [|q ps].
  - cbn [te List.last]. destruct (trim_end_spec p) as (w & _ & _ & K). destruct (trim_end p) as [|x s] eqn:E; [left; reflexivity|right].
    intro W. apply all_ws_rev in W. destruct (rev (x :: s)) as [|y t] eqn:R; [apply (f_equal (@rev _)) in R; rewrite rev_involutive in R; discriminate|].
    apply all_ws_cons in W as [W _]. congruence.
  - rewrite te_cons by discriminate. pose proof (te_nonempty (q :: ps) ltac:(discriminate)) as Ne. destruct (IH ltac:(discriminate)) as [E|N].
    + rewrite E. cbn [List.last]. destruct (trim_end_spec p) as (w & _ & _ & K). destruct (trim_end p) as [|x s] eqn:T; [left; reflexivity|right].
      intro W. apply all_ws_rev in W. destruct (rev (x :: s)) as [|y t] eqn:R; [apply (f_equal (@rev _)) in R; rewrite rev_involutive in R; discriminate|].
      apply all_ws_cons in W as [W _]. congruence.
    + right. destruct (te (q :: ps)) as [|[|] [|]]; try exact N; [contradiction|]. cbn in N. exfalso. apply N. reflexivity.
Qed.
Lemma Def_finish ps qs : Forall2 Def ps qs -> ~ all_ws (List.last ps []) -> Forall2 Def (finish_lines ps) (finish_lines qs).
Proof.
  induction 1 as [|p q ps qs H F IH]; intro N; [constructor|]. destruct F as [|p' q' ps qs H' F].
  - cbn [List.last] in N. cbn [finish_lines]. pose proof (Def_blank _ _ H) as B. destruct p as [|x p]; [exfalso; apply N; reflexivity|].
    destruct q as [|y q]; [exfalso; apply N, B; reflexivity|]. constructor; [exact H|constructor].
  - change (Forall2 Def (strip_cr p :: finish_lines (p' :: ps)) (strip_cr q :: finish_lines (q' :: qs))). constructor; [apply Def_cr, H|]. apply IH. exact N.
Qed.
Definition Pend (a b : str) : Prop := Forall2 Def (split_on 10%N a) (split_on 10%N b).
Lemma Pend_lines a b : Pend a b -> (trim a = [] /\ trim b = []) \/ (trim a <> [] /\ trim b <> [] /\ Forall2 Def (lines (trim a)) (lines (trim b))).
Proof.
  unfold Pend, lines. intro H. unfold trim. rewrite !pieces_trim_end, !pieces_trim_start. apply Def_ts in H. apply Def_te in H.
  assert (G : forall s, split_on 10%N (trim s) = te (ts (split_on 10%N s))) by (intro s; unfold trim; rewrite pieces_trim_end, pieces_trim_start; reflexivity).
  fold (trim a) (trim b). rewrite <- !G in *. 
  assert (L : forall s, trim s = [] \/ ~ all_ws (List.last (split_on 10%N (trim s)) [])).
  { intro s. assert (Ne : ts (split_on 10%N s) <> []) by (rewrite <- pieces_trim_start; apply split_on_nonempty).
    destruct (last_te _ Ne) as [E|N]; rewrite <- G in *; [left; apply split_on_one, E|right; exact N]. }
  assert (B : trim a = [] <-> trim b = []).
  { split; intro E; rewrite E in H; cbn [split_on] in H; inversion H as [|x y l m D F]; subst; inversion F; subst;
      destruct (L a) as [La|La], (L b) as [Lb|Lb]; try assumption; exfalso; apply Def_blank in D.
    - apply Lb. match goal with Q : [_] = split_on _ _ |- _ => rewrite <- Q end. cbn [List.last]. apply D. reflexivity.
    - apply La. rewrite E. reflexivity.
    - apply La. match goal with Q : [_] = split_on _ _ |- _ => rewrite <- Q end. cbn [List.last]. apply D. reflexivity.
    - apply Lb. rewrite E. reflexivity. }
  destruct (L a) as [La|La]; [left; split; [exact La|apply B, La]|right].
  assert (Na : trim a <> []) by (intro E; apply La; rewrite E; reflexivity). split; [exact Na|]. split; [tauto|]. apply Def_finish; assumption.
Qed.

Lemma amount_space w x dsym : all_ws w -> together eq (parse_amount (w ++ x) dsym) (parse_amount x dsym).
Proof.
  intro W. unfold parse_amount.
  assert (R : replace (lit "--") [] (w ++ x) = w ++ replace (lit "--") [] x).
  { induction w as [|c w IH]; [reflexivity|]. apply all_ws_cons in W as [Hc W]. cbn [app]. rewrite <- (IH W). unfold replace at 1. cbn [replace_aux].
    assert (starts_with (lit "--") (c :: w ++ x) = false) as ->; [|reflexivity].
    destruct (starts_with (lit "--") (c :: w ++ x)) eqn:S; [|reflexivity]. apply starts_with_iff in S as (r & S). injection S as -> _. discriminate. }
  rewrite R, split_ws_ws by exact W. destruct (split_ws (replace (lit "--") [] x)) as [|a [|b [|d l]]]; try exact I.
  - cbv zeta. destruct (parse_f64 _); [reflexivity|exact I].
  - cbv zeta. destruct (parse_f64 _); [reflexivity|exact I].
Qed.
Definition keys : list str := [lit "for"; lit "amount"; lit "funding"].
Lemma key_token key : In key keys -> is_token key.
Proof. intros [<-|[<-|[<-|[]]]]; (split; [discriminate|reflexivity]). Qed.
Lemma key_value a key v : In key keys -> trim a = key ++ 32%N :: v ->
  split_ws (trim a) = key :: split_ws v /\ find_char (chr " ") (trim a) = Some (List.length key) /\ skipn (List.length key) (trim a) = 32%N :: v
  /\ trim v = trim_start v.
Proof.
  intros K E. rewrite E. assert (T := key_token _ K). split; [|split; [|split]].
  - rewrite split_ws_tok by (try exact T; reflexivity). reflexivity.
  - apply find_char_app. intro H. destruct T as [_ T]. rewrite no_ws_In in T. specialize (T _ H). discriminate.
  - rewrite skipn_app, skipn_all, PeanoNat.Nat.sub_diag. reflexivity.
  - unfold trim. destruct (trim_spec a) as (_ & _ & _ & _ & _ & _ & L). rewrite E in L. rewrite <- trim_commute. f_equal. apply trim_end_id.
    rewrite rev_app_distr in L. cbn [rev] in L. destruct (rev v) as [|c r]; [exact I|exact L].
Qed.
Lemma Def_line dsym v a b : Def a b -> together eq (add_body_line dsym v a) (add_body_line dsym v b).
Proof.
  intros (A & B & H). unfold add_body_line. cbv zeta. rewrite (remove_comments_markfree _ A), (remove_comments_markfree _ B).
  destruct H as [H|(key & x & y & K & E & F & V)]; [unfold trim; rewrite H; apply together_eq|].
  destruct (key_value _ _ _ K E) as (Sa & Fa & Ka & Va). destruct (key_value _ _ _ K F) as (Sb & Fb & Kb & Vb).
  rewrite Sa, Sb, Fa, Fb, Ka, Kb. assert (W : split_ws x = split_ws y) by (rewrite <- (split_ws_trim x), <- (split_ws_trim y), V; reflexivity).
  rewrite W. destruct (split_ws y) as [|z zs] eqn:Y; [reflexivity|].
  assert (P : forall u, split_ws (32%N :: u) = split_ws u) by (intro u; apply (split_ws_ws [32%N]); reflexivity).
  assert (Q : forall u, trim (32%N :: u) = trim u) by reflexivity.
  destruct (str_eqb key (lit "for")); [rewrite !P, !Q, W, Y, V; destruct zs; reflexivity|].
  destruct (str_eqb key (lit "amount")).
  - eapply together_bind with (R := eq); [|intros u ? <-; reflexivity].
    destruct (trim_start_spec x) as (wx & Ex & Wx & _). destruct (trim_start_spec y) as (wy & Ey & Wy & _). rewrite Va, Vb in V. rewrite Ex, Ey, V.
    eapply together_trans; [apply (amount_space (32%N :: wx)), all_ws_cons; split; [reflexivity|exact Wx]|].
    apply together_sym. apply (amount_space (32%N :: wy)), all_ws_cons. split; [reflexivity|exact Wy].
  - destruct (str_eqb key (lit "funding")); [|exact I]. eapply together_bind with (R := eq); [|intros u ? <-; reflexivity].
    unfold parse_funding. cbv zeta. rewrite !Q, V. destruct (str_eqb _ _); [reflexivity|]. destruct (str_eqb _ _); [reflexivity|]. destruct (str_eqb _ _); reflexivity.
Qed.
Lemma together_folds {A C} (R : C -> C -> Prop) (f : A -> C -> res A) l m : (forall a x y, R x y -> together eq (f a x) (f a y)) ->
  Forall2 R l m -> forall a, together eq (fold_res f l a) (fold_res f m a).
Proof.
  intros H F a. eapply together_fold with (R := eq) (L := R); [exact F| |reflexivity]. intros x ? c d <- D. apply H, D.
Qed.
Lemma first_line_start s h ls : lines (trim s) = h :: ls -> trim_start h = h.
Proof.
  intro E. apply trim_start_id. destruct h as [|c r] eqn:H; [exact I|].
  assert (N : split_ws h <> []) by (apply (trim_first_line s h ls); rewrite H; exact E).
  destruct (trim s) as [|x t] eqn:T; [discriminate|].
  assert (W : is_ws x = false). { destruct (trim_spec s) as (_ & _ & _ & _ & _ & K & _). rewrite T in K. exact K. }
  unfold lines in E. cbn [split_on] in E. destruct (N.eqb_spec x 10) as [->|Nx]; [discriminate|].
  pose proof (split_on_nonempty 10%N t) as Ne. destruct (split_on 10%N t) as [|p ps]; [contradiction|]. cbn [finish_lines] in E.
  destruct ps as [|q ps]; [injection E as <- _; exact W|]. injection E as E _. destruct (strip_cr_spec (x :: p)) as [K|K]; rewrite E in K; injection K as K _; congruence.
Qed.
Lemma Def_envelope account dsym fmt a b : Pend a b -> trim a <> [] ->
  together eq (parse_envelope a account dsym fmt) (parse_envelope b account dsym fmt).
Proof.
  intros H N. destruct (Pend_lines _ _ H) as [[E _]|(_ & Nb & F)]; [contradiction|].
  inversion F as [Ha Hb|h k ls ms D G Ha Hb].
  - unfold parse_envelope. rewrite <- Ha, <- Hb. exact I.
  - symmetry in Ha, Hb. rewrite (parse_envelope_body _ _ _ _ _ _ Ha), (parse_envelope_body _ _ _ _ _ _ Hb).
    eapply together_bind with (R := eq); [|intros v ? <-; apply (together_folds Def); [intros; apply Def_line; assumption|exact G]].
    pose proof (first_line_start _ _ _ Ha) as Sa. pose proof (first_line_start _ _ _ Hb) as Sb. destruct D as (Ma & Mb & [D|(key & x & y & K & E & E' & V)]).
    + rewrite Sa, Sb in D. subst k. apply together_eq.
    + unfold envelope_header. rewrite (remove_comments_markfree _ Ma), (remove_comments_markfree _ Mb).
      rewrite <- (split_ws_trim h), <- (split_ws_trim k). destruct (key_value _ _ _ K E) as (-> & _). destruct (key_value _ _ _ K E') as (-> & _).
      assert (P : parse_envtype key = Err (EParse (UnknownType key))) by (destruct K as [<-|[<-|[<-|[]]]]; reflexivity). rewrite P.
      destruct (split_ws x), (split_ws y); exact I.
Qed.
Lemma Def_flush dsym fmt acc a b : Pend a b -> together eq (flush_envelope dsym fmt acc a) (flush_envelope dsym fmt acc b).
Proof.
  intro H. unfold flush_envelope. pose proof (Def_envelope (a_name acc) dsym fmt a b H) as G.
  destruct (Pend_lines _ _ H) as [[-> ->]|(Na & Nb & _)]; [reflexivity|].
  destruct (trim a); [contradiction|]. destruct (trim b); [contradiction|].
  eapply together_bind; [apply G; discriminate|]. intros v ? <-. apply together_eq.
Qed.
Lemma pieces_app a b : split_on 10%N (a ++ 10%N :: b) = split_on 10%N a ++ split_on 10%N b.
Proof.
  induction a as [|c a IH]; [reflexivity|]. cbn [app split_on]. rewrite IH. destruct (N.eqb c 10); [reflexivity|].
  pose proof (split_on_nonempty 10%N a) as N. destruct (split_on 10%N a); [contradiction|reflexivity].
Qed.
Lemma Def_account_line dsym fmt acc a b x y : Pend a b -> Def x y -> ~ In 10%N x -> ~ In 10%N y ->
  together (fun p q => fst p = fst q /\ Pend (snd p) (snd q)) (account_line dsym fmt (acc, a) x) (account_line dsym fmt (acc, b) y).
Proof.
  intros H D Nx Ny. unfold account_line.
  assert (P : Pend x y) by (unfold Pend; rewrite !split_on_none by assumption; constructor; [exact D|constructor]).
  assert (E : starts_with (lit "expense") (trim x) || starts_with (lit "goal") (trim x) = starts_with (lit "expense") (trim y) || starts_with (lit "goal") (trim y)).
  { destruct D as (_ & _ & [D|(key & v & w & K & E & F & _)]); [unfold trim; rewrite D; reflexivity|]. rewrite E, F. destruct K as [<-|[<-|[<-|[]]]]; reflexivity. }
  cbv zeta. rewrite E. clear E. destruct (_ || _).
  - eapply together_bind; [apply Def_flush, H|]. intros acc' ? <-. split; [reflexivity|exact P].
  - split; [reflexivity|]. cbn [snd]. unfold Pend. rewrite !pieces_app. apply Forall2_app; assumption.
Qed.
Lemma words_account_header a b : markfree a = true -> markfree b = true -> split_ws a = split_ws b -> together eq (account_header a) (account_header b).
Proof.
  intros A B E. unfold account_header. rewrite (remove_comments_markfree _ A), (remove_comments_markfree _ B), E.
  destruct (split_ws b) as [|x [|y [|z l]]]; reflexivity.
Qed.
Lemma words_account c d h k ls ms dsym fmt : markfree c = true -> markfree d = true -> lines c = h :: ls -> lines d = k :: ms ->
  split_ws h = split_ws k -> Forall2 same_setting ls ms -> together eq (parse_account c dsym fmt) (parse_account d dsym fmt).
Proof.
  intros C D Ec Ed W F. pose proof (markfree_lines _ C) as Lc. pose proof (markfree_lines _ D) as Ld.
  pose proof (lines_no_nl c) as Nc. pose proof (lines_no_nl d) as Nd. unfold parse_account. rewrite Ec, Ed in *.
  inversion Lc as [|? ? Mh Ml]; subst. inversion Ld as [|? ? Mk Mm]; subst. inversion Nc as [|? ? _ Nl]; subst. inversion Nd as [|? ? _ Nm]; subst. clear Lc Ld Nc Nd.
  eapply together_bind; [apply words_account_header; eassumption|]. intros name ? <-.
  assert (G : forall acc a b, Pend a b -> together (fun p q => fst p = fst q /\ Pend (snd p) (snd q)) (fold_res (account_line dsym fmt) ls (acc, a)) (fold_res (account_line dsym fmt) ms (acc, b))).
  { clear - F Ml Mm Nl Nm. induction F as [|x y ls ms H F IH]; intros acc a b P; [split; [reflexivity|exact P]|].
    inversion Ml; subst. inversion Mm; subst. inversion Nl; subst. inversion Nm; subst. cbn [fold_res].
    eapply together_bind; [apply Def_account_line; [exact P|split; [assumption|split; assumption]|assumption|assumption]|].
    intros [acc1 a1] [acc2 b1] [E P']. cbn [fst snd] in E, P'. subst acc2. apply IH; assumption. }
  eapply together_bind; [apply G; constructor; [split; [reflexivity|split; [reflexivity|left; reflexivity]]|constructor]|].
  intros [a1 r1] [a2 r2] [E P]. cbn [fst snd] in E, P. subst a2. apply Def_flush, P.
Qed.

(** ** Chunks, texts and files *)
Lemma words_sentences s : split_ws s = List.concat (sentences s).
Proof.
  rewrite sentences_pieces. assert (C : forall l, List.concat (filter some_words l) = List.concat l) by (induction l as [|[|x w] l IH]; cbn [filter some_words List.concat]; [reflexivity|exact IH|rewrite IH; reflexivity]).
  rewrite C. clear C. remember (List.length s) as n eqn:Hn. assert (Le : (List.length s <= n)%nat) by lia. clear Hn. revert s Le.
  induction n as [|n IH]; intros s Le; [destruct s; [reflexivity|cbn in Le; lia]|].
  destruct (newline_cut s) as [N|(a & b & -> & N)]; [rewrite split_on_none by exact N; cbn; rewrite app_nil_r; reflexivity|].
  rewrite split_on_app by exact N. cbn [map List.concat]. rewrite <- IH by (rewrite app_length in Le; cbn in Le; lia).
  rewrite split_ws_app_ws by reflexivity. reflexivity.
Qed.
Lemma chunks_markfree cur ls cs : chunks cur ls cs -> markfree cur = true -> Forall (fun l => markfree l = true) ls -> Forall (fun c => markfree c = true) cs.
Proof.
  induction 1 as [cur|cur l ls cs N H IH|cur l ls cs I H IH]; intros M F; [repeat constructor; exact M| |]; inversion F; subst.
  - constructor; [exact M|]. apply IH; assumption.
  - apply IH; [|assumption]. apply markfree_app; [exact M| |discriminate].
    change (10%N :: l) with ([10%N] ++ l). destruct l as [|c l]; [reflexivity|]. apply (markfree_cons 10%N). split; [|assumption].
    intros [(r & E)|(r & E)]; discriminate.
Qed.
Lemma cut_markfree t cs : cut_up t cs -> Forall (fun c => markfree c = true) cs.
Proof.
  intro H. apply (chunks_markfree _ _ _ H); [reflexivity|]. unfold contents. apply Forall_forall. intros x I. apply filter_In in I as [I _].
  apply in_map_iff in I as (l & <- & _). apply markfree_remove_comments.
Qed.
Definition Lay (s t : lw) : Prop := fst s = fst t /\ relaid_world (snd s) (snd t).
Lemma Lay_ledger s t r r' : Lay s t -> together eq r r' -> together Lay (on_ledger s r) (on_ledger t r').
Proof. intros [E W] H. unfold on_ledger. eapply together_bind; [exact H|]. intros l ? <-. split; [reflexivity|exact W]. Qed.
Section Load.
Context (today : date) (inc : str -> lw -> res lw) (Hinc : forall f s t, Lay s t -> together Lay (inc f s) (inc f t)).
Lemma relaid_chunk s t c d : markfree c = true -> markfree d = true -> relaid c d -> Lay s t ->
  together Lay (parse_chunk today inc s c) (parse_chunk today inc t d).
Proof.
  intros Mc Md H St. pose proof St as [L W].
  assert (Same : forall x, together Lay (parse_chunk today inc s x) (parse_chunk today inc t x)).
  { intro x. unfold parse_chunk. destruct (split_ws x) as [|k r]; [exact St|]. cbv zeta. rewrite L.
    destruct (str_eqb k (lit "account")); [apply Lay_ledger; [exact St|apply together_eq]|].
    destruct (str_eqb k (lit "currency")); [apply Lay_ledger; [exact St|apply together_eq]|].
    destruct (str_eqb k (lit "date_format")); [apply Lay_ledger; [exact St|apply together_eq]|].
    destruct (str_eqb k (lit "include")); [destruct (hd_error r); [apply Hinc, St|exact I]|].
    apply Lay_ledger; [exact St|apply together_eq]. }
  destruct H as [c|c d E K|c d k Ik K E|c d h k ls ms Ec Ed Ka E F].
  - apply Same.
  - assert (Ew : split_ws c = split_ws d) by (rewrite !words_sentences, E; reflexivity).
    unfold parse_chunk. rewrite <- Ew. destruct (split_ws c) as [|k r]; [exact St|]. specialize (K k eq_refl). cbv zeta.
    assert (Z : forall z, In z [lit "account"; lit "currency"; lit "date_format"; lit "include"] -> str_eqb k z = false).
    { intros z I. apply str_eqb_neq. intros ->. contradiction. }
    rewrite !Z by (cbn [In]; tauto). apply Lay_ledger; [exact St|]. unfold ledger_parse_entry. rewrite L.
    eapply together_bind; [apply words_entry; eassumption|]. intros e ? <-. apply together_eq.
  - unfold parse_chunk. destruct (split_ws c) as [|k1 r1]; [discriminate|]. injection K as ->. destruct (split_ws d) as [|k2 r2]; [discriminate|]. cbn [firstn] in E.
    assert (V : hd_error r1 = hd_error r2) by (destruct r1, r2; cbn in *; congruence). injection E as <- _. cbv zeta. rewrite V, L.
    destruct Ik as [<-|[<-|[<-|[]]]];
      repeat match goal with |- context [str_eqb (lit ?a) (lit ?b)] => let v := eval vm_compute in (str_eqb (lit a) (lit b)) in change (str_eqb (lit a) (lit b)) with v end; cbv iota.
    + apply Lay_ledger; [exact St|apply together_eq].
    + apply Lay_ledger; [exact St|apply together_eq].
    + destruct (hd_error r2); [apply Hinc, St|exact I].
  - assert (Kc : exists r, split_ws c = lit "account" :: r).
    { rewrite words_sentences. unfold sentences. rewrite Ec. cbn [map filter]. destruct (split_ws h) as [|x y]; [discriminate|]. injection Ka as ->. eexists. reflexivity. }
    assert (Kd : exists r, split_ws d = lit "account" :: r).
    { rewrite words_sentences. unfold sentences. rewrite Ed. cbn [map filter]. rewrite <- E. destruct (split_ws h) as [|x y]; [discriminate|]. injection Ka as ->. eexists. reflexivity. }
    destruct Kc as (r1 & Kc), Kd as (r2 & Kd). unfold parse_chunk. rewrite Kc, Kd. cbv zeta. rewrite str_eqb_refl, L. apply Lay_ledger; [exact St|].
    unfold ledger_parse_account. eapply together_bind; [eapply words_account; eassumption|]. intros a ? <-. reflexivity.
Qed.
Lemma relaid_str x y s t : relaid_text x y -> Lay s t -> together Lay (add_from_str today inc x s) (add_from_str today inc y t).
Proof.
  intros (cs & ds & C & D & F) St. rewrite (add_from_str_chunks _ _ _ _ _ C), (add_from_str_chunks _ _ _ _ _ D).
  pose proof (cut_markfree _ _ C) as Mc. pose proof (cut_markfree _ _ D) as Md. clear C D. revert s t St.
  induction F as [|c d cs ds H F IH]; intros s t St; [exact St|]. inversion Mc; subst. inversion Md; subst. cbn [fold_res].
  eapply together_bind; [apply relaid_chunk; eassumption|]. intros s' t' St'. apply IH; assumption.
Qed.
End Load.
Lemma relaid_file today : forall fuel f s t, Lay s t -> together Lay (add_from_file fuel today f s) (add_from_file fuel today f t).
Proof.
  induction fuel as [|fuel IH]; intros f s t St; [exact I|]. cbn [add_from_file]. pose proof St as [L (D & C & Fw)].
  assert (R : resolve (snd s) f = resolve (snd t) f) by (unfold resolve; rewrite C; reflexivity).
  unfold read_file. rewrite R. specialize (Fw (resolve (snd t) f)) as Ft.
  destruct (files (snd s) _) as [x|] eqn:Ex, (files (snd t) _) as [y|] eqn:Ey; try contradiction; [|exact I]. cbn [bind].
  assert (K : together relaid_world (chdir_parent (snd s) f) (chdir_parent (snd t) f)).
  { unfold chdir_parent. rewrite C. destruct (components f) as [|z zs]; [exact I|]. rewrite D. destruct (_ && _).
    - split; [exact D|]. split; [reflexivity|exact Fw].
    - split; [exact D|]. split; [exact C|exact Fw]. }
  eapply together_bind; [exact K|]. intros w v Wv. rewrite L. apply relaid_str; [exact IH|exact Ft|]. split; [reflexivity|exact Wv].
Qed.
Lemma relaid_from_file fuel today p w v : relaid_world w v -> together Lay (from_file fuel today p w) (from_file fuel today p v).
Proof. intro W. apply relaid_file. split; [reflexivity|exact W]. Qed.
