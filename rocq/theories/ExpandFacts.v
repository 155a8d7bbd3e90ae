(** Proofs about included rules files and about the rules for a record. *)
From Coq Require Import ZArith NArith List Bool String Permutation Lia.
From Verif Require Import Base Str F64 Date World Amount Posting Entry Ledger Importer
  SpecAmount SpecDate SpecEntry SpecEnvelope SpecLedger SpecRegister SpecImport
  StrFacts LineFacts AmountFacts PostingFacts EntryFacts AccountFacts EnvelopeFacts LedgerFacts LoadFacts RegisterFacts
  ImportFacts.
Import ListNotations.

Lemma all_ws_Forall s : all_ws s -> Forall blank_char s.
Proof. intro H. apply Forall_forall. apply all_ws_In, H. Qed.
Lemma apply_rule_free inc inc' k r nv : include_name (fst nv) = false -> apply_rule inc k r nv = apply_rule inc' k r nv.
Proof.
  unfold apply_rule, reset_rule, set_rule, include_name. destruct nv as (name & value). cbn [fst snd]. intro N. rewrite N.
  rule_cases; reflexivity.
Qed.

Lemma first_token l i name : position is_ws (trim_start l) = Some i -> slice_to i (trim_start l) = Ok name ->
  include_name name = true -> exists w c b, l = w ++ name ++ c :: b /\ all_ws w /\ is_ws c = true
    /\ i = List.length name /\ trim_start l = name ++ c :: b /\ is_token name.
Proof.
  intros P Hn N. apply position_Some in P as (a & c & b & E & La & Fa & Hc).
  unfold slice_to in Hn. destruct (split_at_byte i (trim_start l)) as [(a' & b')|] eqn:S; [|discriminate].
  injection Hn as ->. apply split_at_spec in S as (E' & B).
  assert (Forall (fun c => (c < 128)%N) name) as A.
  { apply include_names in N. destruct N as [-> | ->]; repeat constructor. }
  rewrite bytes_ascii in B by exact A.
  assert (a = name) as ->.
  { rewrite E in E'. rewrite <- La in B. clear -E' B. revert name E' B.
    induction a as [|x a IH]; intros [|y n] E B; cbn in *; try lia; [reflexivity|]. injection E as <- E.
    f_equal. apply IH; [exact E|lia]. }
  destruct (trim_start_spec l) as (w & Ew & W & _). exists w, c, b. rewrite Ew at 1. rewrite E. repeat split; auto.
  - intros ->. apply include_names in N. destruct N; discriminate.
  - apply no_ws_In. intros x I. rewrite Forall_forall in Fa. apply Fa, I.
Qed.

Lemma utf8_one c : utf8_len c = 1%nat -> (c < 128)%N.
Proof.
  unfold utf8_len. destruct (N.ltb c 128) eqn:E; [intros _; apply N.ltb_lt, E|].
  destruct (N.ltb c 2048); [discriminate|]. destruct (N.ltb c 65536); discriminate.
Qed.
Lemma slice_after name c b x : Forall (fun c => (c < 128)%N) name ->
  slice_from (S (List.length name)) (name ++ c :: b) = Ok x -> (c < 128)%N.
Proof.
  intros A H. unfold slice_from in H. destruct (split_at_byte _ _) as [(a' & b')|] eqn:Sp; [|discriminate].
  clear H. revert Sp. generalize a' b'. clear a' b'. induction A as [|y n Hy A IH]; intros a' b' Sp.
  - cbn [app List.length split_at_byte] in Sp. destruct (Nat.leb (utf8_len c) 1) eqn:L; [|discriminate].
    apply utf8_one. apply Nat.leb_le in L. assert (0 < utf8_len c)%nat by (unfold utf8_len; repeat destruct (N.ltb _ _); lia). lia.
  - cbn [app List.length split_at_byte] in Sp. rewrite ascii_len in Sp by exact Hy. cbn [Nat.leb Nat.sub] in Sp.
    destruct (split_at_byte (S (List.length n)) (n ++ c :: b)) as [(a1 & b1)|] eqn:E; [|discriminate].
    exact (IH a1 b1 eq_refl).
Qed.

Lemma add_from_line_free inc inc' r l : ~ includes_rules l -> add_from_line inc r l = add_from_line inc' r l.
Proof.
  intro N. unfold add_from_line. destruct (position is_ws (trim_start l)) as [i|] eqn:P; [|reflexivity].
  destruct (slice_to i (trim_start l)) as [name| | |] eqn:Hn; try reflexivity. cbn [bind].
  destruct (slice_from (S i) (trim_start l)) as [rest| | |]; try reflexivity. cbn [bind].
  change (apply_rule inc (trim_start l) r (name, trim_start rest) = apply_rule inc' (trim_start l) r (name, trim_start rest)).
  apply apply_rule_free. cbn [fst]. apply not_true_iff_false. intro X. apply N.
  destruct (first_token l i name P Hn X) as (w & c & b & -> & W & Hc & _ & _ & T).
  exists name. rewrite split_ws_ws by exact W. rewrite split_ws_tok by assumption.
  split; [reflexivity|apply include_names, X].
Qed.
Lemma includes_file_rules l p : includes_file l p -> includes_rules l.
Proof.
  intros (a & k & c & b & -> & Ha & Hk & Hc & _). exists k. split; [|exact Hk].
  rewrite split_ws_ws by (apply forallb_forall; intros x I; rewrite Forall_forall in Ha; apply Ha, I).
  rewrite split_ws_tok; [reflexivity| |exact Hc]. destruct Hk as [-> | ->]; split; [discriminate|reflexivity|discriminate|reflexivity].
Qed.
Lemma add_from_line_file inc r l r' : includes_rules l -> add_from_line inc r l = Ok r' ->
  exists p, includes_file l p /\ inc p r = Ok r'.
Proof.
  intros (k & Hk & K) H. unfold add_from_line in H. destruct (position is_ws (trim_start l)) as [i|] eqn:P; [|discriminate].
  apply bind_Ok in H as (name & Hn & H). apply bind_Ok in H as (rest & Hr & H).
  change (apply_rule inc (trim_start l) r (name, trim_start rest) = Ok r') in H.
  assert (name = k) as ->.
  { pose proof P as P0. apply position_Some in P0 as (a & c & b & E & La & Fa & Hc).
    destruct (trim_start_spec l) as (w & Ew & W & Hd).
    assert (is_token a) as T.
    { split; [|apply no_ws_In; intros x I; rewrite Forall_forall in Fa; apply Fa, I].
      intros ->. cbn [app] in E. rewrite E in Hd. cbn in Hd. congruence. }
    rewrite Ew, E, split_ws_ws in Hk by exact W. rewrite split_ws_tok in Hk by assumption. injection Hk as ->.
    unfold slice_to in Hn. rewrite E, <- La, split_at_ascii in Hn; [congruence|].
    destruct K as [-> | ->]; repeat constructor. }
  assert (include_name k = true) as N by (apply include_names, K).
  destruct (first_token l i k P Hn N) as (w & c & b & El & W & Hc & -> & E & T).
  rewrite apply_include in H by exact N. exists (trim_start rest). split; [|exact H].
  assert (Forall (fun c => (c < 128)%N) k) as A by (destruct K as [-> | ->]; repeat constructor).
  rewrite E in Hr. pose proof (slice_after k c b rest A Hr) as Ac.
  unfold slice_from in Hr.
  replace (k ++ c :: b) with ((k ++ [c]) ++ b) in Hr by (rewrite <- app_assoc; reflexivity).
  replace (S (List.length k)) with (List.length (k ++ [c])) in Hr by (rewrite app_length; cbn; lia).
  rewrite split_at_ascii in Hr by (apply Forall_app; split; [exact A|constructor; [exact Ac|constructor]]).
  injection Hr as ->. destruct (trim_start_spec rest) as (w2 & Ew2 & W2 & Hd2).
  exists w, k, c, w2. split; [rewrite El, Ew2 at 1; reflexivity|]. split; [apply all_ws_Forall, W|]. split; [exact K|].
  split; [exact Hc|]. split; [apply all_ws_Forall, W2|].
  intros h t Et Bh. rewrite Et in Hd2. cbn in Hd2. unfold blank_char in Bh. congruence.
Qed.

(** ** Expansion *)
Lemma lines_free inc inc' rs : forall r, Forall (fun x => ~ includes_rules x) rs ->
  fold_res (add_from_line inc) rs r = fold_res (add_from_line inc') rs r.
Proof.
  induction rs as [|l rs IH]; intros r F; [reflexivity|]. inversion F; subst. cbn [fold_res].
  rewrite (add_from_line_free inc inc') by assumption. destruct (add_from_line inc' r l); cbn [bind]; auto.
Qed.
Lemma includes_dec l : {includes_rules l} + {~ includes_rules l}.
Proof.
  unfold includes_rules. destruct (hd_error (split_ws l)) as [k|].
  - destruct (str_dec k (lit "include")) as [E|N1]; [left; eauto|].
    destruct (str_dec k (lit "use")) as [E|N2]; [left; eauto|].
    right. intros (k' & E & [-> | ->]); injection E as E; contradiction.
  - right. intros (k' & E & _). discriminate.
Qed.

Lemma includes_file_unique l p q : includes_file l p -> includes_file l q -> p = q.
Proof.
  intros Hp Hq.
  destruct Hp as (a & k & c & b & E & Ha & Hk & Hc & Hb & Hp).
  destruct Hq as (a' & k' & c' & b' & E' & Ha' & Hk' & Hc' & Hb' & Hq).
  rewrite E in E'. clear E.
  assert (c :: b ++ p = c' :: b' ++ q) as X.
  { revert a' Ha' E'. induction Ha as [|x a Hx Ha IH]; intros a' Ha' E.
    - destruct Ha' as [|y a' Hy Ha']; cbn [app] in E.
      + destruct Hk as [-> | ->], Hk' as [-> | ->]; cbn in E; congruence.
      + exfalso. destruct Hk as [-> | ->]; cbn in E; injection E as <- _; discriminate Hy.
    - destruct Ha' as [|y a' Hy Ha']; cbn [app] in E.
      + exfalso. destruct Hk' as [-> | ->]; cbn in E; injection E as -> _; discriminate Hx.
      + injection E as <- E. exact (IH a' Ha' E). }
  injection X as _ X. clear -Hb Hb' Hp Hq X.
  revert b' Hb' X. induction Hb as [|x b Hx Hb IH]; intros b' Hb' X.
  - destruct Hb' as [|y b' Hy Hb']; [exact X|]. cbn [app] in X. exfalso. exact (Hp y _ X Hy).
  - destruct Hb' as [|y b' Hy Hb']; cbn [app] in X; [exfalso; symmetry in X; exact (Hq x _ X Hx)|].
    injection X as <- X. exact (IH b' Hb' X).
Qed.

Lemma expansion_fold w fuel : forall is is' r r', expansion w is is' ->
  fold_res (item_step (rules_from_file fuel w)) is r = Ok r' ->
  fold_res (item_step no_file) is' r = Ok r'.
Proof.
  intros is is' r r' X. revert fuel r r'.
  induction X as [|l is is' N X IH|l ps rs is is' N X IH|l p t is0 is0' is is' I F L X0 IH0 X IH]; intros fuel r r' H.
  - exact H.
  - cbn [fold_res item_step] in *. rewrite (add_from_line_free no_file (rules_from_file fuel w)) by exact N.
    apply bind_Ok in H as (r0 & -> & H). cbn [bind]. exact (IH _ _ _ H).
  - cbn [fold_res item_step] in *. rewrite (lines_free no_file (rules_from_file fuel w)) by exact N.
    apply bind_Ok in H as (r0 & -> & H). cbn [bind]. exact (IH _ _ _ H).
  - cbn [fold_res item_step] in H. apply bind_Ok in H as (r0 & H0 & H). rewrite fold_res_app.
    apply add_from_line_file in H0 as (q & Iq & H0); [|exact (includes_file_rules l p I)].
    rewrite (includes_file_unique l q p Iq I) in H0.
    destruct fuel as [|k]; [discriminate|]. cbn [rules_from_file] in H0. unfold read_file in H0. rewrite F in H0. cbn [bind] in H0.
    rewrite (rules_layout _ _ _ _ L) in H0. rewrite (IH0 _ _ _ H0). cbn [bind]. exact (IH _ _ _ H).
Qed.

Lemma expansion_exists w : (forall p t, files w p = Some t -> flat_text t) -> forall fuel is r r',
  (forall l ps rs, In (Block l ps rs) is -> Forall (fun x => ~ includes_rules x) rs) ->
  fold_res (item_step (rules_from_file fuel w)) is r = Ok r' -> exists is', expansion w is is'.
Proof.
  intro Fl. induction fuel as [|k IHk].
  - induction is as [|[l|l ps rs] is IH]; intros r r' Fi H; [exists []; constructor| |].
    + cbn [fold_res item_step] in H. apply bind_Ok in H as (r0 & H0 & H).
      destruct (includes_dec l) as [Y|N].
      * apply add_from_line_file in H0 as (q & _ & H0); [discriminate|exact Y].
      * destruct (IH r0 r') as (is' & X); [intros; eapply Fi; right; eassumption|exact H|]. exists (Root l :: is'). constructor; assumption.
    + cbn [fold_res] in H. apply bind_Ok in H as (r0 & _ & H).
      destruct (IH r0 r') as (is' & X); [intros; eapply Fi; right; eassumption|exact H|]. exists (Block l ps rs :: is').
      constructor; [exact (Fi l ps rs (or_introl eq_refl))|exact X].
  - induction is as [|[l|l ps rs] is IH]; intros r r' Fi H; [exists []; constructor| |].
    + cbn [fold_res item_step] in H. apply bind_Ok in H as (r0 & H0 & H).
      destruct (IH r0 r') as (is' & X); [intros; eapply Fi; right; eassumption|exact H|].
      destruct (includes_dec l) as [Y|N].
      * apply add_from_line_file in H0 as (q & Iq & H0); [|exact Y]. cbn [rules_from_file] in H0.
        apply bind_Ok in H0 as (t & Ht & H0). unfold read_file in Ht.
        destruct (files w (resolve w q)) as [t'|] eqn:E; [|discriminate]. injection Ht as ->.
        destruct (layout_total (rule_lines t)) as (is0 & L). rewrite (rules_layout _ _ _ _ L) in H0.
        destruct (IHk is0 _ _ (fun l ps rs I => Fl _ _ E is0 l ps rs L I) H0) as (is0' & X0).
        exists (is0' ++ is'). eapply exp_file; eassumption.
      * exists (Root l :: is'). constructor; assumption.
    + cbn [fold_res] in H. apply bind_Ok in H as (r0 & _ & H).
      destruct (IH r0 r') as (is' & X); [intros; eapply Fi; right; eassumption|exact H|]. exists (Block l ps rs :: is').
      constructor; [exact (Fi l ps rs (or_introl eq_refl))|exact X].
Qed.

(** ** The rules for a record *)
Fixpoint blocks (is : list item) : list (str * list str) :=
  match is with
  | [] => []
  | Root _ :: is' => blocks is'
  | Block l ps _ :: is' => (l, ps) :: blocks is'
  end.
Lemma roots_app a b : roots (a ++ b) = roots a ++ roots b.
Proof. induction a as [|[l|l ps rs] a IH]; cbn [app roots]; rewrite ?IH; reflexivity. Qed.
Lemma blocks_app a b : blocks (a ++ b) = blocks a ++ blocks b.
Proof. induction a as [|[l|l ps rs] a IH]; cbn [app blocks]; rewrite ?IH; reflexivity. Qed.
Definition pats_of (b : str * list str) (pats : list str) : Prop :=
  exists p, header_patterns (fst b) = Ok p /\ pats = p ++ snd b.
Definition made_from (is : list item) (r : rules) : Prop :=
  (exists rr, fold_res (add_from_line no_file) (roots is) default_rules = Ok rr /\ like r rr)
  /\ chain r
  /\ Forall2 pats_of (blocks is) (map fst (r_subrules r))
  /\ (forall l1 pats br l2, r_subrules r = l1 ++ (pats, br) :: l2 ->
        exists is1 l ps rs is2 rr, is = is1 ++ Block l ps rs :: is2 /\ pats_of (l, ps) pats
          /\ Forall2 pats_of (blocks is1) (map fst l1)
          /\ fold_res (add_from_line no_file) (roots is1 ++ rs) default_rules = Ok rr /\ like br rr).

Lemma no_file_like : inc_like no_file.
Proof. intros p r r' _. exact I. Qed.

Lemma items_made is : Forall (fun i => match i with Root l => True | Block _ _ rs => Forall (fun x => ~ includes_rules x) rs end) is ->
  forall r, fold_res (item_step no_file) is default_rules = Ok r -> made_from is r.
Proof.
  induction is as [|i is IH] using rev_ind; intros F r H.
  - cbn in H. injection H as <-. split; [exists default_rules; split; reflexivity|]. split; [exact chained_nil|].
    split; [constructor|]. intros l1 pats br l2 E. destruct l1; discriminate.
  - apply Forall_app in F as (F & Fi). inversion Fi; subst. clear Fi H3.
    rewrite fold_res_app in H. apply bind_Ok in H as (r0 & H0 & H). cbn [fold_res] in H. apply bind_Ok in H as (r1 & H & E).
    injection E as ->. destruct (IH F r0 H0) as ((rr & Hr & L) & C & B & S). clear IH.
    destruct i as [l|l ps rs]; cbn [item_step] in H.
    + assert (r_subrules r = r_subrules r0) as Es.
      { apply add_from_line_subrules in H as [(v & _ & X)|X]; [discriminate|exact X]. }
      split.
      * rewrite roots_app, fold_res_app, Hr. cbn [bind roots fold_res].
        pose proof (add_from_line_like no_file r0 rr l no_file_like L) as Bo. rewrite H in Bo.
        destruct (add_from_line no_file rr l) as [r2| | |]; try contradiction. exists r2. split; [reflexivity|exact Bo].
      * split; [unfold chain; rewrite Es; exact C|]. rewrite blocks_app, Es. cbn [blocks]. rewrite app_nil_r. split; [exact B|].
        intros l1 pats br l2 E. destruct (S l1 pats br l2 E) as (is1 & l' & ps & rs & is2 & r2 & -> & X).
        exists is1, l', ps, rs, (is2 ++ [Root l]), r2. split; [rewrite <- app_assoc; reflexivity|exact X].
    + apply bind_Ok in H as (p & Hp & H). apply bind_Ok in H as (br & Hb & H). injection H as <-.
      assert (r_subrules br = r_subrules r0) as Eb.
      { apply (block_rules_subrules no_file rs); [|exact Hb]. intros x I. rewrite Forall_forall in H2. exact (H2 x I). }
      assert (exists r2, fold_res (add_from_line no_file) (roots is ++ rs) default_rules = Ok r2 /\ like br r2) as (r2 & Hr2 & L2).
      { rewrite fold_res_app, Hr. cbn [bind]. pose proof (lines_like no_file rs r0 rr no_file_like L) as Bo. rewrite Hb in Bo.
        destruct (fold_res (add_from_line no_file) rs rr) as [r2| | |]; try contradiction. eauto. }
      split; [|split; [|split]].
      * exists rr. rewrite roots_app. cbn [roots]. rewrite app_nil_r. split; [exact Hr|].
        eapply like_trans; [apply push_like|exact L].
      * unfold chain, push_subrules. cbn [r_subrules set_subrules]. apply chained_snoc; [exact C|exact Eb].
      * unfold push_subrules. cbn [r_subrules set_subrules]. rewrite blocks_app, map_app. apply Forall2_app; [exact B|].
        constructor; [|constructor]. exists p. auto.
      * intros l1 pats br' l2 E. unfold push_subrules in E. cbn [r_subrules set_subrules] in E.
        destruct l2 as [|x l2] using rev_ind.
        -- apply app_inj_tail in E as (<- & E). injection E as <- <-.
           exists is, l, ps, rs, [], r2. split; [reflexivity|]. split; [exists p; auto|]. split; [exact B|]. auto.
        -- clear IHl2. rewrite app_comm_cons, app_assoc in E. apply app_inj_tail in E as (E & _).
           destruct (S l1 pats br' l2 E) as (is1 & l' & ps' & rs' & is2 & r3 & -> & X).
           exists is1, l', ps', rs', (is2 ++ [Block l ps rs]), r3. split; [rewrite <- app_assoc; reflexivity|exact X].
Qed.

Lemma header_pattern_unique l p q : first_pattern l p -> header_patterns l = Ok q -> p = q.
Proof. intros F E. apply first_pattern_ok in F. congruence. Qed.

Lemma blocks_unmatched lower rec is pss : Forall2 pats_of (blocks is) pss ->
  Forall (fun ps => ~ matches lower rec ps) pss -> Forall (fun i => ~ block_matches lower rec i) is.
Proof.
  revert pss. induction is as [|[l|l ps rs] is IH]; intros pss B F; [constructor| |].
  - constructor; [exact (fun x => x)|]. exact (IH pss B F).
  - cbn [blocks] in B. inversion B as [|? pats ? pss' (q & Hq & Ep) B']; subst. inversion F; subst.
    constructor; [|exact (IH _ B' H2)]. intros (p & Hp & M). cbn [fst snd] in *.
    rewrite (header_pattern_unique l p q Hp Hq) in M. contradiction.
Qed.

Lemma select_used lower rec is r : Forall plain_header is ->
  Forall (fun i => match i with Root l => True | Block _ _ rs => Forall (fun x => ~ includes_rules x) rs end) is ->
  fold_res (item_step no_file) is default_rules = Ok r ->
  exists ls r', used lower rec is ls /\ fold_res (add_from_line no_file) ls default_rules = Ok r'
    /\ like (select_rules lower rec r) r'.
Proof.
  intros Ph F H. destruct (items_made is F r H) as ((rr & Hr & L) & C & B & S).
  destruct (first_match lower rec (r_subrules r)) as [N|(l1 & pats & br & l2 & E & N & M)].
  - exists (roots is), rr. split; [right; split; [|reflexivity]|].
    + apply (blocks_unmatched lower rec is _ B). apply Forall_map. exact N.
    + split; [exact Hr|]. rewrite (select_none _ _ _ N). exact L.
  - destruct (S l1 pats br l2 E) as (is1 & l & ps & rs & is2 & r2 & Ei & (q & Hq & Eq) & B1 & Hr2 & L2).
    exists (roots is1 ++ rs), r2. split; [left|].
    + exists is1, l, ps, rs, is2. split; [exact Ei|]. split.
      * rewrite Ei in Ph. apply Forall_app in Ph as (_ & Ph). inversion Ph as [|? ? Hh _]; subst. destruct Hh as (p & Hp).
        exists p. split; [exact Hp|]. cbn [fst snd] in *. rewrite (header_pattern_unique l p q Hp Hq). exact M.
      * split; [|reflexivity]. apply (blocks_unmatched lower rec is1 _ B1). apply Forall_map. exact N.
    + split; [exact Hr2|]. rewrite (select_chain _ _ _ _ _ _ _ C E N M). exact L2.
Qed.

Lemma entry_of_record_like ord r r' rec accounts : like r r' -> entry_of_record ord r rec accounts = entry_of_record ord r' rec accounts.
Proof. intro L. apply like_set in L. rewrite L. destruct r; reflexivity. Qed.

Lemma expansion_flat w is is' : expansion w is is' ->
  Forall (fun i => match i with Root l => True | Block _ _ rs => Forall (fun x => ~ includes_rules x) rs end) is'.
Proof.
  induction 1; try constructor; auto. apply Forall_app. auto.
Qed.
