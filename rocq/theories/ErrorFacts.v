(** Proofs about the reasons of errors. *)
From Coq Require Import ZArith NArith List Bool String Lia Permutation.
From Verif Require Import Base Str F64 Date World Amount Posting Entry Envelope Account Ledger Cli
  SpecAmount SpecDate SpecEntry SpecEnvelope SpecLedger SpecCrash SpecErrors
  StrFacts AmountFacts AmountParse LineFacts PostingFacts EntryFacts EnvelopeFacts AccountFacts LedgerFacts LoadFacts
  IncludeFacts DefinitionFacts CrashFacts.
Import ListNotations.

(** ** Parts *)
Lemma part_refl s : part s s.
Proof. exists [], []. rewrite app_nil_r. reflexivity. Qed.
Lemma part_trans r s t : part r s -> part s t -> part r t.
Proof. intros (a & b & ->) (c & d & ->). exists (c ++ a), (b ++ d). rewrite !app_assoc. reflexivity. Qed.
Lemma part_trim s : part (trim s) s.
Proof. destruct (trim_spec s) as (a & b & E & _). exists a, b. exact E. Qed.
Lemma part_comments s : part (remove_comments s) s.
Proof. destruct (remove_comments_prefix s) as (r & E). exists [], r. exact E. Qed.
Lemma part_skipn n s : part (skipn n s) s.
Proof. exists (firstn n s), []. rewrite app_nil_r, firstn_skipn. reflexivity. Qed.
Lemma part_cr s : part (strip_cr s) s.
Proof.
  unfold strip_cr. destruct (rev s) as [|c r] eqn:E; [apply part_refl|].
  destruct (N.eq_dec c 13) as [-> |N].
  - exists [], [13%N]. cbn [app]. rewrite <- (rev_involutive s), E. reflexivity.
  - replace (match c with 13%N => rev r | _ => s end) with s; [apply part_refl|].
    destruct c as [|c]; [reflexivity|]. do 4 (destruct c; try reflexivity). contradiction.
Qed.
Lemma part_token s t : In s (split_ws t) -> part s t.
Proof.
  remember (split_ws t) as l eqn:E. symmetry in E. revert t E. induction l as [|a l IH]; intros t E; [intros []|].
  apply split_ws_cons in E as (w & r & -> & _ & _ & _ & E). intros [->|I].
  - exists w, r. reflexivity.
  - eapply part_trans; [apply (IH r E I)|]. exists (w ++ a), []. rewrite app_nil_r, app_assoc. reflexivity.
Qed.
Lemma part_line t : forall l, In l (lines t) -> part l t /\ ~ In 10%N l.
Proof.
  assert (forall n t, (List.length t <= n)%nat -> forall l, In l (lines t) -> part l t /\ ~ In 10%N l) as G; [|apply (G (List.length t)); lia].
  clear t. induction n as [|n IH]; intros t L l I.
  { destruct t; [destruct I|cbn in L; lia]. }
  destruct (newline_cut t) as [N|(a & b & -> & Na)].
  - destruct t as [|c t]; [destruct I|]. rewrite lines_one in I; [|exact N|discriminate].
    destruct I as [<-|[]]. split; [apply part_refl|exact N].
  - rewrite lines_app in I by exact Na. destruct I as [<-|I].
    + split; [eapply part_trans; [apply part_cr|]; exists [], (10%N :: b); reflexivity|].
      intro J. apply Na. destruct (part_cr a) as (x & y & E). rewrite E. apply in_or_app; right; apply in_or_app; left; exact J.
    + destruct (IH b) with (l := l) as (P & Nl); [rewrite app_length in L; cbn in L; lia|exact I|]. split; [|exact Nl].
      eapply part_trans; [exact P|]. exists (a ++ [10%N]), []. rewrite app_nil_r, <- app_assoc. reflexivity.
Qed.
Lemma part_break s a b : ~ In 10%N s -> part s (a ++ 10%N :: b) -> part s a \/ part s b.
Proof.
  intros N (x & y & E). destruct (app_split _ _ _ _ E) as [(m & -> & Em)|(m & -> & Em)].
  - destruct (app_split _ _ _ _ Em) as [(k & -> & Ek)|(k & -> & Ek)].
    + destruct k as [|q k]; [left; exists x, []; rewrite !app_nil_r; reflexivity|]. injection Ek as <- _.
      exfalso. apply N. apply in_or_app. right. left. reflexivity.
    + left. exists x, k. reflexivity.
  - destruct m as [|q m].
    + cbn [app] in Em. destruct s as [|c s]; [left; exists a, []; rewrite !app_nil_r; reflexivity|].
      injection Em as <- _. exfalso. apply N. left. reflexivity.
    + injection Em as <- Em. right. exists m, y. congruence.
Qed.

(** ** Errors *)
Definition spoken {A} (r : res A) (E : err -> Prop) (Q : A -> Prop) : Prop :=
  match r with Ok a => Q a | Err e => E e | _ => True end.
Lemma spoken_bind {A B} (r : res A) (f : A -> res B) E P Q : spoken r E P -> (forall a, r = Ok a -> P a -> spoken (f a) E Q) -> spoken (bind r f) E Q.
Proof. destruct r; cbn; auto. Qed.
Lemma spoken_fold {A T} (J : T -> Prop) (f : T -> A -> res T) E l :
  (forall s a, In a l -> J s -> spoken (f s a) E J) -> forall s, J s -> spoken (fold_res f l s) E J.
Proof.
  induction l as [|a l IH]; intros H s Js; cbn [fold_res]; [exact Js|]. apply (spoken_bind _ _ _ J); [apply H; [left; reflexivity|exact Js]|].
  intros t _ Jt. apply IH; [|exact Jt]. intros s' a' I'. apply H. right. exact I'.
Qed.
Lemma spoken_map {A B} (f : A -> res B) E l : (forall a, In a l -> spoken (f a) E (fun _ => True)) -> spoken (map_res f l) E (fun _ => True).
Proof.
  induction l as [|a l IH]; intro H; cbn [map_res]; [exact I|]. apply (spoken_bind _ _ _ (fun _ => True)); [apply H; left; reflexivity|].
  intros b _ _. apply (spoken_bind _ _ _ (fun _ => True)); [apply IH; intros a' I'; apply H; right; exact I'|]. intros; exact I.
Qed.
Lemma spoken_weaken {A} (r : res A) (E E' : err -> Prop) (P Q : A -> Prop) :
  spoken r E P -> (forall e, E e -> E' e) -> (forall a, r = Ok a -> P a -> Q a) -> spoken r E' Q.
Proof. destruct r; cbn; auto. Qed.

(** ** Amounts *)
Lemma solid_app a b : solid (a ++ b) = solid a ++ solid b.
Proof. apply filter_app. Qed.
Lemma solid_ws w : all_ws w -> solid w = [].
Proof.
  induction w as [|c w IH]; [reflexivity|]. intro A. apply all_ws_cons in A as (Hc & A). unfold solid in *. cbn [filter].
  rewrite Hc. cbn [negb]. exact (IH A).
Qed.
Lemma solid_join l : solid (join (lit " ") l) = solid (List.concat l).
Proof.
  induction l as [|x [|y l] IH]; [reflexivity|cbn [join List.concat]; rewrite app_nil_r; reflexivity|].
  change (join (lit " ") (x :: y :: l)) with (x ++ lit " " ++ join (lit " ") (y :: l)).
  change (List.concat (x :: y :: l)) with (x ++ List.concat (y :: l)). rewrite !solid_app, IH. reflexivity.
Qed.
Lemma tokens_span t : forall a b c, split_ws t = a ++ b ++ c -> exists q, part q t /\ solid q = solid (List.concat b).
Proof.
  intros a. revert t. induction a as [|x a IH]; intros t b c E.
  - cbn [app] in E. assert (exists y, t = (fst y) ++ snd y /\ solid (fst y) = solid (List.concat b)) as ((u & v) & -> & S).
    { revert t E. induction b as [|z b IHb]; intros t E; [exists ([], t); auto|]. cbn [app] in E.
      apply split_ws_cons in E as (w & r & -> & A & _ & _ & E). destruct (IHb r E) as ((u & v) & -> & S). cbn [fst snd] in S.
      exists (w ++ z ++ u, v). cbn [fst snd]. rewrite <- !app_assoc. split; [reflexivity|]. cbn [List.concat].
      rewrite !solid_app, S, (solid_ws w A). reflexivity. }
    exists u. split; [exists [], v; reflexivity|exact S].
  - cbn [app] in E. apply split_ws_cons in E as (w & r & -> & _ & _ & _ & E). destruct (IH r b c E) as (q & P & S).
    exists q. split; [|exact S]. eapply part_trans; [exact P|]. exists (w ++ x), []. rewrite app_nil_r, app_assoc. reflexivity.
Qed.

Section In.
Context (W : str -> Prop) (down : forall s t, part s t -> W t -> W s).
Notation ok r := (spoken r (founded W) (fun _ => True)).

Lemma amount_says q r d : W q -> solid r = solid q -> ok (parse_amount r d).
Proof.
  intros Wq S. unfold parse_amount. cbv zeta. rewrite replace_dashes.
  destruct (split_ws (without_double_dash r)) as [|x [|y [|z l]]]; try (exists q, r; auto);
    destruct (parse_f64 _); try exact I; exists q, r; auto.
Qed.
Lemma span_amount t a b c r d : W t -> split_ws t = a ++ b ++ c -> solid r = solid (List.concat b) -> ok (parse_amount r d).
Proof. intros Wt E S. destruct (tokens_span t a b c E) as (q & P & Sq). apply (amount_says q); [exact (down _ _ P Wt)|congruence]. Qed.
Lemma posting_amount_says t n toks d : W t -> split_ws t = n :: toks -> ok (parse_posting_amount toks d).
Proof.
  intros Wt E. unfold parse_posting_amount. cbv zeta. destruct (position _ toks) as [i|].
  - destruct (trim _); [exact I|]. apply (spoken_bind _ _ _ (fun _ => True)); [|intros; exact I].
    apply (span_amount t [n] (firstn i toks) (skipn i toks)); [exact Wt|cbn [app]; rewrite firstn_skipn; exact E|apply solid_join].
  - destruct (trim _); [exact I|]. apply (spoken_bind _ _ _ (fun _ => True)); [|intros; exact I].
    apply (span_amount t [n] toks []); [exact Wt|rewrite app_nil_r; exact E|apply solid_join].
Qed.
Lemma extract_says t n toks d op stop : W t -> split_ws t = n :: toks -> ok (extract_amount toks d op stop).
Proof.
  intros Wt E. unfold extract_amount. destruct (position _ toks) as [i|]; [|exact I]. cbv zeta.
  apply (spoken_bind _ _ _ (fun _ => True)); [|intros; exact I].
  assert (split_ws t = (n :: firstn (S i) toks) ++ skipn (S i) toks) as E' by (cbn [app]; rewrite firstn_skipn; exact E).
  destruct (position stop _) as [j|].
  - apply (span_amount t (n :: firstn (S i) toks) (firstn j (skipn (S i) toks)) (skipn j (skipn (S i) toks)));
      [exact Wt|rewrite firstn_skipn; exact E'|apply solid_join].
  - apply (span_amount t (n :: firstn (S i) toks) (skipn (S i) toks) []); [exact Wt|rewrite app_nil_r; exact E'|apply solid_join].
Qed.

(** ** Postings and entries *)
Lemma token_stands t a l n : W t -> split_ws t = l -> nth_error l n = Some a -> W a.
Proof. intros Wt <- H. apply nth_error_In in H. exact (down _ _ (part_token _ _ H) Wt). Qed.
Lemma posting_says l d accounts : W l -> ok (parse_posting l d accounts).
Proof.
  intro Wl. unfold parse_posting. cbv zeta. set (t := trim (remove_comments l)).
  assert (W t) as Wt by (apply (down _ l); [|exact Wl]; eapply part_trans; [apply part_trim|apply part_comments]).
  destruct (split_ws t) as [|k more] eqn:E; [split; [intros []|constructor]|].
  destruct (str_eqb k _).
  - apply (spoken_bind _ _ _ (fun _ => True)); [|intros; exact I]. unfold parse_envposting. rewrite E. cbn [skipn].
    destruct more as [|a [|n toks]]; try (split; [intros []|repeat constructor; exact Wt]).
    apply (spoken_bind _ _ _ (fun _ => True)); [|intros; exact I].
    apply (span_amount t [k; a; n] toks []); [exact Wt|rewrite app_nil_r; exact E|reflexivity].
  - apply (spoken_bind _ _ _ (fun _ => True)); [|intros; exact I]. unfold parse_classic.
    set (t' := trim (remove_comments t)).
    assert (W t') as Wt' by (apply (down _ t); [|exact Wt]; eapply part_trans; [apply part_trim|apply part_comments]).
    destruct (split_ws t') as [|n toks] eqn:E'; [exact I|].
    apply (spoken_bind _ _ _ (fun _ => True)); [exact (posting_amount_says t' n toks d Wt' E')|]. intros am _ _.
    apply (spoken_bind _ _ _ (fun _ => True)); [exact (extract_says t' n toks d _ _ Wt' E')|]. intros b _ _.
    apply (spoken_bind _ _ _ (fun _ => True)).
    { unfold parse_price. apply (spoken_bind _ _ _ (fun _ => True)); [exact (extract_says t' n toks d _ _ Wt' E')|intros; exact I]. }
    intros p _ _. apply (spoken_bind _ _ _ (fun _ => True)).
    { destruct p; [exact I|]. unfold parse_total_cost.
      apply (spoken_bind _ _ _ (fun _ => True)); [exact (extract_says t' n toks d _ _ Wt' E')|intros; exact I]. }
    intros c _ _. destruct (mem n accounts); [exact I|]. split; [intros []|]. constructor; [|constructor].
    exact (token_stands t' n _ 0 Wt' E' eq_refl).
Qed.
Lemma header_says h fmt : W h -> ok (parse_header h fmt).
Proof.
  intro Wh. unfold parse_header. assert (W (remove_comments h)) as Wc by (exact (down _ _ (part_comments h) Wh)).
  destruct (split_ws (remove_comments h)) as [|t rest] eqn:E; [split; [intros []|constructor]|].
  destruct (parse_date t fmt).
  2:{ split; [intros []|]. constructor; [exact (token_stands _ t _ 0 Wc E eq_refl)|]. constructor; [exact Wc|constructor]. }
  destruct rest as [|s words]; [exact I|]. apply (spoken_bind _ _ _ (fun _ => True)).
  - unfold parse_status. repeat (destruct (str_eqb s _); [exact I|]). split; [intros []|]. constructor; [|constructor].
    exact (token_stands _ s _ 1 Wc E eq_refl).
  - intros st _ _. apply (spoken_bind _ _ _ (fun _ => True)); [|intros []; intros; exact I]. unfold split_payee.
    destruct (find_char _ _); [|exact I]. destruct (rfind_char _ _); [destruct (Nat.leb _ _); exact I|].
    split; [intros []|]. constructor; [exact Wh|constructor].
Qed.
Lemma entry_says c fmt d accounts : W c -> ok (parse_entry c fmt d accounts).
Proof.
  intro Wc. unfold parse_entry. cbv zeta. destruct (trim c) as [|x t] eqn:T; [split; [intros []|constructor]|]. rewrite <- T.
  destruct (lines (trim c)) as [|h ls] eqn:L; [split; [intros []|repeat constructor; exact Wc]|].
  assert (forall l, In l (h :: ls) -> W l) as Wl.
  { intros l Il. apply (down _ c); [|exact Wc]. rewrite <- L in Il. eapply part_trans; [apply part_line, Il|apply part_trim]. }
  apply (spoken_bind _ _ _ (fun _ => True)); [apply header_says, Wl; left; reflexivity|]. intros e0 _ _.
  apply (spoken_bind _ _ _ (fun _ => True)).
  { assert (forall l, In l ls -> W l) as Wls by (intros l Il; apply Wl; right; exact Il). clear -down Wls.
    induction ls as [|l ls IH]; cbn [parse_postings]; [exact I|]. destruct (trim l).
    - apply IH. intros l' I'. apply Wls. right. exact I'.
    - apply (spoken_bind _ _ _ (fun _ => True)); [apply posting_says, Wls; left; reflexivity|]. intros p _ _.
      apply (spoken_bind _ _ _ (fun _ => True)); [apply IH; intros l' I'; apply Wls; right; exact I'|]. intros; exact I. }
  intros ps _ _. apply (spoken_bind _ _ _ (fun _ => True)); [|intros; exact I].
  unfold validate_entry. apply (spoken_bind _ _ _ (fun _ => True)).
  - cbn [e_postings]. generalize 0%nat (@nil str). induction ps as [|p ps IH]; intros n syms; cbn [validate_loop]; [exact I|].
    destruct (get_amount p); [apply IH|]. destruct (Nat.ltb _ _); [|apply IH]. split; [intros []|]. repeat constructor. exact Wc.
  - intros (b & syms) _ _. destruct (_ && _); [|exact I]. split; [intros []|]. repeat constructor. exact Wc.
Qed.

(** ** Envelopes and accounts *)
Lemma strip_part p s r : strip_prefix p s = Some r -> part r s.
Proof. intro E. apply strip_prefix_Some in E. exists p, []. rewrite app_nil_r. exact E. Qed.
Lemma after_part p s r : after_last p s = Some r -> part r s.
Proof.
  revert r. induction s as [|c s IH]; intros r H; cbn [after_last] in H; [discriminate|].
  destruct (after_last p s) as [r'|] eqn:E.
  - injection H as <-. eapply part_trans; [apply IH; reflexivity|]. exists [c], []. rewrite app_nil_r. reflexivity.
  - exact (strip_part _ _ _ H).
Qed.
Lemma first_part p s a b : p <> [] -> split_first p s = Some (a, b) -> part a s.
Proof. intros N E. apply split_first_Some in E as (E & _); [|exact N]. exists [], (p ++ b). exact E. Qed.
Lemma frequency_says s fmt st : W s -> ok (parse_frequency s fmt st).
Proof.
  intro Ws. unfold parse_frequency. assert (forall e, mentions e = [s] -> ~ of_import e -> (forall m, e <> EParse (AmountTokens m)) ->
    (forall m, e <> EParse (AmountMag m)) -> (exists p, e = EParse p) -> founded W e) as G.
  { intros e M N A B (p & ->). assert (~ of_import (EParse p) /\ Forall W (mentions (EParse p))) as H.
    { split; [exact N|]. rewrite M. constructor; [exact Ws|constructor]. }
    destruct p; try exact H; [destruct (A s0)|destruct (B s0)]; reflexivity. }
  repeat match goal with
  | |- spoken (match ?x with _ => _ end) _ _ => destruct x
  | |- spoken (if ?x then _ else _) _ _ => destruct x
  | |- spoken (Ok _) _ _ => exact I
  | |- spoken (Err _) _ _ => apply G; [reflexivity|intros []|discriminate|discriminate|eexists; reflexivity]
  end.
Qed.
Lemma envelope_says c account d fmt : (forall l, In l (lines (trim c)) -> W l) -> W account -> trim c <> [] ->
  spoken (parse_envelope c account d fmt) (founded W) (fun v => W (v_name v)).
Proof.
  intros Wl Wa N. unfold parse_envelope. destruct (lines (trim c)) as [|h body] eqn:L.
  { exfalso. exact (trim_not_nil_lines c N L). }
  assert (W h) as Wh by (apply Wl; left; reflexivity).
  assert (W (remove_comments h)) as Wc by exact (down _ _ (part_comments h) Wh).
  apply (spoken_bind _ _ _ (fun v => W (v_name v) /\ v_account v = account)).
  - unfold envelope_header. destruct (split_ws (remove_comments h)) as [|t0 [|t1 more]] eqn:E;
      try (split; [intros []|repeat constructor; exact Wh]).
    apply (spoken_bind _ _ _ (fun _ => True)).
    { unfold parse_envtype. repeat (destruct (str_eqb t0 _); [exact I|]). split; [intros []|]. repeat constructor.
      exact (token_stands _ t0 _ 0 Wc E eq_refl). }
    intros ty _ _. apply (spoken_bind _ _ _ (fun o => forall x, o = Some x -> W (snd x))).
    { unfold extract_starting. destruct (split_first _ h) as [(b & r)|] eqn:F; [|cbn; discriminate].
      destruct (parse_date r fmt); [|split; [intros []|repeat constructor; exact Wh]]. cbn. intros x Hx. injection Hx as <-. cbn [snd].
      apply (down _ h); [|exact Wh]. eapply first_part; [|exact F]. discriminate. }
    intros st _ Wst. cbv zeta. set (h' := match st with Some (_, b) => b | None => h end).
    assert (W h') as Wh' by (subst h'; destruct st as [(x & b)|]; [exact (Wst _ eq_refl)|exact Wh]). clearbody h'.
    assert (W (remove_comments h')) as Wc' by exact (down _ _ (part_comments h') Wh').
    apply (spoken_bind _ _ _ (fun _ => True)).
    { unfold extract_frequency. cbv zeta. destruct (contains _ _); [exact I|].
      destruct (after_last (lit " by ") (remove_comments h')) as [r|] eqn:A1; [apply frequency_says, (down _ _ (after_part _ _ _ A1) Wc')|].
      destruct (after_last (lit " due ") (remove_comments h')) as [r|] eqn:A2; [apply frequency_says, (down _ _ (after_part _ _ _ A2) Wc')|].
      split; [intros []|]. repeat constructor. exact Wc'. }
    intros fr _ _. cbn. split; [|reflexivity]. exact (token_stands _ t1 _ 1 Wc E eq_refl).
  - intros v _ Wv. apply (spoken_weaken _ (founded W) _ (fun v => W (v_name v) /\ v_account v = account)); [|auto|tauto].
    apply spoken_fold; [|exact Wv]. intros u l Il (Wu & Au).
    assert (W l) as Wll.
    { assert (exists b, In b body /\ part l b) as (b & Ib & P).
      { assert (Forall (fun b => ~ In 10%N b) body) as Fb.
        { apply Forall_forall. intros b Ib. apply (part_line (trim c)). rewrite L. right. exact Ib. }
        destruct (part_line _ _ Il) as (P & Nl). clear -P Nl Il Fb. destruct body as [|b body]; [destruct Il|]. revert b Il P Fb.
        induction body as [|b2 body IH]; intros b Il P Fb; [exists b; split; [left; reflexivity|exact P]|].
        change (join [10%N] (b :: b2 :: body)) with (b ++ 10%N :: join [10%N] (b2 :: body)) in *.
        rewrite lines_app in Il by (inversion Fb; assumption). destruct Il as [<-|Il].
        - exists b. split; [left; reflexivity|apply part_cr].
        - inversion Fb; subst. destruct (IH b2 Il) as (x & Ix & Px); [apply part_line, Il|assumption|]. exists x. split; [right; exact Ix|exact Px]. }
      apply (down _ _ P). apply Wl. right. exact Ib. }
    unfold add_body_line. cbv zeta. set (t := trim (remove_comments l)).
    assert (W t) as Wt by (apply (down _ l); [|exact Wll]; eapply part_trans; [apply part_trim|apply part_comments]).
    destruct (split_ws t) as [|key more] eqn:E; [exact I|].
    assert (W key) as Wk by exact (token_stands t key _ 0 Wt E eq_refl).
    destruct (find_char _ t) as [idx|]; [|split; [intros []|rewrite Au; repeat constructor; assumption]].
    assert (W (skipn idx t)) as Ws by exact (down _ _ (part_skipn idx t) Wt).
    destruct more; [split; assumption|].
    destruct (str_eqb key _).
    { destruct (split_ws (skipn idx t)) as [|x [|y m]]; try (split; [intros []|repeat constructor; exact Ws]). split; assumption. }
    destruct (str_eqb key _).
    { apply (spoken_bind _ _ _ (fun _ => True)); [apply (amount_says (skipn idx t)); [exact Ws|reflexivity]|]. intros. split; assumption. }
    destruct (str_eqb key _); [|split; [intros []|repeat constructor; exact Wk]].
    apply (spoken_bind _ _ _ (fun _ => True)); [|intros; split; assumption].
    unfold parse_funding. cbv zeta. repeat (destruct (str_eqb (trim _) _); [exact I|]). split; [intros []|]. repeat constructor. exact Ws.
Qed.
Lemma flush_says d fmt a p : (forall s, ~ In 10%N s -> part s p -> W s) -> W (a_name a) ->
  spoken (flush_envelope d fmt a p) (founded W) (fun b => a_name b = a_name a).
Proof.
  intros Hp Wa. unfold flush_envelope. destruct (trim p) as [|x t] eqn:T; [reflexivity|].
  apply (spoken_bind _ _ _ (fun v => W (v_name v))).
  - apply envelope_says; [|exact Wa|rewrite T; discriminate]. intros l Il. apply part_line in Il as (P & N).
    apply Hp; [exact N|]. eapply part_trans; [exact P|apply part_trim].
  - intros v _ Wv. unfold add_envelope. destruct (v_type v);
      (destruct (existsb _ _); [split; [intros []|repeat constructor; assumption]|reflexivity]).
Qed.
Lemma account_says c d fmt : W c -> ok (parse_account c d fmt).
Proof.
  intro Wc. unfold parse_account. destruct (lines c) as [|h body] eqn:L; [split; [intros []|repeat constructor; exact Wc]|].
  assert (forall l, In l (h :: body) -> W l) as Wl.
  { intros l Il. rewrite <- L in Il. exact (down _ _ (proj1 (part_line _ _ Il)) Wc). }
  assert (W (remove_comments h)) as Wh by (apply (down _ h); [apply part_comments|apply Wl; left; reflexivity]).
  apply (spoken_bind _ _ _ (fun n => W n)).
  - unfold account_header. destruct (split_ws (remove_comments h)) as [|k [|n [|x r]]] eqn:E;
      try (split; [intros []|repeat constructor; exact Wh]). cbn. exact (token_stands _ n _ 1 Wh E eq_refl).
  - intros n _ Wn. apply (spoken_bind _ _ _ (fun st => a_name (fst st) = n /\ forall s, ~ In 10%N s -> part s (snd st) -> W s)).
    + apply spoken_fold.
      * intros (a & p) l Il (Na & Hp). cbn [fst snd] in Na, Hp. unfold account_line. cbv zeta.
        assert (W l) as Wll by (apply Wl; right; exact Il).
        destruct (_ || _).
        -- apply (spoken_bind _ _ _ (fun b => a_name b = a_name a)); [apply flush_says; [exact Hp|rewrite Na; exact Wn]|].
           intros b _ Nb. cbn. split; [congruence|]. intros s _ P. exact (down _ _ P Wll).
        -- cbn. split; [exact Na|]. intros s Ns P. destruct (part_break _ _ _ Ns P) as [Q|Q]; [exact (Hp s Ns Q)|exact (down _ _ Q Wll)].
      * cbn. split; [reflexivity|]. intros s _ (x & y & E). destruct x; [|discriminate]. destruct s; [|discriminate].
        apply (down _ c); [|exact Wc]. exists [], c. reflexivity.
    + intros (a & p) _ (Na & Hp). cbn [fst snd] in Na, Hp. eapply spoken_weaken; [apply flush_says; [exact Hp|rewrite Na; exact Wn]|auto|auto].
Qed.
End In.

(** ** Processing *)
Definition processed (e : entry) (v : envelope) (x : err) : Prop :=
  x = EProcessing (NoNativeValue (full_string e)) \/ x = EProcessing (NoEnvelopeValue (full_string e))
  \/ x = EProcessing (ForeignEnvelope (v_name v) (v_account v) (full_string e)).
Definition silent {A} (r : res A) : Prop := forall e, r <> Err e.
Lemma silent_bind {A B} (r : res A) (f : A -> res B) : silent r -> (forall a, silent (f a)) -> silent (bind r f).
Proof. intros H1 H2 e. destruct r; cbn; try discriminate; [apply H2|]. intros _. exact (H1 e0 eq_refl). Qed.
Lemma silent_spoken {A} (r : res A) E : silent r -> spoken r E (fun _ => True).
Proof. intro H. destruct r; cbn; auto. destruct (H e eq_refl). Qed.
Ltac quiet := repeat match goal with
  | |- silent (bind _ _) => apply silent_bind; [|intros]
  | |- silent (match ?x with _ => _ end) => destruct x
  | |- silent (Ok _) => intros ? ?; discriminate
  | |- silent Panic => intros ? ?; discriminate
  | |- silent Loop => intros ? ?; discriminate
  | |- silent (unwrap ?x) => unfold unwrap
  end.
Lemma add_silent a b : silent (amount_add a b).
Proof. unfold amount_add. cbv zeta. quiet. Qed.
Lemma next_silent today f : silent (freq_next today f).
Proof.
  assert (forall n w d, silent (weekly_loop n w d)) as Hw by (induction n as [|n IH]; intros w d; cbn [weekly_loop]; quiet; apply IH).
  assert (forall k d, silent (bimonthly_step k d)) as Hs by (intros k d; unfold bimonthly_step, last_date_of_month; cbv zeta; quiet).
  assert (forall n t k d, silent (bimonthly_loop n t k d)) as Hb
    by (induction n as [|n IH]; intros t k d; cbn [bimonthly_loop]; quiet; first [apply Hs|apply IH]).
  assert (forall n, silent (next_by_day_of_month today n)) as Hm by (intro n; unfold next_by_day_of_month, last_date_of_month; cbv zeta; quiet).
  destruct f; cbn [freq_next]; cbv zeta; quiet; auto.
Qed.
Lemma months_silent d n : silent (subtract_months d n).
Proof. unfold subtract_months. cbv zeta. quiet. Qed.
Lemma last_silent today f : silent (freq_last today f).
Proof. unfold freq_last. quiet; try apply months_silent. apply next_silent. Qed.
Lemma apply_silent today v a d : silent (apply_amount today v a d).
Proof. unfold apply_amount. quiet; first [apply add_silent|apply last_silent]. Qed.
Lemma manual_silent today v e : silent (process_manual today v e).
Proof.
  unfold process_manual. generalize (envelope_postings e) as ps. intro ps. revert v.
  induction ps as [|p ps IH]; intro v; cbn [fold_res]; quiet; [|apply IH].
  unfold manual_step. quiet. apply apply_silent.
Qed.
Lemma blank_says e : spoken (get_blank_amount e) (fun x => x = EProcessing (NoNativeValue (full_string e))) (fun _ => True).
Proof.
  unfold get_blank_amount. destruct (has_blank_posting e); [|exact I]. destruct (has_mixed_currencies e).
  - apply (spoken_bind _ _ _ (fun _ => True)); [|intros; exact I]. generalize (e_postings e) as ps, fzero.
    induction ps as [|p ps IH]; intros x; cbn [blank_native]; [exact I|]. destruct (native_value p); [apply IH|].
    destruct (get_amount p); [reflexivity|apply IH].
  - destruct (find_amount (e_postings e)) as [(a & rest)|]; [|exact I]. apply (spoken_bind _ _ _ (fun _ => True)); [|intros; exact I].
    apply silent_spoken. generalize (amount_neg a). induction rest as [|p ps IH]; intro x; cbn [blank_rest]; quiet.
    + unfold amount_sub_assign. quiet.
    + apply IH.
    + apply IH.
Qed.
Lemma env_says today v e : spoken (env_process today v e) (processed e v) (fun _ => True).
Proof.
  unfold env_process. destruct (has_envelope_posting e); [apply silent_spoken, manual_silent|].
  unfold infer. destruct (_ || _); [exact I|]. cbv zeta. apply (spoken_bind _ _ _ (fun _ => True)).
  - apply spoken_fold; [|exact I]. intros (au & se) p _ _. unfold infer_step. apply (spoken_bind _ _ _ (fun _ => True)).
    + unfold infer_amount. apply (spoken_bind _ _ _ (fun _ => True)).
      * destruct (get_amount p); [exact I|]. apply (spoken_bind _ _ _ (fun _ => True)); [|intros o _ _; destruct o; exact I].
        eapply spoken_weaken; [apply blank_says|intros x ->; left; reflexivity|auto].
      * intros a _ _. destruct (ostr_eqb _ _); [exact I|]. destruct (symbol (v_amount v)); [right; right; reflexivity|].
        destruct (native_value p); [exact I|right; left; reflexivity].
    + intros a _ _. apply silent_spoken. quiet; apply add_silent.
  - intros (au & se) _ _. apply silent_spoken. quiet. apply apply_silent.
Qed.
Lemma process_says today a e : spoken (acc_process today a e)
  (fun x => x = EProcessing (NoNativeValue (full_string e)) \/ exists v, In v (all_envelopes a) /\ processed e v x) (fun _ => True).
Proof.
  unfold acc_process.
  assert (forall vs, incl vs (all_envelopes a) -> spoken (map_res (fun v => env_process today v e) vs)
    (fun x => x = EProcessing (NoNativeValue (full_string e)) \/ exists v, In v (all_envelopes a) /\ processed e v x) (fun _ => True)) as G.
  { intros vs H. apply spoken_map. intros v Iv. eapply spoken_weaken; [apply env_says| |auto]. intros x Hx. right. exists v. auto. }
  apply (spoken_bind _ _ _ (fun _ => True)); [apply G; intros v Iv; apply in_or_app; auto|]. intros ex _ _.
  apply (spoken_bind _ _ _ (fun _ => True)); [apply G; intros v Iv; apply in_or_app; auto|]. intros go _ _.
  apply (spoken_bind _ _ _ (fun _ => True)); [|intros; exact I].
  apply spoken_fold; [|exact I]. intros p x _ _. unfold real_step. destruct (_ && _); [|exact I]. destruct (get_amount x); [exact I|].
  apply (spoken_bind _ _ _ (fun _ => True)); [|intros; exact I]. eapply spoken_weaken; [apply blank_says|auto|auto].
Qed.

(** ** Loading *)
Section Load.
Context (w0 : world) (j0 : str) (today : date).
Definition fitted (l : ledger) : Prop := l_path l = j0 /\ (forall e, In e (l_entries l) -> recorded_in w0 j0 e)
  /\ forall k a, In (k, a) (l_accounts l) -> fits w0 j0 a.
Lemma add_entry_says l e : fitted l -> recorded_in w0 j0 e -> spoken (add_entry today l e) (reason w0 j0) fitted.
Proof.
  intros F R. unfold add_entry. apply (spoken_bind _ _ _ (fun _ => True)).
  - apply spoken_map. intros (k & a) Ia. cbn [fst snd]. apply (spoken_bind _ _ _ (fun _ => True)); [|intros; exact I].
    eapply spoken_weaken; [apply process_says| |auto]. intros x [-> |(v & Iv & Hx)]; [exists e; auto|].
    destruct Hx as [-> |[-> | ->]]; [exists e; auto|exists e; auto|]. split; [exists e; auto|].
    destruct F as (_ & _ & F). destruct (F k a Ia) as (a0 & D & Fv). destruct (Fv v Iv) as (v0 & I0 & S0). exists a0, v0.
    split; [exact D|]. split; [exact I0|]. destruct S0 as (N & _ & _ & _ & _ & _ & _ & Ac). split; [congruence|].
    destruct D as (c & fmt & _ & _ & Pa). apply parse_account_sound in Pa as (Fr & _). destruct (Fr v0 I0) as (Q & _). congruence.
  - intros accs E _. destruct F as (Fp & Fe & F). split; [exact Fp|]. split.
    { cbn [l_entries]. intros y Iy. apply (Permutation_in _ (Permutation_sym (sort_entries_perm _))) in Iy.
      apply in_app_or in Iy as [Iy|[<-|[]]]; auto. }
    intros k b Ib. cbn [l_accounts] in Ib. apply map_res_Ok in E. revert F E Ib. generalize (l_accounts l) as m. intros m F E. induction E as [|(k1 & a1) (k2 & a2) m m' H E IH]; [intros []|].
    cbn [fst snd] in H. apply bind_Ok in H as (a3 & Ha & H). injection H as <- <-. intros [Q|Ib].
    + injection Q as <- <-. eapply fits_process; [|exact Ha]. apply (F k1). left. reflexivity.
    + apply IH; [|exact Ib]. intros k' a' I'. apply (F k'). right. exact I'.
Qed.
Definition kept (s : lw) : Prop := fitted (fst s) /\ same_disk w0 (snd s) /\ dirs w0 (cwd (snd s)) = true.
Lemma insert_In {A} k v (m : list (str * A)) k' v' : In (k', v') (map_insert k v m) -> v' = v \/ In (k', v') m.
Proof.
  induction m as [|(k1 & v1) m IH]; cbn [map_insert].
  - intros [Q|[]]. injection Q as _ <-. auto.
  - destruct (str_eqb k1 k).
    + intros [Q|I']; [injection Q as _ <-; auto|right; right; exact I'].
    + intros [Q|I']; [right; left; exact Q|]. destruct (IH I'); [auto|right; right; assumption].
Qed.
Lemma founded_reason e : (exists c, stands_in w0 j0 c /\ founded (fun s => part s c) e) -> reason w0 j0 e.
Proof. intros (c & Sc & F). destruct e as [p|v|p|b|p]; cbn [founded] in F; try (destruct F; fail); exists c; auto. Qed.
Lemma part_down c s t : part s t -> part t c -> part s c.
Proof. apply part_trans. Qed.
Lemma chunk_says inc s c : (forall f s, keyword c "include" -> value c = Some f -> kept s -> spoken (inc f s) (reason w0 j0) kept) ->
  kept s -> stands_in w0 j0 c -> spoken (parse_chunk today inc s c) (reason w0 j0) kept.
Proof.
  intros Hi (G & W) Sc. unfold parse_chunk. destruct (split_ws c) as [|k rest] eqn:Ek; [split; assumption|].
  assert (forall n : string, k = lit n -> keyword c n) as Kw by (intros n ->; unfold keyword; rewrite Ek; reflexivity).
  assert (forall n : string, keyword c n -> str_eqb k (lit n) = true) as Kw'.
  { intros n Kn. unfold keyword in Kn. rewrite Ek in Kn. injection Kn as ->. apply str_eqb_refl. }
  assert (forall r, spoken r (reason w0 j0) fitted -> spoken (on_ledger s r) (reason w0 j0) kept) as On.
  { intros r Hr. unfold on_ledger. apply (spoken_bind _ _ _ fitted); [exact Hr|]. intros l _ Gl. split; [exact Gl|exact W]. }
  assert (forall A (r : res A) P, spoken r (founded (fun s => part s c)) P -> spoken r (reason w0 j0) (fun _ => True)) as Fo.
  { intros A r P H. eapply spoken_weaken; [exact H| |auto]. intros e He. apply founded_reason. exists c. auto. }
  assert (forall e, mentions e = [] -> ~ of_import e -> (exists p, e = EParse p) -> reason w0 j0 e) as Em.
  { intros e M N (p & ->). apply founded_reason. exists c. split; [exact Sc|]. destruct p; try discriminate; (split; [exact N|rewrite M; constructor]). }
  destruct (str_eqb k (lit "account")) eqn:E1.
  { apply str_eqb_eq in E1. apply On. unfold ledger_parse_account. apply (spoken_bind _ _ _ (fun _ => True)).
    - eapply Fo. apply account_says; [exact (part_down c)|apply part_refl].
    - intros a Ea _. destruct G as (Gp & Ge & G). split; [exact Gp|]. split; [exact Ge|].
      intros k' b Ib. cbn [l_accounts] in Ib. apply insert_In in Ib as [-> |Ib]; [|exact (G _ _ Ib)].
      eapply fits_parsed; [exact Sc|exact (Kw "account"%string E1)|exact Ea]. }
  destruct (str_eqb k (lit "currency")) eqn:E2.
  { apply On. destruct (hd_error rest); [exact G|]. apply Em; [reflexivity|intros []|eexists; reflexivity]. }
  destruct (str_eqb k (lit "date_format")) eqn:E3.
  { apply On. destruct (hd_error rest); [exact G|]. apply Em; [reflexivity|intros []|eexists; reflexivity]. }
  destruct (str_eqb k (lit "include")) eqn:E4.
  { apply str_eqb_eq in E4. destruct (hd_error rest) as [f|] eqn:Ev; [|apply Em; [reflexivity|intros []|eexists; reflexivity]].
    apply Hi; [exact (Kw "include"%string E4)|unfold value; rewrite Ek; exact Ev|split; assumption]. }
  apply On. unfold ledger_parse_entry. apply (spoken_bind _ _ _ (fun _ => True)).
  - eapply Fo. apply entry_says; [exact (part_down c)|apply part_refl].
  - intros e Pe _. apply add_entry_says; [exact G|]. exists c, (l_format (fst s)), (account_names (fst s)). split; [exact Sc|]. split; [|exact Pe].
    intros [K|[K|[K|K]]]; apply Kw' in K; congruence.
Qed.
Lemma load_says fuel (Pr : proper w0) : forall p s, kept s -> read_path w0 j0 p -> journal_file w0 j0 (located (cwd (snd s)) p) ->
  spoken (add_from_file fuel today p s) (reason w0 j0) kept.
Proof.
  induction fuel as [|n IH]; intros p s G R J; [exact I|]. cbn [add_from_file]. unfold read_file.
  destruct (files (snd s) (resolve (snd s) p)) as [t|] eqn:Ef; [|exact R]. cbn [bind].
  destruct G as (G & W). apply (spoken_bind _ _ _ (fun w => same_disk w0 w /\ dirs w0 (cwd w) = true)).
  - unfold chdir_parent. destruct (components p) as [|c cs] eqn:Ec; [exact I|].
    cbv zeta. destruct (_ && dirs (snd s) _) eqn:Ed; [|exact W]. apply andb_true_iff in Ed as (_ & Ed).
    cbn. destruct W as ((W1 & W2) & _). split; [split; [exact W1|exact W2]|]. rewrite <- W2. exact Ed.
  - intros w1 _ W1. destruct (cut_up_total t) as (cs & C). rewrite (add_from_str_chunks _ _ _ _ _ C).
    apply spoken_fold; [|split; [exact G|exact W1]]. intros s1 c Ic G1.
    assert (files w0 (located (cwd (snd s)) p) = Some t) as F0 by (rewrite <- (proj1 (proj1 W)); exact Ef).
    apply chunk_says; [|exact G1|exists (located (cwd (snd s)) p), t, cs; auto].
    intros f s2 K V G2. assert (includes t f) as Inc by (exists cs, c; auto). apply IH; [exact G2| |].
    + right. exists (located (cwd (snd s)) p), t. auto.
    + eapply journal_include; [exact J|exact F0|exact Inc|]. apply G2.
Qed.
Lemma from_file_says fuel (Pr : proper w0) : spoken (from_file fuel today j0 w0) (reason w0 j0) kept.
Proof.
  unfold from_file. apply load_says; [exact Pr| |left; reflexivity|apply journal_main].
  split; [split; [reflexivity|split; [intros e []|intros k a []]]|]. split; [split; reflexivity|]. apply Pr.
Qed.

(** Undefined accounts *)
Definition grown (s s' : lw) : Prop := incl (account_names (fst s)) (account_names (fst s')).
Definition unused (e : err) : Prop := forall n, e = EValidation (UndefinedAccount n) -> undefined_use w0 j0 n.
Lemma spoken_prefix {A T} (J : list A -> T -> Prop) (f : T -> A -> res T) E l :
  (forall pre a post s, l = pre ++ a :: post -> J pre s -> spoken (f s a) E (J (pre ++ [a]))) ->
  forall s, J [] s -> spoken (fold_res f l s) E (J l).
Proof.
  intro H. assert (forall post pre s, l = pre ++ post -> J pre s -> spoken (fold_res f post s) E (J l)) as G.
  { induction post as [|a post IH]; intros pre s El Js; cbn [fold_res].
    - rewrite app_nil_r in El. subst. exact Js.
    - apply (spoken_bind _ _ _ (J (pre ++ [a]))); [exact (H pre a post s El Js)|]. intros t _ Jt. apply (IH (pre ++ [a])); [|exact Jt].
      rewrite <- app_assoc. exact El. }
  intros s Js. exact (G l [] s eq_refl Js).
Qed.

Definition nameless (e : err) : Prop := forall n, e <> EValidation (UndefinedAccount n).
Notation plain r := (spoken r nameless (fun _ => True)).
Lemma plain_bind {A B} (r : res A) (f : A -> res B) : plain r -> (forall a, plain (f a)) -> plain (bind r f).
Proof. intros H1 H2. apply (spoken_bind _ _ _ (fun _ => True)); auto. Qed.
Ltac plainly := repeat match goal with
  | |- plain (bind _ _) => apply plain_bind; [|intros]
  | |- plain (match ?x with _ => _ end) => destruct x
  | |- plain (Ok _) => exact I
  | |- plain Panic => exact I
  | |- plain Loop => exact I
  | |- plain (Err _) => intros ? ?; discriminate
  end.
Lemma amount_plain r d : plain (parse_amount r d).
Proof. unfold parse_amount. cbv zeta. plainly. Qed.
Lemma extract_plain toks d op stop : plain (extract_amount toks d op stop).
Proof. unfold extract_amount. cbv zeta. plainly; apply amount_plain. Qed.
Lemma header_plain h fmt : plain (parse_header h fmt).
Proof. unfold parse_header, parse_status, split_payee. plainly. Qed.
Lemma envelope_plain c a d fmt : plain (parse_envelope c a d fmt).
Proof.
  unfold parse_envelope. plainly.
  - unfold envelope_header, parse_envtype, extract_starting, extract_frequency, parse_frequency. cbv zeta. plainly.
  - apply spoken_fold; [|exact I]. intros v0 l0 _ _. unfold add_body_line, parse_funding. cbv zeta. plainly; apply amount_plain.
Qed.
Lemma account_plain c d fmt : plain (parse_account c d fmt).
Proof.
  assert (forall a p, plain (flush_envelope d fmt a p)) as Fl.
  { intros a p. unfold flush_envelope, add_envelope. plainly. apply envelope_plain. }
  unfold parse_account. plainly.
  - unfold account_header. plainly.
  - apply spoken_fold; [|exact I]. intros (b & p) l' _ _. unfold account_line. cbv zeta. plainly. apply Fl.
  - apply Fl.
Qed.
Definition posted (ls : list str) (accounts : list str) (e : err) : Prop :=
  forall n, e = EValidation (UndefinedAccount n) -> ~ In n accounts /\ exists l, In l ls /\ hd_error (split_ws (remove_comments l)) = Some n.
Lemma nameless_posted {A} ls accounts (r : res A) : plain r -> spoken r (posted ls accounts) (fun _ => True).
Proof. intro H. eapply spoken_weaken; [exact H| |auto]. intros e N n ->. destruct (N n eq_refl). Qed.
Lemma posting_posted l d accounts : spoken (parse_posting l d accounts) (posted [l] accounts) (fun _ => True).
Proof.
  unfold parse_posting. cbv zeta. destruct (split_ws (trim (remove_comments l))) as [|t r] eqn:E; [intros n; discriminate|].
  destruct (str_eqb t (lit "envelope")).
  - apply nameless_posted. unfold parse_envposting. plainly. apply amount_plain.
  - apply (spoken_bind _ _ _ (fun _ => True)); [|intros; exact I]. unfold parse_classic.
    rewrite (remove_comments_markfree (trim (remove_comments l))) by (apply markfree_trim, markfree_remove_comments).
    rewrite !split_ws_trim in *. rewrite E.
    apply (spoken_bind _ _ _ (fun _ => True)); [apply nameless_posted; unfold parse_posting_amount; cbv zeta; plainly; apply amount_plain|intros am _ _].
    apply (spoken_bind _ _ _ (fun _ => True)); [apply nameless_posted; apply extract_plain|intros b _ _].
    apply (spoken_bind _ _ _ (fun _ => True)); [apply nameless_posted; unfold parse_price; plainly; apply extract_plain|intros p _ _].
    apply (spoken_bind _ _ _ (fun _ => True)); [apply nameless_posted; unfold parse_total_cost; plainly; apply extract_plain|intros co _ _].
    destruct (mem t accounts) eqn:M; [exact I|]. intros n Q. injection Q as <-. split.
    + intro In1. apply mem_In in In1. congruence.
    + exists l. split; [left; reflexivity|]. rewrite E. reflexivity.
Qed.
Lemma entry_posted c fmt d accounts : spoken (parse_entry c fmt d accounts)
  (fun e => forall n, e = EValidation (UndefinedAccount n) -> ~ In n accounts
     /\ exists h ls l, lines (trim c) = h :: ls /\ In l ls /\ hd_error (split_ws (remove_comments l)) = Some n) (fun _ => True).
Proof.
  unfold parse_entry. cbv zeta. destruct (trim c) as [|x t] eqn:T; [intros n; discriminate|]. rewrite <- T.
  destruct (lines (trim c)) as [|h ls] eqn:L; [intros n; discriminate|].
  eapply (spoken_weaken _ (posted ls accounts) _ (fun _ => True)); [| |auto].
  - apply (spoken_bind _ _ _ (fun _ => True)); [apply nameless_posted, header_plain|intros e0 _ _].
    apply (spoken_bind _ _ _ (fun _ => True)).
    + clear. induction ls as [|l ls IH]; cbn [parse_postings]; [exact I|].
      assert (forall e, posted ls accounts e -> posted (l :: ls) accounts e) as Up.
      { intros e P n Q. destruct (P n Q) as (Ni & y & Iy & Hy). split; [exact Ni|]. exists y. split; [right; exact Iy|exact Hy]. }
      destruct (trim l); [eapply spoken_weaken; [exact IH|exact Up|auto]|]. apply (spoken_bind _ _ _ (fun _ => True)).
      * eapply spoken_weaken; [apply posting_posted| |auto]. intros e P m Q. destruct (P m Q) as (Ni & y & [<-|[]] & Hy).
        split; [exact Ni|]. exists l. split; [left; reflexivity|exact Hy].
      * intros p _ _. apply (spoken_bind _ _ _ (fun _ => True)); [eapply spoken_weaken; [exact IH|exact Up|auto]|intros; exact I].
    + intros ps _ _. apply nameless_posted. apply plain_bind; [|intros; exact I]. unfold validate_entry. apply plain_bind.
      * cbn [e_postings]. generalize 0%nat (@nil str). induction ps as [|p ps IH]; intros n sy; cbn [validate_loop]; plainly; apply IH.
      * intros (b & sy). plainly.
  - intros e P n Q. destruct (P n Q) as (Ni & l & Il & Hl). split; [exact Ni|]. exists h, ls, l. auto.
Qed.
Lemma add_entry_grown l e : spoken (add_entry today l e) nameless (fun l' => account_names l' = account_names l).
Proof.
  unfold add_entry. apply (spoken_bind _ _ _ (fun accs => map fst accs = map fst (l_accounts l))).
  - generalize (l_accounts l) as m. induction m as [|(k & a) m IH]; cbn [map_res]; [reflexivity|].
    apply (spoken_bind _ _ _ (fun x => fst x = k)).
    + cbn [fst snd]. apply (spoken_bind _ _ _ (fun _ => True)); [|intros; reflexivity].
      eapply spoken_weaken; [apply process_says| |auto]. intros x [-> |(v & _ & [-> |[-> | ->]])] n; discriminate.
    + intros (k' & b) _ Q. cbn [fst] in Q. subst k'. apply (spoken_bind _ _ _ (fun accs => map fst accs = map fst m)); [exact IH|].
      intros accs _ Q. cbn. f_equal. exact Q.
  - intros accs _ Q. exact Q.
Qed.
Lemma insert_names {A} k (v : A) m : incl (k :: map fst m) (map fst (map_insert k v m)).
Proof.
  induction m as [|(k1 & v1) m IH]; cbn [map_insert map fst]; [intros x Hx; exact Hx|].
  destruct (str_eqb k1 k) eqn:E.
  - apply str_eqb_eq in E. subst k1. cbn [map fst]. intros x [<-|Hx]; [left; reflexivity|exact Hx].
  - cbn [map fst]. intros x [<-|[<-|Hx]]; [right; apply IH; left; reflexivity|left; reflexivity|right; apply IH; right; exact Hx].
Qed.
Lemma chunk_unused inc pre s c post p t :
  (forall f s, keyword c "include" -> value c = Some f -> same_disk w0 (snd s) -> dirs w0 (cwd (snd s)) = true ->
     spoken (inc f s) unused (fun s' => grown s s' /\ same_disk w0 (snd s') /\ dirs w0 (cwd (snd s')) = true)) ->
  same_disk w0 (snd s) -> dirs w0 (cwd (snd s)) = true ->
  journal_file w0 j0 p -> files w0 p = Some t -> cut_up t (pre ++ c :: post) ->
  (forall d n, In d pre -> defines d n -> In n (account_names (fst s))) ->
  spoken (parse_chunk today inc s c) unused
    (fun s' => grown s s' /\ (same_disk w0 (snd s') /\ dirs w0 (cwd (snd s')) = true) /\ forall n, defines c n -> In n (account_names (fst s'))).
Proof.
  intros Hi W1 W2 J F C Def. unfold parse_chunk. destruct (split_ws c) as [|k rest] eqn:Ek.
  { split; [intros x Hx; exact Hx|]. split; [auto|]. intros n (K & _). unfold keyword in K. rewrite Ek in K. discriminate. }
  assert (forall n : string, k = lit n -> keyword c n) as Kw by (intros n ->; unfold keyword; rewrite Ek; reflexivity).
  assert (forall n : string, keyword c n -> str_eqb k (lit n) = true) as Kw'.
  { intros n Kn. unfold keyword in Kn. rewrite Ek in Kn. injection Kn as ->. apply str_eqb_refl. }
  assert (forall r, spoken r unused (fun l => incl (account_names (fst s)) (account_names l) /\ forall n, defines c n -> In n (account_names l)) ->
    spoken (on_ledger s r) unused (fun s' => grown s s' /\ (same_disk w0 (snd s') /\ dirs w0 (cwd (snd s')) = true) /\ forall n, defines c n -> In n (account_names (fst s')))) as On.
  { intros r Hr. unfold on_ledger. eapply spoken_bind; [exact Hr|]. intros l _ (Gl & Dl). split; [exact Gl|]. cbn [fst snd]. auto. }
  destruct (str_eqb k (lit "account")) eqn:E1.
  { apply On. unfold ledger_parse_account. apply (spoken_bind _ _ _ (fun _ => True)).
    - eapply spoken_weaken; [apply account_plain| |auto]. intros e N n ->. destruct (N n eq_refl).
    - intros a Ea _. unfold account_names. cbn [spoken l_accounts]. split.
      + intros x Hx. apply insert_names. right. exact Hx.
      + intros n (_ & h & ls & k' & L & Sp). apply insert_names. left. unfold parse_account in Ea. rewrite L in Ea.
        apply bind_Ok in Ea as (n' & Hn & Ea). unfold account_header in Hn. rewrite Sp in Hn. injection Hn as <-.
        apply bind_Ok in Ea as ((b & q) & Hf & Ea).
        assert (a_name b = n) as Nb.
        { revert Hf. assert (spoken (fold_res (account_line decimal_symbol (l_format (fst s))) ls (mkAccount n [] [] [], [])) (fun _ => True) (fun st => a_name (fst st) = n)) as G.
          { apply spoken_fold; [|reflexivity]. intros (u & z) l _ Nu. cbn [fst] in Nu. unfold account_line. cbv zeta. destruct (_ || _); [|exact Nu].
            apply (spoken_bind _ _ _ (fun u' => a_name u' = n)); [|intros u' _ Q; exact Q]. unfold flush_envelope. destruct (trim z); [exact Nu|].
            apply (spoken_bind _ _ _ (fun _ => True)); [destruct (parse_envelope _ _ _ _); exact I|]. intros v _ _. unfold add_envelope.
            destruct (v_type v); (destruct (existsb _ _); [exact I|exact Nu]). }
          intro Hf. rewrite Hf in G. exact G. }
        revert Ea. unfold flush_envelope. destruct (trim q); [intro Q; injection Q as <-; exact Nb|]. intro Q.
        apply bind_Ok in Q as (v & _ & Q). unfold add_envelope in Q. destruct (v_type v); destruct (existsb _ _); try discriminate; injection Q as <-; exact Nb. }
  assert (forall n, ~ defines c n) as Nd by (intros n (K & _); apply Kw' in K; congruence).
  destruct (str_eqb k (lit "currency")) eqn:E2.
  { apply On. destruct (hd_error rest); [|intros n; discriminate]. split; [intros x Hx; exact Hx|]. intros n D. destruct (Nd n D). }
  destruct (str_eqb k (lit "date_format")) eqn:E3.
  { apply On. destruct (hd_error rest); [|intros n; discriminate]. split; [intros x Hx; exact Hx|]. intros n D. destruct (Nd n D). }
  destruct (str_eqb k (lit "include")) eqn:E4.
  { apply str_eqb_eq in E4. destruct (hd_error rest) as [f|] eqn:Ev; [|intros n; discriminate].
    eapply spoken_weaken; [apply Hi; [exact (Kw "include"%string E4)|unfold value; rewrite Ek; exact Ev|exact W1|exact W2]|auto|].
    intros s' _ (G & D). split; [exact G|]. split; [exact D|]. intros n X. destruct (Nd n X). }
  apply On. unfold ledger_parse_entry. apply (spoken_bind _ _ _ (fun _ => True)).
  - eapply spoken_weaken; [apply entry_posted| |auto]. intros e P n Q. destruct (P n Q) as (Ni & h & ls & l & L & Il & Hl).
    exists p, t, pre, c, post. split; [exact J|]. split; [exact F|]. split; [exact C|]. split.
    + split; [|exists h, ls, l; auto]. intros [K|[K|[K|K]]]; apply Kw' in K; congruence.
    + intros d Id Dd. apply Ni. exact (Def d n Id Dd).
  - intros e _ _. eapply spoken_weaken; [apply add_entry_grown| |].
    + intros x N n ->. destruct (N n eq_refl).
    + intros l _ Q. rewrite Q. split; [intros x Hx; exact Hx|]. intros n D. destruct (Nd n D).
Qed.
Lemma load_unused fuel : forall p s, same_disk w0 (snd s) -> dirs w0 (cwd (snd s)) = true -> journal_file w0 j0 (located (cwd (snd s)) p) ->
  spoken (add_from_file fuel today p s) unused (fun s' => grown s s' /\ same_disk w0 (snd s') /\ dirs w0 (cwd (snd s')) = true).
Proof.
  induction fuel as [|n IH]; intros p s W1 W2 J; [exact I|]. cbn [add_from_file]. unfold read_file.
  destruct (files (snd s) (resolve (snd s) p)) as [t|] eqn:Ef; [|intros m; discriminate]. cbn [bind].
  apply (spoken_bind _ _ _ (fun w => same_disk w0 w /\ dirs w0 (cwd w) = true)).
  - unfold chdir_parent. destruct (components p) as [|c cs] eqn:Ec; [exact I|].
    cbv zeta. destruct (_ && dirs (snd s) _) eqn:Ed; [|split; assumption]. apply andb_true_iff in Ed as (_ & Ed).
    cbn. destruct W1 as (V1 & V2). split; [split; [exact V1|exact V2]|]. rewrite <- V2. exact Ed.
  - intros w1 _ V. destruct (cut_up_total t) as (cs & C). rewrite (add_from_str_chunks _ _ _ _ _ C).
    assert (files w0 (located (cwd (snd s)) p) = Some t) as F0 by (rewrite <- (proj1 W1); exact Ef).
    set (Jn := fun (pre : list str) (s' : lw) => grown s s' /\ (same_disk w0 (snd s') /\ dirs w0 (cwd (snd s')) = true)
      /\ forall d m, In d pre -> defines d m -> In m (account_names (fst s'))).
    apply (spoken_weaken _ unused unused (Jn cs)); [|auto|intros s' _ (G & D & _); split; assumption]. apply spoken_prefix.
    + intros pre c post s1 E (G1 & (D1 & D2) & N1).
      assert (cut_up t (pre ++ c :: post)) as C' by (rewrite <- E; exact C).
      assert (forall f s2, keyword c "include" -> value c = Some f -> same_disk w0 (snd s2) -> dirs w0 (cwd (snd s2)) = true ->
        spoken (add_from_file n today f s2) unused (fun s' => grown s2 s' /\ same_disk w0 (snd s') /\ dirs w0 (cwd (snd s')) = true)) as Hi.
      { intros f s2 K V2 Q1 Q2. assert (includes t f) as Inc by (exists cs, c; split; [exact C|]; split; [rewrite E; apply in_or_app; right; left; reflexivity|auto]).
        apply IH; [exact Q1|exact Q2|]. eapply journal_include; [exact J|exact F0|exact Inc|exact Q2]. }
      eapply (spoken_weaken _ unused unused); [exact (chunk_unused _ pre s1 c post (located (cwd (snd s)) p) t Hi D1 D2 J F0 C' N1)|auto|].
      intros s3 _ (G3 & D3 & N3). split; [intros x Hx; apply G3, G1, Hx|]. split; [exact D3|].
      intros d m Id Dd. apply in_app_or in Id as [Id|[<-|[]]]; [apply G3; exact (N1 d m Id Dd)|exact (N3 m Dd)].
    + split; [intros x Hx; exact Hx|]. split; [exact V|]. intros d m [].
Qed.
End Load.

(** ** A continued journal *)
Section Continue.
Context (w0 w1 : world) (j0 : str) (today : date).
Let P := located (cwd w0) j0.
Context (Ef : forall q, q <> P -> files w1 q = files w0 q) (Ed : forall q, dirs w1 q = dirs w0 q) (Nc : not_circular w0 j0).
Definition level (u u' : world) : Prop := same_disk w0 u /\ same_disk w1 u' /\ cwd u' = cwd u /\ dirs w0 (cwd u) = true.
Definition level_state (s s' : lw) : Prop := fst s' = fst s /\ level (snd s) (snd s').
Definition level_res (r r' : res lw) : Prop :=
  match r with Ok s => exists s', r' = Ok s' /\ level_state s s' | _ => fails r r' end.
Lemma level_bind r r' f f' : level_res r r' -> (forall s s', level_state s s' -> level_res (f s) (f' s')) -> level_res (bind r f) (bind r' f').
Proof. destruct r; cbn; intros H K; [destruct H as (s' & -> & L); exact (K _ _ L)|rewrite H; reflexivity..]. Qed.
Lemma level_fold {A} (f f' : lw -> A -> res lw) l : (forall s s' a, In a l -> level_state s s' -> level_res (f s a) (f' s' a)) ->
  forall s s', level_state s s' -> level_res (fold_res f l s) (fold_res f' l s').
Proof.
  induction l as [|a l IH]; intros H s s' L; cbn [fold_res]; [exists s'; auto|]. apply level_bind; [apply H; [left; reflexivity|exact L]|].
  intros t t' Lt. apply IH; [|exact Lt]. intros u u' b Ib. apply H. right. exact Ib.
Qed.
Lemma level_chunk inc inc' s s' c : (forall f t t', keyword c "include" -> value c = Some f -> level_state t t' -> level_res (inc f t) (inc' f t')) ->
  level_state s s' -> level_res (parse_chunk today inc s c) (parse_chunk today inc' s' c).
Proof.
  intros H (El & Lw). unfold parse_chunk. destruct (split_ws c) as [|k rest] eqn:Ek; [exists s'; split; [reflexivity|split; assumption]|].
  assert (forall r, level_res (on_ledger s r) (on_ledger s' r)) as On.
  { intros [l| | |]; cbn; try reflexivity. exists (l, snd s'). split; [reflexivity|]. split; [reflexivity|exact Lw]. }
  rewrite El. repeat match goal with |- level_res (if ?b then _ else _) _ => destruct b eqn:?; [try apply On|] end; [|apply On].
  match goal with E : str_eqb k (lit "include") = true |- _ => apply str_eqb_eq in E; subst k end.
  destruct (hd_error rest) as [f|] eqn:Ev; [|reflexivity].
  apply H; [unfold keyword; rewrite Ek; reflexivity|unfold value; rewrite Ek; exact Ev|split; assumption].
Qed.
Lemma level_chdir p u u' : level u u' -> match chdir_parent u p with Ok v => exists v', chdir_parent u' p = Ok v' /\ level v v' | _ => chdir_parent u' p = Panic end.
Proof.
  intros ((A1 & A2) & (B1 & B2) & C & D). unfold chdir_parent. destruct (components p) as [|x xs]; [reflexivity|]. cbv zeta.
  rewrite C, A2, B2, Ed. destruct (_ && dirs w0 _) eqn:E.
  - eexists. split; [reflexivity|]. apply andb_true_iff in E as (_ & E). split; [|split; [|split]]; cbn; auto; split; auto.
  - exists u'. split; [reflexivity|]. split; [split; assumption|]. split; [split; assumption|]. auto.
Qed.
Lemma level_load fuel : forall p s s', level_state s s' -> journal_file w0 j0 (located (cwd (snd s)) p) -> located (cwd (snd s)) p <> P ->
  level_res (add_from_file fuel today p s) (add_from_file fuel today p s').
Proof.
  induction fuel as [|n IH]; intros p s s' L J N; [reflexivity|]. cbn [add_from_file]. destruct L as (El & Lw).
  unfold read_file. rewrite !resolve_located. pose proof Lw as ((A1 & A2) & (B1 & B2) & C & D).
  rewrite C, A1, B1, (Ef _ N). destruct (files w0 (located (cwd (snd s)) p)) as [t|] eqn:F0; [|reflexivity]. cbn [bind].
  pose proof (level_chdir p _ _ Lw) as Lc. destruct (chdir_parent (snd s) p) as [v| | |] eqn:Ec; try (rewrite Lc;
    unfold chdir_parent in Ec; cbv zeta in Ec; destruct (components p); [|destruct (_ && _)]; congruence || reflexivity).
  destruct Lc as (v' & -> & Lv). cbn [bind]. rewrite El. destruct (cut_up_total t) as (cs & Cs).
  rewrite !(add_from_str_chunks _ _ _ _ _ Cs). apply level_fold; [|split; [reflexivity|exact Lv]].
  intros u u' c Ic Lu. apply level_chunk; [|exact Lu]. intros f z z' K V Lz.
  assert (includes t f) as Inc by (exists cs, c; auto). assert (dirs w0 (cwd (snd z)) = true) as Dz by apply Lz. apply IH; [exact Lz| |].
  - exact (journal_include w0 j0 _ t f _ J F0 Inc Dz).
  - exact (Nc _ t f _ J F0 Inc Dz).
Qed.
End Continue.

(** ** Runs *)
Lemma fold_silent {A T} (f : T -> A -> res T) l : (forall s a, silent (f s a)) -> forall s, silent (fold_res f l s).
Proof. intro H. induction l as [|a l IH]; intro s; cbn [fold_res]; quiet; [apply H|apply IH]. Qed.
Lemma map_silent {A B} (f : A -> res B) l : (forall a, silent (f a)) -> silent (map_res f l).
Proof. intro H. induction l as [|a l IH]; cbn [map_res]; quiet; [apply H|apply IH]. Qed.
Lemma due_silent today v : silent (env_next_due today v).
Proof. unfold env_next_due. quiet. apply next_silent. Qed.
Lemma fill_silent today l : silent (fill_postings today l).
Proof.
  unfold fill_postings. quiet. apply map_silent. intros (k & a). unfold filling_postings. quiet.
  apply fold_silent. intros (p & ps) v. unfold filling_step, filling_posting, filling_amount, remaining_next, amount_sub. cbv zeta.
  quiet; first [apply due_silent|apply add_silent].
Qed.
Lemma envelopes_silent today l : silent (show_envelopes today l).
Proof.
  unfold show_envelopes. quiet. apply map_silent. intros (k & a). unfold show_account. cbv zeta.
  assert (forall v, silent (show_envelope today v)) as Hv.
  { intro v. unfold show_envelope, make_bar. cbv zeta. quiet. apply due_silent. }
  quiet; apply map_silent; exact Hv.
Qed.
Lemma register_silent tty l b e m : silent (show_register tty l b e m).
Proof. unfold show_register. quiet. Qed.
Lemma balance_says l : spoken (show_balance l) (fun x => exists e, In e (l_entries l)
  /\ has_blank_posting e = true /\ x = EProcessing (NoNativeValue (full_string e))) (fun _ => True).
Proof.
  unfold show_balance, get_totals. apply (spoken_bind _ _ _ (fun _ => True)); [|intros; exact I].
  apply spoken_fold; [|exact I]. intros m e Ie _. apply spoken_fold; [|exact I]. intros m' p _ _. unfold totals_step. cbv zeta.
  destruct (map_get _ _); [|exact I]. destruct (get_amount p); [exact I|]. apply (spoken_bind _ _ _ (fun _ => True)); [|intros; exact I].
  destruct (has_blank_posting e) eqn:B.
  - eapply spoken_weaken; [apply blank_says|intros x ->; exists e; auto|auto].
  - unfold get_blank_amount. rewrite B. exact I.
Qed.
Lemma fill_entry_says today l ps : (forall p, In p ps -> exists ep, p = EnvPosting ep) -> ps <> [] -> silent (add_entry today l (fill_entry today ps)).
Proof.
  intros H N. unfold add_entry. quiet. apply map_silent. intros (k & a). cbn [snd fst]. quiet. unfold acc_process. set (e := fill_entry today ps).
  assert (has_envelope_posting e = true) as He.
  { apply has_envelope_posting_iff. destruct ps as [|p ps]; [contradiction|]. destruct (H p (or_introl eq_refl)) as (ep & ->). exists ep. left. reflexivity. }
  assert (forall vs, silent (map_res (fun v => env_process today v e) vs)) as Hm.
  { intro vs. apply map_silent. intro v. unfold env_process. rewrite He. apply manual_silent. }
  quiet; try apply Hm. change (e_postings e) with ps. clear Hm He N. revert H. generalize (a_real a). clearbody e. induction ps as [|p ps IH]; intros r H; cbn [fold_res]; quiet.
  - unfold real_step. destruct (H p (or_introl eq_refl)) as (ep & ->). cbn [is_envelope negb]. rewrite andb_false_r. quiet.
  - apply IH. intros q Iq. apply H. right. exact Iq.
Qed.
