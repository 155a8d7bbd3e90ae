(** Entries read back from their text (C19). *)
From Coq Require Import ZArith NArith List Bool String Lia.
From Verif Require Import Base Str StrFacts F64 F64Text Date Amount Posting Entry SpecAmount AmountFacts
  AmountParse LineFacts SpecDate DateFormat SpecEntry PostingFacts EntryFacts.
Import ListNotations.

(** ** Blocks of lines *)
Definition same_line (l l' : str) : Prop := l' = trim_end l \/ l' = strip_cr l.
Definition block (ls : list str) : str := List.concat (map (fun l => l ++ [10%N]) ls).
Lemma trim_end_not_In c l : ~ In c l -> ~ In c (trim_end l).
Proof.
  intros N I. destruct (trim_end_spec l) as (w & E & _). apply N. rewrite E. apply in_or_app. left. exact I.
Qed.
Lemma all_ws_block ls : all_ws (block ls) <-> Forall all_ws ls.
Proof.
  unfold block. induction ls as [|l ls IH]; cbn [map List.concat].
  - split; [constructor|reflexivity].
  - rewrite !all_ws_app, IH, Forall_cons_iff. split; [tauto|]. intros [A B]. repeat split; auto.
Qed.
Lemma lines_block ls l0 :
  Forall (fun l => ~ In 10%N l) (ls ++ [l0]) -> ~ all_ws l0 ->
  exists ls', lines (trim_end (block (ls ++ [l0]))) = ls' /\ Forall2 same_line (ls ++ [l0]) ls'.
Proof.
  intros F N. induction ls as [|l ls IH].
  - exists [trim_end l0]. cbn [app] in *. inversion F as [|? ? H _]; subst. split.
    + unfold block. cbn [map List.concat]. rewrite app_nil_r, trim_end_ws by reflexivity.
      apply lines_one; [apply trim_end_not_In, H|]. intro E. apply trim_end_nil_iff in E. contradiction.
    + constructor; [left; reflexivity|constructor].
  - cbn [app] in *. inversion F as [|? ? H F']; subst. destruct (IH F') as (ls' & E & G).
    exists (strip_cr l :: ls'). split; [|constructor; [right; reflexivity|exact G]].
    unfold block in *. cbn [map List.concat]. rewrite trim_end_app.
    + rewrite <- app_assoc. cbn [app]. rewrite lines_app by exact H. rewrite E. reflexivity.
    + intro A. apply (all_ws_block (ls ++ [l0])) in A. rewrite Forall_app in A. destruct A as [_ A].
      inversion A; contradiction.
Qed.
Lemma same_line_split l l' : same_line l l' -> exists w, l = l' ++ w /\ all_ws w.
Proof.
  intros [->| ->].
  - destruct (trim_end_spec l) as (w & E & W & _). exists w. auto.
  - destruct (strip_cr_spec l) as [->|E]; [exists []; rewrite app_nil_r; split; reflexivity|].
    exists [13%N]. split; [exact E|reflexivity].
Qed.
Lemma split_ws_app_all_ws s w : all_ws w -> split_ws (s ++ w) = split_ws s.
Proof.
  revert s. induction w as [|c w IH]; intros s W; [rewrite app_nil_r; reflexivity|].
  apply all_ws_cons in W. destruct W as [C W]. change (c :: w) with ([c] ++ w). rewrite app_assoc, IH by exact W.
  apply split_ws_snoc_ws, C.
Qed.
Lemma same_line_tokens l l' :
  markfree l = true -> same_line l l' -> split_ws (remove_comments l') = split_ws l.
Proof.
  intros M H. destruct (same_line_split l l' H) as (w & -> & W).
  rewrite remove_comments_markfree by (eapply markfree_app_l, M). symmetry. apply split_ws_app_all_ws, W.
Qed.
(** A line with a comment. *)
Lemma same_line_comment b r l' :
  markfree b = true -> same_line (b ++ 32%N :: 47%N :: 47%N :: r) l' ->
  split_ws (remove_comments l') = split_ws b.
Proof.
  intros M H. destruct (same_line_split _ _ H) as (w & E & W).
  assert (exists x, l' = (b ++ [32%N]) ++ 47%N :: 47%N :: x) as (x & ->).
  { replace (b ++ 32%N :: 47%N :: 47%N :: r) with ((b ++ [32%N; 47%N; 47%N]) ++ r) in E
      by (rewrite <- app_assoc; reflexivity).
    destruct (app_split _ _ _ _ E) as [(m & Em & Ew)|(m & Em & Ew)].
    - destruct m as [|c m].
      + rewrite app_nil_r in Em. exists []. rewrite <- Em, <- app_assoc. reflexivity.
      + exfalso. assert (exists m', c :: m = m' ++ [47%N]) as (m' & Em').
        { destruct (exists_last (l := c :: m)) as (m' & y & Ey); [discriminate|]. exists m'.
          rewrite Ey in Em. change ([32%N; 47%N; 47%N]) with ([32%N; 47%N] ++ [47%N]) in Em.
          rewrite !app_assoc in Em. apply app_inj_tail in Em. destruct Em as [_ <-]. exact Ey. }
        rewrite Em' in Ew. rewrite Ew in W. apply all_ws_app in W. destruct W as [W _].
        apply all_ws_app in W. destruct W as [_ W]. discriminate W.
    - exists m. rewrite Em, <- !app_assoc. reflexivity. }
  rewrite remove_comments_cut.
  - apply split_ws_snoc_ws. reflexivity.
  - apply markfree_app; [exact M|reflexivity|discriminate].
  - right. eexists. reflexivity.
  - right. rewrite last_last. discriminate.
Qed.

(** ** The date *)
Lemma markfree_digit_app a b :
  (forall c, In c a -> c <> 59%N /\ c <> 47%N) -> markfree b = true -> markfree (a ++ b) = true.
Proof.
  induction a as [|c a IH]; intros H M; [exact M|]. cbn [app markfree].
  destruct (H c (or_introl eq_refl)) as [N1 N2].
  rewrite (proj2 (N.eqb_neq c 59) N1), (proj2 (N.eqb_neq c 47) N2). cbn [negb andb].
  apply IH; [|exact M]. intros d I. apply H. right. exact I.
Qed.
Lemma number_digit w p v : (0 < w)%nat -> (0 <= v < 10 ^ Z.of_nat w)%Z -> exists c, is_digit c = true /\ In c (number_text w p v).
Proof.
  intros W V. destruct (number_shape w p v W V) as (k & ds & E & D & N & _). destruct ds as [|c ds]; [contradiction|].
  apply andb_true_iff in D. exists c. split; [apply D|]. rewrite E. apply in_or_app. right. left. reflexivity.
Qed.
Lemma date_text_has_digit ps x : (tells_day ps /\ tells_year ps x) \/ tells_week ps x -> (0 <= year x < 10000)%Z ->
  exists c, is_digit c = true /\ In c (date_text ps x).
Proof.
  intros T Y. assert (exists n, has ps n /\ n <> NIsoYear) as (n & (f & I) & Nn).
  { destruct T as [[[[_ T]|[T|[[T|T] _]]] _]|(_ & T & _)]; eexists; (split; [exact T|discriminate]). }
  destruct (number_digit (number_width n) f (number_of x n)) as (c & D & Ic);
    [destruct n; cbn; lia|destruct (number_bounds x n Y) as [[E _]|B]; [contradiction|exact B]|].
  exists c. split; [exact D|]. apply in_flat_map. exists (PNum n f). split; [exact I|exact Ic].
Qed.

(** The default format. *)
Lemma fixed_digit k : forall n c, In c (fixed k n) -> (48 <= c <= 57)%N.
Proof.
  induction k as [|k IH]; intros n c H; [destruct H|]. cbn [fixed] in H. apply in_app_or in H as [H|[<-|[]]]; [apply (IH _ _ H)|].
  unfold dig. pose proof (Z.mod_pos_bound n 10 eq_refl). lia.
Qed.
Lemma default_text x : (0 <= year x)%Z ->
  let s := date_text [PNum NYear ZeroPad; PText 47%N; PNum NMonth ZeroPad; PText 47%N; PNum NDay ZeroPad] x in
  (forall c, In c s -> is_ws c = false) /\ unmarked s.
Proof.
  intro Y. destruct (date_bounds x) as (_ & MB & _). assert (DB := day_bounds x).
  assert (forall k n c, In c (fixed k n) -> c <> 59%N /\ c <> 47%N) as F.
  { intros k n c H. apply fixed_digit in H. lia. }
  unfold date_text. cbn [flat_map piece_shown number_width number_of]. rewrite !number_text_pos by lia. split.
  - intros c H. assert (c = 47%N \/ (48 <= c <= 57)%N) as [->|B].
    { rewrite !in_app_iff in H. pose proof fixed_digit as G.
      destruct H as [H|[[H|[]]|[H|[[H|[]]|[H|[]]]]]]; first [right; eapply G; exact H|left; symmetry; exact H]. }
    + reflexivity.
    + apply digit_not_ws. unfold is_digit. apply andb_true_intro. split; apply N.leb_le; lia.
  - apply markfree_iff. apply markfree_digit_app; [apply F|].
    assert (forall k n b, (0 < k)%nat -> markfree b = true -> markfree ([47%N] ++ fixed k n ++ b) = true) as M.
    { intros k n b K B. cbn [app]. apply markfree_cons. split; [|apply markfree_digit_app; [apply F|exact B]].
      assert (fixed k n <> []) as Nn by (destruct k; [lia|cbn [fixed]; intro E; symmetry in E; apply app_cons_not_nil in E; exact E]).
      pose proof (F k n) as Fk. destruct (fixed k n) as [|c r]; [contradiction|].
      intros [[t E]|[t E]]; [discriminate|]. cbn [app] in E. injection E as E _. subst c. apply (Fk 47%N (or_introl eq_refl)). reflexivity. }
    apply M; [lia|]. apply M; [lia|]. reflexivity.
Qed.

(** ** Words *)
Lemma token_words ws : Forall token ws -> Forall is_token ws.
Proof. intro F. eapply Forall_impl; [|exact F]. intros a. apply token_iff. Qed.
Lemma words_split s : words_text s -> join (lit " ") (split_ws s) = s.
Proof. intros (ws & F & ->). rewrite split_ws_join by (apply token_words, F). reflexivity. Qed.
Lemma join_app l l' : l <> [] -> l' <> [] ->
  join (lit " ") (l ++ l') = join (lit " ") l ++ 32%N :: join (lit " ") l'.
Proof.
  intros N N'. induction l as [|x l IH]; [contradiction|]. destruct l as [|y l].
  - cbn [app join]. destruct l'; [contradiction|]. reflexivity.
  - change ((x :: y :: l) ++ l') with (x :: (y :: l) ++ l').
    assert (join (lit " ") (x :: (y :: l) ++ l') = x ++ lit " " ++ join (lit " ") ((y :: l) ++ l')) as -> by reflexivity.
    rewrite IH by discriminate. cbn [join]. rewrite <- !app_assoc. reflexivity.
Qed.
(** Brackets around words are words. *)
Lemma bracket_words p : words_text p -> words_text (91%N :: p ++ [93%N]).
Proof.
  intros (ws & F & ->). destruct ws as [|w ws].
  - exists [[91%N; 93%N]]. split; [|reflexivity]. constructor; [|constructor]. apply token_iff. split; [discriminate|reflexivity].
  - assert (exists us, Forall token us /\ join (lit " ") (w :: ws) ++ [93%N] = join (lit " ") us /\ us <> []) as (us & Fu & E & Nu).
    { clear - F. revert w F. induction ws as [|v ws IH]; intros w F.
      - exists [w ++ [93%N]]. split; [|split; [reflexivity|discriminate]]. constructor; [|constructor].
        inversion F as [|? ? T _]; subst. apply token_iff in T. apply token_iff. destruct T as [N W].
        split; [destruct w; discriminate|]. apply no_ws_app. split; [exact W|reflexivity].
      - inversion F as [|? ? T F']; subst. destruct (IH v F') as (us & Fu & E & Nu).
        exists (w :: us). split; [constructor; assumption|]. split; [|discriminate].
        destruct us as [|u us]; [contradiction|].
        change (join (lit " ") (w :: v :: ws)) with (w ++ lit " " ++ join (lit " ") (v :: ws)).
        change (join (lit " ") (w :: u :: us)) with (w ++ lit " " ++ join (lit " ") (u :: us)).
        rewrite <- E, <- !app_assoc. reflexivity. }
    destruct us as [|u us]; [contradiction|]. exists ((91%N :: u) :: us). split.
    + inversion Fu as [|? ? T Fu']; subst. constructor; [|exact Fu']. apply token_iff in T. apply token_iff.
      destruct T as [N W]. split; [discriminate|]. apply no_ws_cons. split; [reflexivity|exact W].
    + rewrite E. destruct us; reflexivity.
Qed.
Lemma words_trimmed s : words_text s -> trimmed s.
Proof.
  intros (ws & F & ->). assert (T := token_words ws F). destruct ws as [|w ws]; [split; exact I|]. split.
  - inversion T as [|? ? [N W] _]; subst. destruct w as [|c w]; [contradiction|]. apply no_ws_cons in W.
    destruct ws; cbn [join app]; apply W.
  - destruct (exists_last (l := w :: ws)) as (us & u & E); [discriminate|]. rewrite E in *.
    rewrite Forall_app in T. destruct T as [_ T]. inversion T as [|? ? [N W] _]; subst.
    assert (exists a, join (lit " ") (us ++ [u]) = a ++ u) as (a & ->).
    { destruct us as [|v us]; [exists []; reflexivity|]. rewrite join_app by discriminate.
      exists (join (lit " ") (v :: us) ++ [32%N]). rewrite <- app_assoc. reflexivity. }
    rewrite rev_app_distr. apply no_ws_rev in W.
    destruct (rev u) as [|c t] eqn:Er; [assert (E' := rev_involutive u); rewrite Er in E'; cbn in E'; congruence|].
    cbn [app]. apply no_ws_cons in W. apply W.
Qed.

(** ** The header *)
Definition base (fmt : str) (e : entry) : str :=
  format_date fmt (e_date e) ++ 32%N :: status_char (e_status e) :: 32%N :: e_desc e
  ++ match e_payee e with Some p => 32%N :: 91%N :: p ++ [93%N] | None => [] end.
Lemma header_base fmt e :
  show_entry_header fmt e
  = base fmt e ++ match e_comment e with Some c => 32%N :: 47%N :: 47%N :: 32%N :: c | None => [] end.
Proof.
  unfold show_entry_header, base. cbv zeta. change (chr " ") with 32%N.
  change (lit " [") with [32%N; 91%N]. change (lit "]") with [93%N]. change (lit " // ") with [32%N; 47%N; 47%N; 32%N].
  destruct (e_payee e), (e_comment e);
    repeat (progress (rewrite <- ?app_assoc, ?app_nil_r; cbn [app])); reflexivity.
Qed.

Section Entry.
Variables (fmt : str) (ps : list piece) (accounts : list str) (e : entry).
Hypothesis Pat : pattern fmt ps (e_date e).
Hypothesis NoWs : forall c, In c (date_text ps (e_date e)) -> is_ws c = false.
Hypothesis Unm : unmarked (date_text ps (e_date e)).
Hypothesis W : writable_entry accounts e.

Lemma date_shown : format_date fmt (e_date e) = date_text ps (e_date e).
Proof. apply format_date_pattern; [exact Pat|apply W]. Qed.
Lemma date_token : is_token (format_date fmt (e_date e)).
Proof.
  rewrite date_shown. split; [|apply no_ws_In, NoWs]. intro E.
  destruct (date_text_has_digit ps (e_date e)) as (c & _ & I); [apply Pat|apply W|]. rewrite E in I. destruct I.
Qed.
Lemma base_markfree : markfree (base fmt e) = true.
Proof.
  destruct W as (_ & _ & Md & _ & Mp & _). apply markfree_iff in Md.
  unfold base. apply markfree_app; [|apply markfree_space|discriminate].
  - rewrite date_shown. apply markfree_iff, Unm.
  - change (status_char (e_status e) :: 32%N :: e_desc e ++ _) with
      ([status_char (e_status e)] ++ 32%N :: e_desc e ++
        match e_payee e with Some p => 32%N :: 91%N :: p ++ [93%N] | None => [] end).
    apply markfree_app; [destruct (e_status e); reflexivity| |discriminate].
    apply markfree_space. destruct (e_payee e) as [p|]; [|rewrite app_nil_r; exact Md].
    apply markfree_app; [exact Md| |discriminate]. apply markfree_space.
    destruct Mp as [_ Mp]. apply markfree_iff in Mp. change (91%N :: p ++ [93%N]) with ([91%N] ++ p ++ [93%N]).
    apply markfree_digit_app; [intros c [<-|[]]; split; discriminate|].
    apply markfree_app; [exact Mp|reflexivity|discriminate].
Qed.
Lemma base_tokens : split_ws (base fmt e) =
  format_date fmt (e_date e) :: [status_char (e_status e)]
  :: split_ws (e_desc e ++ match e_payee e with Some p => 32%N :: 91%N :: p ++ [93%N] | None => [] end).
Proof.
  unfold base. rewrite split_ws_tok; [|exact date_token|reflexivity]. rewrite split_ws_space. f_equal.
  change (status_char (e_status e) :: 32%N :: e_desc e ++ _) with
      ([status_char (e_status e)] ++ 32%N :: e_desc e ++
        match e_payee e with Some p => 32%N :: 91%N :: p ++ [93%N] | None => [] end).
  rewrite split_ws_tok, split_ws_space; [reflexivity| |reflexivity].
  split; [discriminate|destruct (e_status e); reflexivity].
Qed.
Lemma header_words : payee_split
  (join (lit " ") (split_ws (e_desc e ++ match e_payee e with Some p => 32%N :: 91%N :: p ++ [93%N] | None => [] end)))
  (e_desc e) (e_payee e).
Proof.
  destruct W as (_ & Wd & _ & Nb & Wp & _). destruct (e_payee e) as [p|].
  - destruct Wp as [Wp _]. rewrite split_ws_app_ws by reflexivity. rewrite split_ws_space.
    assert (B := words_split _ (bracket_words p Wp)). assert (D := words_split _ Wd).
    assert (split_ws (91%N :: p ++ [93%N]) <> []) as Nn by (intro E; rewrite E in B; discriminate).
    right. destruct (split_ws (e_desc e)) as [|d ds] eqn:Ed.
    + cbn [app]. rewrite B. exists [], p, []. cbn [join] in D. rewrite <- D. repeat split; try (intros []); try reflexivity.
      f_equal. symmetry. apply trim_id, words_trimmed, Wp.
    + rewrite join_app, B, D by (try assumption; discriminate).
      exists (e_desc e ++ [32%N]), p, []. split; [rewrite <- app_assoc; reflexivity|].
      split; [|split; [intros []|split]].
      * intro I. apply in_app_or in I. destruct I as [I|[I|[]]]; [contradiction|discriminate].
      * symmetry. apply (trim_wrap [] (e_desc e) [32%N]); [reflexivity|reflexivity|apply words_trimmed, Wd].
      * f_equal. symmetry. apply trim_id, words_trimmed, Wp.
  - rewrite app_nil_r. left. rewrite (words_split _ Wd). auto.
Qed.
Lemma header_line h :
  same_line (show_entry_header fmt e) h ->
  header_reads fmt h (e_date e) (e_status e) (e_desc e) (e_payee e).
Proof.
  intro S. exists (format_date fmt (e_date e)), [status_char (e_status e)],
    (split_ws (e_desc e ++ match e_payee e with Some p => 32%N :: 91%N :: p ++ [93%N] | None => [] end)).
  split; [|split; [|split; [apply sign_status|apply header_words]]].
  - transitivity (split_ws (base fmt e)); [|apply base_tokens]. rewrite header_base in S. destruct (e_comment e) as [c|].
    + eapply same_line_comment; [apply base_markfree|exact S].
    + rewrite app_nil_r in S. apply same_line_tokens; [apply base_markfree|exact S].
  - eapply parse_format_date; [exact Pat|apply W].
Qed.

(** Lines contain no line feed. *)
Lemma token_no_lf s : is_token s -> ~ In 10%N s.
Proof. intros [_ H] I. apply no_ws_In with (c := 10%N) in H; [discriminate|exact I]. Qed.
Lemma words_no_lf s : words_text s -> ~ In 10%N s.
Proof.
  intros (ws & F & ->). apply token_words in F. induction F as [|w ws T F IH]; [intros []|].
  assert (N := token_no_lf w T). destruct ws as [|v ws]; [exact N|].
  change (join (lit " ") (w :: v :: ws)) with (w ++ [32%N] ++ join (lit " ") (v :: ws)).
  intro I. apply in_app_or in I. destruct I as [I|[I|I]]; [contradiction|discriminate|contradiction].
Qed.
Lemma amount_no_lf a : writable a -> ~ In 10%N (show_amount a).
Proof.
  intro Wa. assert (N := token_no_lf _ (number_token a Wa)). unfold show_amount.
  set (m := if fltb (mag a) fzero then _ else _).
  assert (~ In 10%N m) as Nm.
  { subst m. destruct (fltb (mag a) fzero); [exact N|]. intros [E|I]; [discriminate|contradiction]. }
  destruct (symbol a) as [sym|] eqn:Es; [|exact Nm].
  destruct (writable_sym a sym Wa Es) as (T & _). apply token_no_lf in T.
  destruct (Nat.leb (byte_len sym) 2); intro I; apply in_app_or in I; destruct I as [I|I]; try contradiction.
  destruct I as [I|I]; [discriminate|contradiction].
Qed.
Lemma spaces_no_lf n : ~ In 10%N (spaces n).
Proof. intro I. apply repeat_spec in I. discriminate. Qed.
Lemma name_ok_no_lf s : name_ok s -> ~ In 10%N s.
Proof. intros [T _]. apply token_no_lf, token_iff, T. Qed.
Lemma not_in_app (x : char) (a b : str) : ~ In x a -> ~ In x b -> ~ In x (a ++ b).
Proof. intros A B I. apply in_app_or in I. tauto. Qed.
Lemma not_in_cons (x c : char) (a : str) : c <> x -> ~ In x a -> ~ In x (c :: a).
Proof. intros A B [I|I]; congruence. Qed.
Lemma posting_no_lf p : writable_posting accounts p -> ~ In 10%N (show_posting p).
Proof.
  destruct p as [c|v]; cbn [writable_posting show_posting].
  - intros (Nm & _ & _ & Wa & Wc & Wb). unfold show_classic, pad_right. cbv zeta.
    repeat first [apply not_in_app | apply not_in_cons]; try discriminate.
    + apply name_ok_no_lf, Nm.
    + apply spaces_no_lf.
    + destruct (c_amount c); [apply amount_no_lf, Wa|intros []].
    + destruct (c_cost c) as [k|]; [|intros []]. apply not_in_cons; [discriminate|].
      destruct k; cbn [show_cost]; apply not_in_app; try (apply amount_no_lf, Wc);
        cbn; intros H; repeat (destruct H as [H|H]; [discriminate|]); destruct H.
    + destruct (c_balance c); [|intros []]. apply not_in_app; [|apply amount_no_lf, Wb].
      cbn; intros H; repeat (destruct H as [H|H]; [discriminate|]); destruct H.
  - intros (Na & Ne & Wa). unfold show_envposting, pad_right. cbv zeta.
    repeat first [apply not_in_app | apply not_in_cons]; try discriminate.
    + cbn; intros H; repeat (destruct H as [H|H]; [discriminate|]); destruct H.
    + apply name_ok_no_lf, Na.
    + apply name_ok_no_lf, Ne.
    + apply spaces_no_lf.
    + apply amount_no_lf, Wa.
Qed.
Lemma header_no_lf : ~ In 10%N (show_entry_header fmt e).
Proof.
  rewrite header_base. unfold base. destruct W as (_ & Wd & _ & _ & Wp & Wc & _).
  repeat first [apply not_in_app | apply not_in_cons]; try discriminate.
  - apply token_no_lf, date_token.
  - destruct (e_status e); discriminate.
  - apply words_no_lf, Wd.
  - destruct (e_payee e) as [p|]; [|intros []]. repeat first [apply not_in_cons; [discriminate|]].
    apply not_in_app; [apply words_no_lf, Wp|]. intros [E|[]]; discriminate.
  - destruct (e_comment e) as [c|]; [|intros []]. repeat (apply not_in_cons; [discriminate|]). exact Wc.
Qed.

Definition posting_line (p : posting) : str := lit "    " ++ show_posting p.
Lemma show_entry_block : show_entry fmt e = block (show_entry_header fmt e :: map posting_line (e_postings e)).
Proof.
  unfold show_entry, block, posting_line. cbn [map List.concat]. rewrite <- app_assoc. cbn [app]. f_equal. f_equal.
  f_equal. rewrite map_map. apply map_ext. intro p. rewrite <- app_assoc. reflexivity.
Qed.
Lemma posting_tokens_nonempty p : writable_posting accounts p -> split_ws (show_posting p) <> [].
Proof.
  destruct p as [c|v]; cbn [writable_posting show_posting].
  - intros ((T & _) & _). rewrite show_classic_tokens by (apply token_iff, T). discriminate.
  - intros ((T & _) & (T' & _) & _). rewrite show_envposting_tokens by (apply token_iff; assumption). discriminate.
Qed.
Lemma posting_line_not_ws p : writable_posting accounts p -> ~ all_ws (posting_line p).
Proof.
  intros Wp H. unfold posting_line in H. apply all_ws_app in H. destruct H as [_ H].
  apply split_ws_nil in H. exact (posting_tokens_nonempty p Wp H).
Qed.
Lemma posting_line_reads p l :
  writable_posting accounts p -> same_line (posting_line p) l ->
  parse_posting l 46%N accounts = Ok (to8_posting p) /\ trim l <> [].
Proof.
  intros Wp S. assert (M := show_posting_markfree accounts p Wp).
  assert (markfree (posting_line p) = true) as M'
    by (unfold posting_line; change (lit "    ") with (spaces 4); repeat apply markfree_space; exact M).
  assert (E := same_line_tokens _ _ M' S). split.
  - apply (parse_posting_tokens _ (show_posting p)); [|exact (parse_show_posting accounts p Wp)]. rewrite E.
    rewrite (remove_comments_markfree _ M). unfold posting_line. apply split_ws_ws. reflexivity.
  - intro H. apply trim_nil in H. destruct (same_line_split _ _ S) as (w & Ew & Ww).
    apply (posting_line_not_ws p Wp). rewrite Ew. apply all_ws_app. auto.
Qed.

Lemma to8_blanks l : blanks (map to8_posting l) = blanks l.
Proof.
  unfold blanks. induction l as [|p l IH]; [reflexivity|]. cbn [map filter].
  assert ((match get_amount (to8_posting p) with None => true | Some _ => false end)
        = match get_amount p with None => true | Some _ => false end) as ->.
  { destruct p as [c|v]; [|reflexivity]. cbn. destruct (c_amount c); reflexivity. }
  destruct (match get_amount p with None => true | Some _ => false end); cbn [List.length]; rewrite IH; reflexivity.
Qed.
Lemma to8_named l : named (map to8_posting l) = named l.
Proof.
  unfold named, written. induction l as [|p l IH]; [reflexivity|]. cbn [map flat_map].
  rewrite !flat_map_app, IH. f_equal. destruct p as [c|v]; [|reflexivity]. cbn. destruct (c_amount c); reflexivity.
Qed.

Lemma parse_show_entry :
  parse_entry (show_entry fmt e) fmt 46%N accounts
  = Ok (mkEntry (e_date e) (e_status e) (e_desc e) (e_payee e) None (map to8_posting (e_postings e))).
Proof.
  apply parse_entry_Ok. cbn [e_date e_status e_desc e_payee e_comment e_postings].
  assert (exists h ls, lines (trim (show_entry fmt e)) = h :: ls
    /\ same_line (show_entry_header fmt e) h /\ Forall2 same_line (map posting_line (e_postings e)) ls) as (h & ls & E & Sh & Sl).
  { rewrite show_entry_block.
    set (L := show_entry_header fmt e :: map posting_line (e_postings e)).
    assert (trim (block L) = trim_end (block L)) as ->.
    { unfold trim. f_equal. apply trim_start_id. subst L. unfold block. cbn [map List.concat].
      rewrite header_base. unfold base. destruct date_token as [N T].
      destruct (format_date fmt (e_date e)) as [|c t]; [contradiction|]. cbn [app]. apply no_ws_cons in T. apply T. }
    assert (Forall (fun l => ~ In 10%N l) L) as F.
    { subst L. constructor; [exact header_no_lf|]. apply Forall_map. destruct W as (_ & _ & _ & _ & _ & _ & Wp & _).
      eapply Forall_impl; [|exact Wp]. intros p Hp. unfold posting_line.
      apply not_in_app; [|apply posting_no_lf, Hp].
      cbn; intros H; repeat (destruct H as [H|H]; [discriminate|]); destruct H. }
    destruct (exists_last (A := str) (l := L)) as (L' & l0 & EL); [discriminate|].
    assert (~ all_ws l0) as N0.
    { assert (In l0 L) as I by (rewrite EL; apply in_or_app; right; left; reflexivity). subst L. destruct I as [<-|I].
      - rewrite header_base. intro H. unfold base in H. rewrite <- app_assoc in H. apply all_ws_app in H.
        destruct H as [H _]. destruct date_token as [N T].
        destruct (format_date fmt (e_date e)) as [|c t]; [contradiction|].
        apply all_ws_cons in H. apply no_ws_cons in T. destruct H, T. congruence.
      - apply in_map_iff in I. destruct I as (p & <- & Ip). apply posting_line_not_ws.
        destruct W as (_ & _ & _ & _ & _ & _ & Wp & _). rewrite Forall_forall in Wp. apply Wp, Ip. }
    rewrite EL in F. destruct (lines_block L' l0 F N0) as (ls' & El & Fs).
    assert (lines (trim_end (block L)) = ls') as El2 by (rewrite EL; exact El).
    assert (Forall2 same_line L ls') as Fs2 by (rewrite EL; exact Fs). rewrite El2. clear El Fs F. subst L. inversion Fs2 as [|? h ? ls Sh Sl]; subst. exists h, ls. auto. }
  exists h, ls. split; [exact E|]. split; [apply header_line, Sh|]. split; [reflexivity|]. split.
  - destruct W as (_ & _ & _ & _ & _ & _ & Wp & _). clear - Sl Wp.
    revert ls Sl. induction Wp as [|p l Hp _ IH]; intros ls Sl; cbn [map] in *; inversion Sl as [|? l1 ? ls1 S1 Sl1]; subst.
    + constructor.
    + cbn [filter]. destruct (posting_line_reads p l1 Hp S1) as [P N].
      destruct (trim l1); [contradiction|]. constructor; [exact P|apply IH, Sl1].
  - destruct W as (_ & _ & _ & _ & _ & _ & _ & A). unfold acceptable in *. rewrite to8_blanks, to8_named. exact A.
Qed.
End Entry.
