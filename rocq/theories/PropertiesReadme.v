(** Properties C82 to C86: one-time due dates, and promises of the README about
    assertions, currencies, envelope postings and kinds of envelopes. *)
From Coq Require Import ZArith NArith List Bool String Lia.
From Verif Require Import Base Str F64 Date World Amount Posting Entry Envelope Account Register Ledger
  SpecAmount SpecDate SpecEntry SpecEnvelope SpecDefinition SpecReadme
  StrFacts LineFacts EntryFacts PostingFacts DateFormat DateFacts DefinitionFacts DueFacts LedgerFacts AlikeFacts.
Import ListNotations.
Local Open Scope Z_scope.

Definition text (ls : list string) : str := join [10%N] (map lit ls).
Definition empty_world : world := mkWorld (fun _ => None) (fun _ => false) [].
(** A journal without includes. *)
Definition journal (today : date) (ls : list string) : res lw :=
  add_from_str today (fun p _ => Err (EFile p)) (text ls) (new_ledger (lit "j"), empty_world).

(** ** C82 *)
Theorem C82_partial : forall today v, v_starting v = None ->
  (forall d, v_freq v = Once d ->
     (earlier today d -> env_next_due today v = Ok (Some d))
     /\ (not_later d today -> env_next_due today v = Ok None))
  /\ (v_freq v = Never -> env_next_due today v = Ok None).
Proof.
  intros today v S. unfold env_next_due. rewrite S. split.
  - intros d F. rewrite F. cbn [freq_next bind].
    destruct (date_leb d today) eqn:E.
    + apply date_leb_iff in E. split; [intro H; apply not_later_dayn in E; apply earlier_dayn in H; lia|reflexivity].
    + split; [reflexivity|]. intro H. apply date_leb_iff in H. congruence.
  - intro F. rewrite F. reflexivity.
Qed.
Print Assumptions C82_partial.

(** What a start does to it: it is due on the start, even when both are past. *)
Theorem C82_start : forall today v s, v_starting v = Some s ->
  (forall d, v_freq v = Once d ->
     env_next_due today v = Ok (Some (if date_ltb today d then if date_ltb s d then d else s else s)))
  /\ (v_freq v = Never -> env_next_due today v = Ok (Some s)).
Proof.
  intros today v s S. unfold env_next_due. rewrite S. split.
  - intros d F. rewrite F. cbn [freq_next bind]. f_equal. rewrite date_leb_dayn, !date_ltb_dayn.
    destruct (Z.leb_spec (dayn d) (dayn today)), (Z.ltb_spec (dayn today) (dayn d)); try lia; [reflexivity|]. unfold date_max. rewrite date_ltb_dayn.
    destruct (Z.ltb_spec (dayn d) (dayn s)), (Z.ltb_spec (dayn s) (dayn d)); try lia; try reflexivity.
    f_equal. apply dayn_inj. lia.
  - intro F. rewrite F. reflexivity.
Qed.
Print Assumptions C82_start.

Theorem C82_refuted : exists today v w s,
  parse_envelope (lit "goal camera by 2020/12/25 starting 2020/06/01") (lit "assets:savings") 46%N default_format = Ok v
  /\ parse_envelope (lit "goal boat no date starting 2020/06/01") (lit "assets:savings") 46%N default_format = Ok w
  /\ (year today, month today, day today) = (2024, 1, 1)
  /\ env_next_due today v = Ok (Some s) /\ env_next_due today w = Ok (Some s)
  /\ (year s, month s, day s) = (2020, 6, 1).
Proof.
  exists (mkDate 2024 1 1 eq_refl). eexists. eexists. exists (mkDate 2020 6 1 eq_refl).
  repeat split; vm_compute; reflexivity.
Qed.
Print Assumptions C82_refuted.

(** ** C83 *)
Theorem C83_partial : forall today l m, alike l m ->
  (forall e f, alike_entry e f -> outcomes alike (add_entry today l e) (add_entry today m f))
  /\ (forall fuel p w, outcomes (fun s t => alike (fst s) (fst t) /\ snd s = snd t)
        (add_from_file fuel today p (l, w)) (add_from_file fuel today p (m, w)))
  /\ outcomes eq (show_balance l) (show_balance m)
  /\ show_envelopes today l = show_envelopes today m
  /\ (forall tty b e a, show_register tty l b e a = show_register tty m b e a)
  /\ fill_postings today l = fill_postings today m.
Proof.
  intros today l m A. pose proof A as (_ & AF & AA & _). apply alike_iff in A.
  split; [|split; [|split; [|split; [|split]]]].
  - intros e f B. apply alike_entry_iff in B. apply (outcomes_iff fl); [apply alike_iff|].
    rewrite !f_add_entry, A, B. reflexivity.
  - intros fuel p w. apply (outcomes_iff gl).
    + intros [a u] [b v]. rewrite alike_iff. unfold gl. cbn [fst snd]. split; [intros [-> ->]; reflexivity|intro E; injection E as E1 E2 E3 E4 E5].
      split; [unfold fl; congruence|assumption].
    + apply blind_step; [apply blind_file|]. unfold gl. cbn [fst snd]. rewrite A. reflexivity.
  - unfold show_balance. pose proof (f_totals l) as T. rewrite A, f_totals in T.
    destruct (get_totals l), (get_totals m); cbn in *; try discriminate; try exact I; congruence.
  - unfold show_envelopes. rewrite AA. reflexivity.
  - intros tty b e a. unfold show_register. rewrite <- (f_display tty (l_entries l)), <- (f_display tty (l_entries m)), AF.
    apply (f_equal l_entries) in A. cbn in A. rewrite A. reflexivity.
  - unfold fill_postings. rewrite AA. reflexivity.
Qed.
Print Assumptions C83_partial.

(** Two lines that differ only in the clause of [!] are read alike. *)
Theorem C83_line : forall line line' dsym accounts name amt cl cl' p q,
  split_ws (remove_comments line) = name :: amt ++ clause_tokens cl ->
  split_ws (remove_comments line') = name :: amt ++ clause_tokens cl' ->
  name <> lit "envelope" -> clauses_ok amt cl -> clauses_ok amt cl' ->
  clause_of (lit "@") cl = clause_of (lit "@") cl' -> clause_of (lit "=") cl = clause_of (lit "=") cl' ->
  parse_posting line dsym accounts = Ok p -> parse_posting line' dsym accounts = Ok q ->
  alike_posting p q.
Proof.
  intros line line' d acc name amt cl cl' p q L L' N C C' U T P Q.
  assert (K : forall l r, split_ws (remove_comments l) = name :: r -> forall x, parse_posting l d acc = Ok x -> exists c, x = Classic c).
  { intros l r E x H. rewrite parse_posting_markfree, E in H. destruct (str_eqb name (lit "envelope")) eqn:B.
    - apply str_eqb_eq in B. contradiction.
    - destruct (parse_classic (remove_comments l) d acc); cbn in H; try discriminate. injection H as <-. eauto. }
  destruct (K _ _ L _ P) as (c & ->). destruct (K _ _ L' _ Q) as (c' & ->).
  apply (posting_clauses line d acc name amt cl c L N C) in P as (A1 & _ & A2 & _ & A3).
  apply (posting_clauses line' d acc name amt cl' c' L' N C') in Q as (B1 & _ & B2 & _ & B3).
  assert (R : forall ts o o', reads d ts o -> reads d ts o' -> o = o').
  { intros [ts|] o o'; cbn; [|congruence]. intros (a & Ea & ->) (b & Eb & ->). congruence. }
  cbn. split; [congruence|]. split; [exact (R _ _ _ A2 B2)|].
  rewrite <- U in B3. destruct (clause_of (lit "@") cl) as [ts|].
  - destruct A3 as (u & A3 & ->), B3 as (u' & B3 & ->). specialize (R _ _ _ A3 B3). congruence.
  - rewrite <- T in B3. destruct A3 as (u & A3 & ->), B3 as (u' & B3 & ->). specialize (R _ _ _ A3 B3). congruence.
Qed.
Print Assumptions C83_line.

Definition false_claim : list string :=
  ["account assets:checking"; "account assets:new_acct";
   "2019/08/02 * Account closure"; "    assets:checking -100 ! 0"; "    assets:new_acct  100"]%string.
Theorem C83_refuted : exists today l w t,
  journal today false_claim = Ok (l, w)
  /\ ~ assertions_hold (flat_map e_postings (l_entries l))
  /\ show_balance l = Ok t
  /\ t = pad_right 35 (lit "assets:checking") ++ lit "    -100" ++ [10%N]
      ++ pad_right 35 (lit "assets:new_acct") ++ lit "     100" ++ [10%N].
Proof.
  exists (mkDate 2024 1 1 eq_refl).
  destruct (journal (mkDate 2024 1 1 eq_refl) false_claim) as [[l w]| | |] eqn:E.
  2-4: vm_compute in E; discriminate.
  exists l, w. eexists. split; [reflexivity|].
  vm_compute in E. injection E as <- <-. split; [|split; vm_compute; reflexivity].
  intro H. cbn [flat_map e_postings l_entries app] in H.
  specialize (H [] _ _ _ _ eq_refl eq_refl eq_refl). vm_compute in H. discriminate.
Qed.
Print Assumptions C83_refuted.

Example C83_case :
  match journal (mkDate 2024 1 1 eq_refl) false_claim,
        journal (mkDate 2024 1 1 eq_refl) (map (fun s => if String.eqb s "    assets:checking -100 ! 0" then "    assets:checking -100" else s)%string false_claim) with
  | Ok (l, _), Ok (m, _) => l <> m /\ alike l m
  | _, _ => False
  end.
Proof. vm_compute. split; [discriminate|]. repeat (constructor; try reflexivity). Qed.

(** ** C84 *)

(** Setting a currency changes nothing else, and nothing depends on it. *)
Theorem C84_partial : forall l c m, set_currency l (Some c) = Ok m -> alike l m.
Proof.
  intros l c m H. injection H as <-. apply alike_iff. reflexivity.
Qed.
Print Assumptions C84_partial.

Definition in_dollars : list string :=
  ["currency $"; "account assets:cash"; "account income"; "2019/08/02 * a"; " assets:cash $5"; " income $-5";
   "2019/08/03 * b"; " assets:cash 7"; " income -7"]%string.
Theorem C84_refuted : exists today l w p,
  journal today in_dollars = Ok (l, w) /\ l_currency l = lit "$"
  /\ (let! m := get_totals l in Ok (map_get (lit "assets:cash") m)) = Ok (Some p)
  /\ map (fun a => (symbol a, show_amount a)) p = [(Some (lit "$"), lit "$ 5"); (None, lit " 7")].
Proof.
  exists (mkDate 2024 1 1 eq_refl).
  destruct (journal (mkDate 2024 1 1 eq_refl) in_dollars) as [[l w]| | |] eqn:E.
  2-4: vm_compute in E; discriminate.
  exists l, w. eexists. split; [reflexivity|].
  vm_compute in E. injection E as <- <-. repeat split; vm_compute; reflexivity.
Qed.
Print Assumptions C84_refuted.

(** ** C85 *)
Theorem C85_partial : forall line dsym accounts a n ts x,
  split_ws (remove_comments line) = lit "envelope" :: a :: n :: ts ->
  (parse_posting line dsym accounts = Ok x <->
   exists m, parse_amount (List.concat ts) dsym = Ok m /\ x = EnvPosting (mkEnvPosting a n m)).
Proof.
  intros line d acc a n ts x E. rewrite parse_posting_markfree, E. rewrite str_eqb_refl. unfold parse_envposting. rewrite split_ws_trim, E. cbn [skipn].
  destruct (parse_amount (List.concat ts) d) as [m| | |]; cbn [bind]; split; try discriminate; try (intros (? & ? & ?); discriminate).
  - intro H. injection H as <-. eauto.
  - intros (m' & H & ->). injection H as <-. reflexivity.
Qed.
Print Assumptions C85_partial.

(** The short form is never read. *)
Theorem C85_short : forall line dsym accounts n,
  split_ws (remove_comments line) = [lit "envelope"; n] ->
  parse_posting line dsym accounts = Err (EParse (NoEnvelopeName (trim (remove_comments line)))).
Proof.
  intros line d acc n E. rewrite parse_posting_markfree, E, str_eqb_refl. unfold parse_envposting. rewrite split_ws_trim, E. reflexivity.
Qed.
Print Assumptions C85_short.

Theorem C85_refuted : exists p,
  parse_posting (lit "envelope food assets:checking -50") 46%N [lit "assets:checking"] = Ok (EnvPosting p)
  /\ ep_account p = lit "food" /\ ep_envelope p = lit "assets:checking"
  /\ parse_posting (lit "envelope food") 46%N [lit "assets:checking"] = Err (EParse (NoEnvelopeName (lit "envelope food"))).
Proof. eexists. repeat split; vm_compute; reflexivity. Qed.
Print Assumptions C85_refuted.

Example C85_case : exists p,
  parse_posting (lit "    envelope assets:checking food   -50 // weekly") 46%N [] = Ok (EnvPosting p)
  /\ ep_account p = lit "assets:checking" /\ ep_envelope p = lit "food" /\ show_amount (ep_amount p) = lit "-50".
Proof. eexists. repeat split; vm_compute; reflexivity. Qed.

(** ** C86 *)
Local Notation kinded k := (fun a b => b = with_kind k a).

Lemma kind_fold {A} k (f : envelope -> A -> res envelope) l :
  (forall v x, outcomes (kinded k) (f v x) (f (with_kind k v) x)) ->
  forall v, outcomes (kinded k) (fold_res f l v) (fold_res f l (with_kind k v)).
Proof.
  intro H. induction l as [|x l IH]; intro v; [reflexivity|]. cbn. specialize (H v x).
  destruct (f v x), (f (with_kind k v) x); cbn in *; try (destruct H; fail); auto. subst. apply IH.
Qed.
Lemma kind_apply k today a d v : outcomes (kinded k) (apply_amount today v a d) (apply_amount today (with_kind k v) a d).
Proof.
  unfold apply_amount. change (v_now (with_kind k v)) with (v_now v). change (v_next (with_kind k v)) with (v_next v).
  change (v_freq (with_kind k v)) with (v_freq v).
  destruct (fltb (mag a) fzero).
  { destruct (amount_add (v_now v) a); reflexivity. }
  destruct (fltb fzero (mag a)); [|reflexivity].
  destruct (freq_last today (v_freq v)) as [[l|]| | |]; cbn [bind]; try reflexivity; [destruct (date_ltb d l)|];
    [destruct (amount_add (v_now v) a)|destruct (amount_add (v_next v) a)..]; reflexivity.
Qed.
Lemma kind_process k today v e : outcomes (kinded k) (env_process today v e) (env_process today (with_kind k v) e).
Proof.
  unfold env_process. destruct (has_envelope_posting e).
  - apply kind_fold. intros u [c|p]; [reflexivity|]. cbn. destruct (_ && _); [apply kind_apply|reflexivity].
  - unfold infer, count_self, count_auto. cbn [v_account v_auto v_amount with_kind].
    destruct (_ || _); [reflexivity|].
    change (infer_step (with_kind k v) e) with (infer_step v e).
    destruct (fold_res (infer_step v e) (e_postings e) _) as [[auto self]| | |]; cbn [bind]; try reflexivity.
    destruct (negb _); [apply kind_apply|reflexivity].
Qed.
Lemma kind_line k d v line : outcomes (kinded k) (add_body_line d v line) (add_body_line d (with_kind k v) line).
Proof.
  unfold add_body_line. destruct (split_ws _) as [|key more]; [reflexivity|]. destruct (find_char _ _); [|reflexivity].
  destruct more; [reflexivity|]. destruct (str_eqb key (lit "for")).
  { destruct (split_ws _) as [|? [|]]; reflexivity. }
  destruct (str_eqb key (lit "amount")). { destruct (parse_amount _ d); reflexivity. }
  destruct (str_eqb key (lit "funding")); [|reflexivity]. destruct (parse_funding _); reflexivity.
Qed.
Lemma kind_header j k x fmt account :
  outcomes (kinded k) (envelope_header (kind_word j ++ 32%N :: x) fmt account) (envelope_header (kind_word k ++ 32%N :: x) fmt account).
Proof.
  unfold envelope_header.
  assert (RC : forall i z, no_slash_start z -> remove_comments (kind_word i ++ z) = kind_word i ++ remove_comments z).
  { intros i z. apply rc_front. destruct i; reflexivity. }
  assert (SW : forall i, split_ws (remove_comments (kind_word i ++ 32%N :: x)) = kind_word i :: split_ws (remove_comments x)).
  { intro i. rewrite RC by discriminate. rewrite rc_space. change (32%N :: remove_comments x) with (spaces 0 ++ 32%N :: remove_comments x).
    rewrite app_assoc. rewrite split_ws_padded; [reflexivity|]. destruct i; split; try discriminate; reflexivity. }
  rewrite !SW. destruct (split_ws (remove_comments x)) as [|name more]; [reflexivity|].
  assert (PT : forall i, parse_envtype (kind_word i) = Ok i) by (intros []; reflexivity).
  rewrite !PT. cbn [bind].
  assert (ST : forall i, split_first (lit " starting ") (kind_word i ++ 32%N :: x)
    = match split_first (lit " starting ") (32%N :: x) with Some (a, b) => Some (kind_word i ++ a, b) | None => None end).
  { intros i. assert (X : forall c s, c <> 32%N -> split_first (lit " starting ") (c :: s)
      = match split_first (lit " starting ") s with Some (a, b) => Some (c :: a, b) | None => None end).
    { intros c s N. cbn [split_first]. change (strip_prefix (lit " starting ") (c :: s)) with (if N.eqb 32 c then strip_prefix (lit "starting ") s else None).
      destruct (N.eqb_spec 32 c); [congruence|reflexivity]. }
    destruct i; cbn [kind_word lit app]; unfold lit; cbn [list_ascii_of_string map app];
      rewrite !X by discriminate; destruct (split_first _ (32%N :: x)) as [[a b]|]; reflexivity. }
  unfold extract_starting. rewrite !ST.
  assert (NS : forall a b, split_first (lit " starting ") (32%N :: x) = Some (a, b) -> no_slash_start a).
  { intros [|c a] b E; [exact I|]. apply split_first_Some in E as [E _]; [|discriminate]. injection E as <- _. discriminate. }
  assert (EF : forall i z starting, no_slash_start z ->
    outcomes eq (extract_frequency (kind_word i ++ z) fmt starting) (extract_frequency z fmt starting)).
  { intros i z st N. unfold extract_frequency. rewrite RC by exact N. set (y := remove_comments z).
    assert (C : contains (lit "no date") (kind_word i ++ y) = contains (lit "no date") y).
    { unfold contains. destruct i; cbn; destruct (find_sub _ y); reflexivity. }
    assert (B : forall p, In p [lit " by "; lit " due "] -> after_last p (kind_word i ++ y) = after_last p y).
    { intros p [<-|[<-|[]]]; destruct i; cbn; destruct (after_last _ y); reflexivity. }
    rewrite C, !B by (cbn; auto). destruct (contains _ y); [reflexivity|].
    assert (forall r : res frequency, outcomes eq r r) as R by (intros []; reflexivity || exact I).
    destruct (after_last _ y); [apply R|]. destruct (after_last _ y); [apply R|reflexivity]. }
  assert (both : forall (ra rb r : res frequency) (f g : frequency -> envelope), outcomes eq ra r -> outcomes eq rb r ->
    (forall q, g q = with_kind k (f q)) ->
    outcomes (kinded k) (let! q := ra in Ok (f q)) (let! q := rb in Ok (g q))).
  { intros [qa|ea| |] [qb|eb| |] [q|e| |] f g Ha Hb Hg; cbn in *; try contradiction; try exact I; try congruence.
    }
  destruct (split_first (lit " starting ") (32%N :: x)) as [[a b]|] eqn:F.
  - specialize (NS a b eq_refl). destruct (parse_date b fmt) as [d|]; [|reflexivity]. cbn [bind option_map fst].
    eapply both; [apply EF, NS|apply EF, NS|reflexivity].
  - cbn [bind option_map]. eapply both; [apply EF; discriminate|apply EF; discriminate|reflexivity].
Qed.

Theorem C86_partial : forall k,
  (forall chunk chunk' account dsym fmt j x body,
     lines (trim chunk) = (kind_word j ++ 32%N :: x) :: body ->
     lines (trim chunk') = (kind_word k ++ 32%N :: x) :: body ->
     outcomes (fun v w => w = with_kind k v)
       (parse_envelope chunk account dsym fmt) (parse_envelope chunk' account dsym fmt))
  /\ (forall today v e, outcomes (fun v w => w = with_kind k v)
        (env_process today v e) (env_process today (with_kind k v) e))
  /\ (forall today v, env_next_due today (with_kind k v) = env_next_due today v)
  /\ (forall today v available, filling_posting today (with_kind k v) available = filling_posting today v available)
  /\ (forall today v, show_envelope today (with_kind k v) = show_envelope today v).
Proof.
  intro k. split; [|split; [|split; [|split]]]; try reflexivity.
  - intros chunk chunk' account d fmt j x body E E'. unfold parse_envelope. rewrite E, E'.
    pose proof (kind_header j k x fmt account) as H.
    destruct (envelope_header (kind_word j ++ 32%N :: x) fmt account), (envelope_header (kind_word k ++ 32%N :: x) fmt account);
      cbn in H |- *; try (destruct H; fail); auto.
    subst. apply kind_fold. apply kind_line.
  - intros. apply kind_process.
Qed.
Print Assumptions C86_partial.

Definition two_envelopes (a b : string) : list string :=
  ["account s"; String.append a " x by 2030/01/01"; " amount 100"; " funding aggressive";
   String.append b " y by 2030/01/01"; " amount 100"; " funding aggressive"; "account i";
   "2019/08/03 * b"; " s 100"; " i -100"]%string.
(** The kinds decide which envelope is filled first. *)
Theorem C86_refuted : exists today l l' w w' p p',
  journal today (two_envelopes " expense" " goal") = Ok (l, w)
  /\ journal today (two_envelopes " goal" " expense") = Ok (l', w')
  /\ fill_postings today l = Ok [EnvPosting p] /\ fill_postings today l' = Ok [EnvPosting p']
  /\ ep_envelope p = lit "y" /\ ep_envelope p' = lit "x" /\ ep_amount p = ep_amount p'.
Proof.
  exists (mkDate 2024 1 1 eq_refl).
  destruct (journal (mkDate 2024 1 1 eq_refl) (two_envelopes " expense" " goal")) as [[l w]| | |] eqn:E.
  2-4: vm_compute in E; discriminate.
  destruct (journal (mkDate 2024 1 1 eq_refl) (two_envelopes " goal" " expense")) as [[l' w']| | |] eqn:E'.
  2-4: vm_compute in E'; discriminate.
  exists l, l', w, w'. do 2 eexists. split; [reflexivity|]. split; [reflexivity|].
  vm_compute in E, E'. injection E as <- <-. injection E' as <- <-. split; [vm_compute; reflexivity|]. split; [vm_compute; reflexivity|].
  split; [reflexivity|]. split; reflexivity.
Qed.
Print Assumptions C86_refuted.
