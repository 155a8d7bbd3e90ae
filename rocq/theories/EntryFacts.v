(** Reading entries, and the amount of a blank posting (C11, C13-C18). *)
From Coq Require Import ZArith NArith List Bool String Lia Reals.
From Verif Require Import Base Str StrFacts F64 F64Facts Date Amount Posting Entry SpecAmount AmountFacts
  AmountParse LineFacts SpecEntry PostingFacts.
Import ListNotations.

(** ** Results *)
Lemma bind_Ok {A B} (r : res A) (f : A -> res B) b :
  bind r f = Ok b <-> exists a, r = Ok a /\ f a = Ok b.
Proof.
  destruct r as [a|e| |]; cbn [bind]; split; try discriminate; try (intros (x & E & _); discriminate).
  - intro H. exists a. auto.
  - intros (x & E & H). injection E as ->. exact H.
Qed.
Lemma bind_Panic {A B} (r : res A) (f : A -> res B) :
  bind r f = Panic <-> r = Panic \/ exists a, r = Ok a /\ f a = Panic.
Proof.
  destruct r as [a|e| |]; cbn [bind]; split; try discriminate; auto.
  - intro H. right. exists a. auto.
  - intros [H|(x & E & H)]; [discriminate|]. injection E as ->. exact H.
  - intros [H|(x & E & H)]; discriminate.
  - intros [H|(x & E & H)]; discriminate.
Qed.
Lemma bind_Loop {A B} (r : res A) (f : A -> res B) :
  bind r f = Loop <-> r = Loop \/ exists a, r = Ok a /\ f a = Loop.
Proof.
  destruct r as [a|e| |]; cbn [bind]; split; try discriminate; auto.
  - intro H. right. exists a. auto.
  - intros [H|(x & E & H)]; [discriminate|]. injection E as ->. exact H.
  - intros [H|(x & E & H)]; discriminate.
  - intros [H|(x & E & H)]; discriminate.
Qed.

(** ** Posting lines (C11) *)
Lemma parse_classic_account line d accounts c :
  parse_classic line d accounts = Ok c -> In (c_account c) accounts.
Proof.
  unfold parse_classic. destruct (split_ws (trim (remove_comments line))) as [|name toks]; [discriminate|].
  intro H. apply bind_Ok in H. destruct H as (amt & _ & H).
  apply bind_Ok in H. destruct H as (bal & _ & H).
  apply bind_Ok in H. destruct H as (price & _ & H).
  apply bind_Ok in H. destruct H as (cst & _ & H).
  destruct (mem name accounts) eqn:M; [|discriminate]. injection H as <-. apply mem_In, M.
Qed.
Lemma parse_posting_account line d accounts c :
  parse_posting line d accounts = Ok (Classic c) -> In (c_account c) accounts.
Proof.
  unfold parse_posting. destruct (split_ws _) as [|t ts]; [discriminate|].
  destruct (str_eqb t (lit "envelope")); intro H; apply bind_Ok in H; destruct H as (x & E & H); [discriminate|].
  injection H as <-. eapply parse_classic_account, E.
Qed.
Lemma parse_postings_Ok ls d accounts ps :
  parse_postings ls d accounts = Ok ps <->
  Forall2 (fun l p => parse_posting l d accounts = Ok p)
    (filter (fun l => match trim l with [] => false | _ => true end) ls) ps.
Proof.
  revert ps. induction ls as [|l ls IH]; intro ps; cbn [parse_postings filter].
  - split; [intro H; injection H as <-; constructor|inversion 1; reflexivity].
  - destruct (trim l) as [|c t]; [apply IH|]. split.
    + intro H. apply bind_Ok in H. destruct H as (p & Ep & H).
      apply bind_Ok in H. destruct H as (ps' & Eps & H). injection H as <-.
      constructor; [exact Ep|apply IH, Eps].
    + inversion 1 as [|? p ? ps' E F]; subst. rewrite E. cbn [bind].
      apply IH in F. rewrite F. reflexivity.
Qed.
Lemma parse_postings_not ls d accounts :
  (forall l, parse_posting l d accounts <> Panic /\ parse_posting l d accounts <> Loop) ->
  parse_postings ls d accounts <> Panic /\ parse_postings ls d accounts <> Loop.
Proof.
  intro P. induction ls as [|l ls IH]; cbn [parse_postings]; [split; discriminate|].
  destruct (trim l); [exact IH|]. destruct (P l) as [P1 P2]. destruct IH as [I1 I2]. split; intro H.
  - apply bind_Panic in H. destruct H as [H|(p & _ & H)]; [contradiction|].
    apply bind_Panic in H. destruct H as [H|(ps & _ & H)]; [contradiction|discriminate].
  - apply bind_Loop in H. destruct H as [H|(p & _ & H)]; [contradiction|].
    apply bind_Loop in H. destruct H as [H|(ps & _ & H)]; [contradiction|discriminate].
Qed.

(** ** Reading a posting never panics *)
Lemma parse_amount_total s d : parse_amount s d <> Panic /\ parse_amount s d <> Loop.
Proof.
  unfold parse_amount. destruct (split_ws _) as [|a [|b [|c l]]]; try (split; discriminate).
  - destruct (parse_f64 _); split; discriminate.
  - destruct (parse_f64 _); split; discriminate.
Qed.
Lemma extract_amount_total toks d op stop :
  extract_amount toks d op stop <> Panic /\ extract_amount toks d op stop <> Loop.
Proof.
  unfold extract_amount. destruct (position _ toks); [|split; discriminate]. cbv zeta.
  destruct (parse_amount_total (join (lit " ") (match position stop (skipn (S n) toks) with
    | Some j => firstn j (skipn (S n) toks) | None => skipn (S n) toks end)) d) as [A B].
  split; intro H; [apply bind_Panic in H|apply bind_Loop in H];
    destruct H as [H|(a & _ & H)]; first [contradiction|discriminate].
Qed.
Lemma parse_posting_amount_total toks d :
  parse_posting_amount toks d <> Panic /\ parse_posting_amount toks d <> Loop.
Proof.
  unfold parse_posting_amount. cbv zeta. destruct (trim _); [split; discriminate|].
  match goal with |- context [parse_amount ?s d] => destruct (parse_amount_total s d) as [A B] end.
  split; intro H; [apply bind_Panic in H|apply bind_Loop in H];
    destruct H as [H|(a & _ & H)]; first [contradiction|discriminate].
Qed.
Ltac total_step :=
  match goal with
  | H : bind _ _ = Panic |- _ => apply bind_Panic in H; destruct H as [H|(? & _ & H)]
  | H : bind _ _ = Loop |- _ => apply bind_Loop in H; destruct H as [H|(? & _ & H)]
  | H : parse_posting_amount ?t ?d = _ |- _ => destruct (parse_posting_amount_total t d); contradiction
  | H : extract_amount ?t ?d ?o ?s = _ |- _ => destruct (extract_amount_total t d o s); contradiction
  | H : parse_amount ?t ?d = _ |- _ => destruct (parse_amount_total t d); contradiction
  | H : Ok _ = _ |- _ => discriminate H
  | H : Err _ = _ |- _ => discriminate H
  end.
Lemma parse_classic_total line d accounts :
  split_ws (remove_comments line) <> [] ->
  parse_classic line d accounts <> Panic /\ parse_classic line d accounts <> Loop.
Proof.
  intro N. unfold parse_classic. rewrite split_ws_trim.
  destruct (split_ws (remove_comments line)) as [|name toks]; [contradiction|].
  split; intro H; unfold parse_balance_assertion, parse_price, parse_total_cost in H; cbv zeta in H;
    repeat total_step; destruct x1 as [?|]; repeat total_step; destruct (mem name accounts); discriminate.
Qed.
Lemma parse_posting_total line d accounts :
  parse_posting line d accounts <> Panic /\ parse_posting line d accounts <> Loop.
Proof.
  rewrite parse_posting_markfree. destruct (split_ws (remove_comments line)) as [|t ts] eqn:E; [split; discriminate|].
  destruct (str_eqb t (lit "envelope")).
  - unfold parse_envposting. destruct (skipn 1 _) as [|a [|b l]]; try (split; discriminate).
    split; intro H; repeat total_step.
  - destruct (parse_classic_total (remove_comments line) d accounts) as [A B];
      [rewrite remove_comments_idem; congruence|].
    split; intro H; repeat total_step; contradiction.
Qed.

(** ** The header (C13) *)
Lemma parse_status_Ok s st : parse_status s = Ok st <-> sign_of st s.
Proof.
  unfold parse_status.
  destruct (str_eqb_spec s (lit "?")) as [->|N1]; [split; [intro H; injection H as <-; constructor|inversion 1; reflexivity]|].
  destruct (str_eqb_spec s (lit "~")) as [->|N2]; [split; [intro H; injection H as <-; constructor|inversion 1; reflexivity]|].
  destruct (str_eqb_spec s (lit "*")) as [->|N3]; [split; [intro H; injection H as <-; constructor|inversion 1; reflexivity]|].
  split; [discriminate|]. inversion 1; subst; contradiction.
Qed.
Lemma parse_status_sign st : parse_status [status_char st] = Ok st.
Proof. destruct st; reflexivity. Qed.
Lemma sign_status st : sign_of st [status_char st].
Proof. apply parse_status_Ok, parse_status_sign. Qed.
Lemma parse_status_total s : parse_status s <> Panic /\ parse_status s <> Loop.
Proof.
  unfold parse_status. destruct (str_eqb s (lit "?")), (str_eqb s (lit "~")), (str_eqb s (lit "*"));
  split; discriminate.
Qed.

Lemma In_first (c : char) s : In c s -> exists a b, s = a ++ c :: b /\ ~ In c a.
Proof.
  induction s as [|d s IH]; intro I; [destruct I|]. destruct (N.eq_dec d c) as [->|D].
  - exists [], s. split; [reflexivity|intros []].
  - destruct I as [I|I]; [contradiction|]. destruct (IH I) as (a & b & -> & Na).
    exists (d :: a), b. split; [reflexivity|]. intros [E|E]; contradiction.
Qed.
Lemma In_last (c : char) s : In c s -> exists a b, s = a ++ c :: b /\ ~ In c b.
Proof.
  intro I. apply in_rev in I. destruct (In_first c (rev s) I) as (a & b & E & Na).
  exists (rev b), (rev a). split.
  - rewrite <- (rev_involutive s), E, rev_app_distr. cbn [rev]. rewrite <- app_assoc. reflexivity.
  - intro H. apply in_rev in H. contradiction.
Qed.
Lemma app_split {A} (a b c d : list A) :
  a ++ b = c ++ d ->
  (exists m, a = c ++ m /\ d = m ++ b) \/ (exists m, c = a ++ m /\ b = m ++ d).
Proof.
  revert c. induction a as [|x a IH]; intros c E.
  - right. exists c. split; [reflexivity|exact E].
  - destruct c as [|y c]; [left; exists (x :: a); split; [reflexivity|symmetry; exact E]|].
    injection E as <- E. destruct (IH c E) as [(m & -> & ->)|(m & -> & ->)]; [left|right]; exists m; auto.
Qed.

Lemma split_payee_cases h t :
  (exists r, split_payee h t = Ok r /\ payee_split t (fst r) (snd r))
  \/ (split_payee h t = Err (EParse (NoClosingBracket h)) /\ In 91%N t /\ ~ In 93%N t)
  \/ (split_payee h t = Panic /\ brackets_reversed t).
Proof.
  unfold split_payee. change (chr "[") with 91%N. change (chr "]") with 93%N.
  destruct (in_dec N.eq_dec 91%N t) as [I|I].
  2: { rewrite (proj2 (find_char_None _ _) I). left. exists (t, None). split; [reflexivity|]. left. auto. }
  destruct (In_first _ _ I) as (a & r & -> & Na). rewrite find_char_app by exact Na.
  destruct (in_dec N.eq_dec 93%N r) as [J|J].
  - destruct (In_last _ _ J) as (b & c & -> & Nc).
    change (a ++ 91%N :: b ++ 93%N :: c) with (a ++ (91%N :: b) ++ 93%N :: c).
    rewrite app_assoc. rewrite rfind_char_app by exact Nc. rewrite app_length. cbn [List.length].
    rewrite (proj2 (Nat.leb_le _ _)) by lia. left. eexists. split; [reflexivity|]. right.
    exists a, b, c. rewrite <- app_assoc. cbn [app fst snd]. repeat split; try assumption.
    + f_equal. rewrite firstn_app, Nat.sub_diag, firstn_all, app_nil_r. reflexivity.
    + f_equal. f_equal.
      replace (List.length a + S (List.length b))%nat with (List.length (a ++ 91%N :: b) + 0)%nat
        by (rewrite app_length; cbn [List.length]; lia).
      replace (a ++ 91%N :: b ++ 93%N :: c) with ((a ++ 91%N :: b) ++ 93%N :: c) by (rewrite <- app_assoc; reflexivity).
      rewrite firstn_app_2. cbn [firstn]. rewrite app_nil_r.
      change (a ++ 91%N :: b) with (a ++ [91%N] ++ b). rewrite app_assoc.
      replace (S (List.length a)) with (List.length (a ++ [91%N])) by (rewrite app_length; cbn; lia).
      rewrite skipn_app, Nat.sub_diag, skipn_all. reflexivity.
  - destruct (in_dec N.eq_dec 93%N a) as [K|K].
    + right. right. destruct (In_last _ _ K) as (x & y & -> & Ny).
      rewrite <- app_assoc. cbn [app]. rewrite rfind_char_app.
      * rewrite app_length. cbn [List.length]. rewrite (proj2 (Nat.leb_gt _ _)) by lia.
        split; [reflexivity|]. split; [apply in_or_app; right; right; apply in_or_app; right; left; reflexivity|].
        split; [apply in_or_app; right; left; reflexivity|].
        exists (x ++ 93%N :: y), (91%N :: r). split; [rewrite <- app_assoc; reflexivity|]. split; [exact Na|].
        intros [E|E]; [discriminate|contradiction].
      * intro H. apply in_app_or in H. destruct H as [H|[H|H]]; [contradiction|discriminate|contradiction].
    + right. left. rewrite (proj2 (rfind_char_None _ _)).
      * split; [reflexivity|]. split; [exact I|]. intro H. apply in_app_or in H.
        destruct H as [H|[H|H]]; [contradiction|discriminate|contradiction].
      * intro H. apply in_app_or in H. destruct H as [H|[H|H]]; [contradiction|discriminate|contradiction].
Qed.
Lemma first_unique (c : char) a b a' b' :
  ~ In c a -> ~ In c a' -> a ++ c :: b = a' ++ c :: b' -> a = a' /\ b = b'.
Proof.
  revert a'. induction a as [|x a IH]; intros a' N N' E.
  - destruct a' as [|y a']; [injection E as <-; auto|]. injection E as -> _. destruct N'. left. reflexivity.
  - destruct a' as [|y a']; [injection E as -> _; destruct N; left; reflexivity|].
    injection E as -> E. destruct (IH a') as [-> ->]; auto.
    + intro I. apply N. right. exact I.
    + intro I. apply N'. right. exact I.
Qed.
Lemma last_unique (c : char) a b a' b' :
  ~ In c b -> ~ In c b' -> a ++ c :: b = a' ++ c :: b' -> a = a' /\ b = b'.
Proof.
  intros N N' E. assert (rev b ++ c :: rev a = rev b' ++ c :: rev a') as R.
  { assert (E' := f_equal (@rev char) E). rewrite !rev_app_distr in E'. cbn [rev] in E'.
    rewrite <- !app_assoc in E'. exact E'. }
  apply first_unique in R; [|rewrite <- in_rev; assumption|rewrite <- in_rev; assumption].
  destruct R as [R1 R2]. split.
  - rewrite <- (rev_involutive a), R2. apply rev_involutive.
  - rewrite <- (rev_involutive b), R1. apply rev_involutive.
Qed.
Lemma payee_split_unique t d p d' p' :
  payee_split t d p -> payee_split t d' p' -> d = d' /\ p = p'.
Proof.
  intros [(N & -> & ->)|(a & b & c & E & Na & Nc & -> & ->)]
         [(N' & -> & ->)|(a' & b' & c' & E' & Na' & Nc' & -> & ->)]; auto.
  - subst t. destruct N. apply in_or_app. right. left. reflexivity.
  - subst t. destruct N'. apply in_or_app. right. left. reflexivity.
  - subst t. apply first_unique in E'; [|assumption|assumption]. destruct E' as [-> E'].
    apply last_unique in E'; [|assumption|assumption]. destruct E' as [-> _]. auto.
Qed.
Lemma payee_split_not_reversed t d p : payee_split t d p -> ~ brackets_reversed t.
Proof.
  intros H (I & J & x & y & E & Nx & Ny). destruct H as [(N & _)|(a & b & c & E' & Na & Nc & _)]; [contradiction|].
  rewrite E in E'. destruct (app_split _ _ _ _ E') as [(m & -> & Em)|(m & -> & Em)].
  - destruct m as [|q m].
    + cbn [app] in Em. subst y. destruct Ny. right. apply in_or_app. right. left. reflexivity.
    + injection Em as <- Em. destruct Nx. apply in_or_app. right. left. reflexivity.
  - destruct Ny. rewrite Em. apply in_or_app. right. right. apply in_or_app. right. left. reflexivity.
Qed.
Lemma split_payee_Ok h t d p : split_payee h t = Ok (d, p) <-> payee_split t d p.
Proof.
  destruct (split_payee_cases h t) as [([d' p'] & E & H)|[(E & I & N)|(E & H)]]; rewrite E.
  - cbn [fst snd] in H. split; intro G.
    + injection G as <- <-. exact H.
    + destruct (payee_split_unique _ _ _ _ _ H G) as [-> ->]. reflexivity.
  - split; [discriminate|]. intros [(G & _)|(a & b & c & -> & _)]; [contradiction|].
    destruct N. apply in_or_app. right. right. apply in_or_app. right. left. reflexivity.
  - split; [discriminate|]. intro G. destruct (payee_split_not_reversed _ _ _ G H).
Qed.
Lemma split_payee_Panic h t : split_payee h t = Panic <-> brackets_reversed t.
Proof.
  destruct (split_payee_cases h t) as [([d' p'] & E & H)|[(E & I & N)|(E & H)]]; rewrite E.
  - split; [discriminate|]. intro G. destruct (payee_split_not_reversed _ _ _ H G).
  - split; [discriminate|]. intros (_ & J & _). contradiction.
  - tauto.
Qed.

Lemma parse_header_Ok h fmt e :
  parse_header h fmt = Ok e <->
  header_reads fmt h (e_date e) (e_status e) (e_desc e) (e_payee e)
  /\ e_comment e = None /\ e_postings e = [].
Proof.
  unfold parse_header, header_reads. destruct (split_ws (remove_comments h)) as [|dtok [|stok words]].
  - split; [discriminate|]. intros ((? & ? & ? & E & _) & _). discriminate.
  - destruct (parse_date dtok fmt); (split; [discriminate|]); intros ((? & ? & ? & E & _) & _); discriminate.
  - destruct (parse_date dtok fmt) as [d|] eqn:Ed.
    + split.
      * intro H. apply bind_Ok in H. destruct H as (st & Es & H).
        apply bind_Ok in H. destruct H as ([desc payee] & Ep & H). injection H as <-. cbn.
        split; [|auto]. exists dtok, stok, words. split; [reflexivity|]. split; [exact Ed|].
        split; [apply parse_status_Ok, Es|apply (split_payee_Ok h), Ep].
      * destruct e as [ed es edesc ep ec eps]. cbn. intros ((d' & s' & w' & E & Ed' & Es & Ep) & -> & ->).
        injection E as <- <- <-. apply parse_status_Ok in Es. apply (split_payee_Ok h) in Ep.
        rewrite Es, Ep. cbn [bind]. congruence.
    + split; [discriminate|]. intros ((d' & s' & w' & E & Ed' & _) & _). injection E as <- <- <-. congruence.
Qed.

Lemma parse_header_Panic h fmt : parse_header h fmt = Panic <-> header_panics fmt h.
Proof.
  unfold parse_header, header_panics. destruct (split_ws (remove_comments h)) as [|dtok [|stok words]].
  - split; [discriminate|]. intros [(? & ? & E & _)|(? & ? & ? & ? & ? & E & _)]; discriminate.
  - destruct (parse_date dtok fmt) as [d|] eqn:Ed.
    + split; [|reflexivity]. intros _. left. exists dtok, d. auto.
    + split; [discriminate|]. intros [(? & ? & E & E')|(? & ? & ? & ? & ? & E & _)]; [|discriminate].
      injection E as <-. congruence.
  - destruct (parse_date dtok fmt) as [d|] eqn:Ed.
    + split.
      * intro H. apply bind_Panic in H. destruct H as [H|(st & Es & H)]; [destruct (parse_status_total stok); contradiction|].
        apply bind_Panic in H. destruct H as [H|([desc payee] & _ & H)]; [|discriminate].
        right. exists dtok, d, stok, st, words. split; [reflexivity|]. split; [exact Ed|].
        split; [apply parse_status_Ok, Es|apply (split_payee_Panic h), H].
      * intros [(? & ? & E & _)|(d' & dd & s' & st & w' & E & Ed' & Es & H)]; [discriminate|].
        injection E as <- <- <-. apply parse_status_Ok in Es. apply (split_payee_Panic h) in H.
        rewrite Es. cbn [bind]. rewrite H. reflexivity.
    + split; [discriminate|]. intros [(? & ? & E & _)|(d' & dd & s' & st & w' & E & Ed' & _)]; [discriminate|].
      injection E as <- <- <-. congruence.
Qed.
Lemma parse_header_Loop h fmt : parse_header h fmt <> Loop.
Proof.
  unfold parse_header. destruct (split_ws (remove_comments h)) as [|dtok [|stok words]]; [discriminate| |].
  - destruct (parse_date dtok fmt); discriminate.
  - destruct (parse_date dtok fmt); [|discriminate]. intro H.
    apply bind_Loop in H. destruct H as [H|(st & Es & H)]; [destruct (parse_status_total stok); contradiction|].
    apply bind_Loop in H. destruct H as [H|([desc payee] & _ & H)]; [|discriminate].
    destruct (split_payee_cases h (join (lit " ") words)) as [(r & E & _)|[(E & _)|(E & _)]]; congruence.
Qed.

(** ** Validation (C14) *)
Lemma add_symbol_In l s t : In t (add_symbol l s) <-> t = s \/ In t l.
Proof.
  unfold add_symbol. destruct (mem s l) eqn:M.
  - apply mem_In in M. split; [auto|]. intros [->|H]; assumption.
  - cbn [In]. split; intros [H|H]; auto.
Qed.
Lemma add_symbol_NoDup l s : NoDup l -> NoDup (add_symbol l s).
Proof.
  intro N. unfold add_symbol. destruct (mem s l) eqn:M; [exact N|]. constructor; [|exact N].
  intro I. apply mem_In in I. congruence.
Qed.
Lemma validate_loop_spec k ps : forall n syms,
  (n <= 1)%nat -> NoDup syms ->
  match validate_loop k ps n syms with
  | Ok (n', syms') => n' = (n + blanks ps)%nat /\ (n' <= 1)%nat /\ NoDup syms'
                      /\ (forall t, In t syms' <-> In t syms \/ In t (named ps))
  | Err e => e = EValidation (TwoBlanks k) /\ (1 < n + blanks ps)%nat
  | _ => False
  end.
Proof.
  unfold blanks, named, written. induction ps as [|p ps IH]; intros n syms Hn ND; cbn [validate_loop filter flat_map].
  - cbn. split; [lia|]. split; [exact Hn|]. split; [exact ND|]. intro t. tauto.
  - destruct (get_amount p) as [a|].
    + specialize (IH n (match symbol a with Some s => add_symbol syms s | None => syms end) Hn).
      destruct (symbol a) as [s|] eqn:Es; cbn [flat_map app]; rewrite Es; cbn [app].
      * specialize (IH (add_symbol_NoDup _ _ ND)).
        destruct (validate_loop k ps n (add_symbol syms s)) as [[n' syms']|e| |]; try exact IH.
        destruct IH as (A & B & C & D). split; [exact A|]. split; [exact B|]. split; [exact C|].
        intro t. rewrite D, add_symbol_In. cbn [In]. intuition congruence.
      * exact (IH ND).
    + cbn [List.length app]. destruct n as [|n]; cbn [Nat.ltb Nat.leb].
      * specialize (IH 1%nat syms (le_n 1) ND). destruct (validate_loop k ps 1 syms) as [[n' syms']|e| |]; try exact IH.
      * split; [reflexivity|lia].
Qed.
Lemma distinct_length l : NoDup l -> ((List.length l <= 1)%nat <-> forall s t : str, In s l -> In t l -> s = t).
Proof.
  destruct l as [|a [|b l]]; intro N; cbn [List.length].
  - split; [intros _ s t []|lia].
  - split; [|lia]. intros _ s t [<-|[]] [<-|[]]. reflexivity.
  - split; [lia|]. intro H. exfalso. inversion N as [|? ? N1 _]; subst. apply N1.
    rewrite (H a b); [left; reflexivity|left; reflexivity|right; left; reflexivity].
Qed.
Lemma validate_entry_iff k e : validate_entry k e = Ok tt <-> acceptable (e_postings e).
Proof.
  unfold validate_entry, acceptable. assert (H := validate_loop_spec k (e_postings e) 0 [] (Nat.le_0_l 1) (NoDup_nil _)).
  destruct (validate_loop k (e_postings e) 0 []) as [[n syms]|e'| |]; cbn [bind]; try contradiction.
  - destruct H as (E & L & ND & I). cbn [Nat.add] in E. subst n.
    assert (forall t, In t syms <-> In t (named (e_postings e))) as I' by (intro t; rewrite I; cbn [In]; tauto).
    assert (D := distinct_length syms ND).
    destruct (Nat.ltb_spec 0 (blanks (e_postings e))) as [B|B]; destruct (Nat.ltb_spec 1 (List.length syms)) as [S1|S1]; cbn [andb].
    + split; [discriminate|]. intros (_ & H). exfalso. apply (Nat.lt_irrefl 1). eapply Nat.lt_le_trans; [exact S1|].
      apply D. intros s t Hs Ht. apply H; [lia| |]; apply I'; assumption.
    + split; [|reflexivity]. intros _. split; [exact L|]. intros _ s t Hs Ht.
      apply (proj1 D S1); apply I'; assumption.
    + split; [|reflexivity]. intros _. split; [exact L|]. lia.
    + split; [|reflexivity]. intros _. split; [exact L|]. lia.
  - destruct H as (-> & H). cbn [Nat.add] in H. split; [discriminate|]. intros (G & _). lia.
Qed.
Lemma validate_entry_total k e : validate_entry k e <> Panic /\ validate_entry k e <> Loop.
Proof.
  unfold validate_entry. assert (H := validate_loop_spec k (e_postings e) 0 [] (Nat.le_0_l 1) (NoDup_nil _)).
  destruct (validate_loop k (e_postings e) 0 []) as [[n syms]|e'| |]; cbn [bind]; try contradiction.
  - destruct (Nat.ltb 0 n && Nat.ltb 1 (List.length syms)); split; discriminate.
  - split; discriminate.
Qed.

(** ** Whole entries *)
Lemma parse_entry_Ok chunk fmt d accounts e :
  parse_entry chunk fmt d accounts = Ok e <->
  exists h ls, lines (trim chunk) = h :: ls
  /\ header_reads fmt h (e_date e) (e_status e) (e_desc e) (e_payee e)
  /\ e_comment e = None
  /\ Forall2 (fun l p => parse_posting l d accounts = Ok p)
       (filter (fun l => match trim l with [] => false | _ => true end) ls) (e_postings e)
  /\ acceptable (e_postings e).
Proof.
  unfold parse_entry. cbv zeta. destruct (trim chunk) as [|c t] eqn:E.
  - split; [discriminate|]. intros (h & ls & H & _). discriminate.
  - destruct (lines (c :: t)) as [|h ls].
    + split; [discriminate|]. intros (h & ls & H & _). discriminate.
    + split.
      * intro H. apply bind_Ok in H. destruct H as (e0 & Eh & H). apply bind_Ok in H. destruct H as (ps & Ep & H).
        apply bind_Ok in H. destruct H as ([] & Ev & H). injection H as <-.
        apply parse_header_Ok in Eh. destruct Eh as (Hr & Hc & Hp).
        apply validate_entry_iff in Ev. cbn in Ev. exists h, ls. split; [reflexivity|].
        split; [exact Hr|]. split; [exact Hc|]. split; [apply parse_postings_Ok, Ep|exact Ev].
      * intros (h' & ls' & El & Hr & Hc & Hp & Ha). injection El as <- <-.
        assert (parse_header h fmt = Ok (mkEntry (e_date e) (e_status e) (e_desc e) (e_payee e) None [])) as Eh
          by (apply parse_header_Ok; auto).
        rewrite Eh. cbn [bind]. apply parse_postings_Ok in Hp. rewrite Hp. cbn [bind e_date e_status e_desc e_payee e_comment].
        rewrite (proj2 (validate_entry_iff _ _)) by exact Ha. cbn [bind].
        destruct e as [ed es edesc ep ec eps]. cbn in *. subst ec. reflexivity.
Qed.

Lemma entry_accounts chunk fmt d accounts e c :
  parse_entry chunk fmt d accounts = Ok e -> In (Classic c) (e_postings e) -> In (c_account c) accounts.
Proof.
  intros H I. apply parse_entry_Ok in H. destruct H as (h & ls & _ & _ & _ & F & _).
  revert I. generalize dependent (e_postings e). intros ps F. induction F as [|l p ls' ps E F IH]; intro I; [destruct I|].
  destruct I as [->|I]; [|exact (IH I)]. eapply parse_posting_account, E.
Qed.

Lemma trim_not_nil_lines chunk : trim chunk <> [] -> lines (trim chunk) <> [].
Proof.
  intros N. destruct (newline_cut (trim chunk)) as [H|(a & b & E & Na)].
  - rewrite lines_one by assumption. discriminate.
  - rewrite E, lines_app by exact Na. discriminate.
Qed.
Lemma parse_entry_Panic chunk fmt d accounts :
  parse_entry chunk fmt d accounts = Panic <->
  exists h ls, lines (trim chunk) = h :: ls /\ header_panics fmt h.
Proof.
  unfold parse_entry. cbv zeta. destruct (trim chunk) as [|c t] eqn:E.
  - split; [discriminate|]. intros (h & ls & H & _). discriminate.
  - destruct (lines (c :: t)) as [|h ls].
    + split; [discriminate|]. intros (h & ls & H & _). discriminate.
    + split.
      * intro H. exists h, ls. split; [reflexivity|]. apply parse_header_Panic.
        apply bind_Panic in H. destruct H as [H|(e0 & _ & H)]; [exact H|]. exfalso.
        apply bind_Panic in H. destruct H as [H|(ps & _ & H)].
        -- destruct (parse_postings_not ls d accounts (fun l => parse_posting_total l d accounts)); contradiction.
        -- apply bind_Panic in H. destruct H as [H|(u & _ & H)]; [|discriminate].
           destruct (validate_entry_total chunk (mkEntry (e_date e0) (e_status e0) (e_desc e0) (e_payee e0) (e_comment e0) ps)); contradiction.
      * intros (h' & ls' & El & H). injection El as <- <-. apply parse_header_Panic in H. rewrite H. reflexivity.
Qed.
Lemma parse_entry_Loop chunk fmt d accounts : parse_entry chunk fmt d accounts <> Loop.
Proof.
  unfold parse_entry. cbv zeta. destruct (trim chunk) as [|c t]; [discriminate|].
  destruct (lines (c :: t)) as [|h ls]; [discriminate|]. intro H.
  apply bind_Loop in H. destruct H as [H|(e0 & _ & H)]; [exact (parse_header_Loop _ _ H)|].
  apply bind_Loop in H. destruct H as [H|(ps & _ & H)].
  - destruct (parse_postings_not ls d accounts (fun l => parse_posting_total l d accounts)); contradiction.
  - apply bind_Loop in H. destruct H as [H|(u & _ & H)]; [|discriminate].
    destruct (validate_entry_total chunk (mkEntry (e_date e0) (e_status e0) (e_desc e0) (e_payee e0) (e_comment e0) ps)); contradiction.
Qed.

(** ** Blank amounts (C15, C16) *)
Lemma has_blank_iff e : has_blank_posting e = true <-> exists p, In p (e_postings e) /\ blank p.
Proof.
  unfold has_blank_posting, blank. rewrite existsb_exists. split; intros (p & I & H); exists p; (split; [exact I|]).
  - destruct (get_amount p); [discriminate|reflexivity].
  - rewrite H. reflexivity.
Qed.
Lemma find_amount_written ps :
  match find_amount ps with
  | None => written ps = []
  | Some (a, rest) => written ps = a :: written rest
  end.
Proof.
  unfold written. induction ps as [|p ps IH]; [reflexivity|]. cbn [find_amount flat_map].
  destruct (get_amount p) as [a|]; [reflexivity|exact IH].
Qed.
Lemma written_In ps a : In a (written ps) <-> exists p, In p ps /\ get_amount p = Some a.
Proof.
  unfold written. rewrite in_flat_map. split; intros (p & I & H); exists p; (split; [exact I|]).
  - destruct (get_amount p); [destruct H as [->|[]]; reflexivity|destruct H].
  - rewrite H. left. reflexivity.
Qed.
Lemma has_mixed_iff e : has_mixed_currencies e = true <-> mixed (e_postings e).
Proof.
  unfold has_mixed_currencies, mixed. assert (W := find_amount_written (e_postings e)).
  destruct (find_amount (e_postings e)) as [[a rest]|].
  - rewrite W. rewrite existsb_exists. split.
    + intros (p & I & H). destruct (get_amount p) as [b|] eqn:G; [|discriminate].
      apply negb_true_iff, ostr_eqb_neq in H. exists b, a.
      split; [right; apply written_In; exists p; auto|]. split; [left; reflexivity|exact H].
    + intros (x & y & Hx & Hy & N).
      assert (exists b, In b (written rest) /\ symbol b <> symbol a) as (b & I & D).
      { destruct Hx as [<-|Hx]; destruct Hy as [<-|Hy]; [contradiction|exists y; auto|exists x; auto|].
        destruct (sym_dec (symbol x) (symbol a)) as [E|E]; [|exists x; auto].
        exists y. split; [exact Hy|congruence]. }
      apply written_In in I. destruct I as (p & I & G). exists p. split; [exact I|]. rewrite G.
      apply negb_true_iff, ostr_eqb_neq, D.
  - rewrite W. split; [discriminate|]. intros (x & y & [] & _).
Qed.
Lemma blank_rest_same sym ps : forall acc,
  symbol acc = sym -> Forall (fun a => symbol a = sym) (written ps) ->
  blank_rest ps acc = Ok (mkAmount (fold_left fadd (map (fun a => fneg (mag a)) (written ps)) (mag acc)) sym).
Proof.
  unfold written. induction ps as [|p ps IH]; intros acc Hs F; cbn [blank_rest flat_map map fold_left].
  - destruct acc as [m s]. cbn in *. subst. reflexivity.
  - cbn [flat_map] in F. destruct (get_amount p) as [a|].
    + cbn [app] in *. inversion F as [|? ? Ha F']; subst.
      rewrite (proj1 (amount_sub_assign_spec acc a)) by congruence. cbn [bind].
      rewrite IH; [|reflexivity|exact F']. cbn [mag map fold_left]. rewrite fsub_fadd. reflexivity.
    + apply IH; assumption.
Qed.
Lemma blank_amount_one e sym :
  (exists p, In p (e_postings e) /\ blank p) -> written (e_postings e) <> [] ->
  Forall (fun a => symbol a = sym) (written (e_postings e)) ->
  get_blank_amount e
  = Ok (Some (mkAmount (left_sum (map (fun a => fneg (mag a)) (written (e_postings e)))) sym)).
Proof.
  intros B N F. apply has_blank_iff in B. unfold get_blank_amount. rewrite B.
  destruct (has_mixed_currencies e) eqn:M.
  - apply has_mixed_iff in M. destruct M as (a & b & Ia & Ib & D). rewrite Forall_forall in F.
    destruct D. rewrite (F a Ia), (F b Ib). reflexivity.
  - assert (W := find_amount_written (e_postings e)). destruct (find_amount (e_postings e)) as [[a rest]|]; [|contradiction].
    rewrite W in *. inversion F as [|? ? Ha F']; subst.
    rewrite (blank_rest_same (symbol a)) by (auto; reflexivity). reflexivity.
Qed.
Lemma Zsum_opp zs : Zsum (map Z.opp zs) = (- Zsum zs)%Z.
Proof. unfold Zsum. induction zs as [|z zs IH]; cbn [map fold_right]; [reflexivity|]. rewrite IH. ring. Qed.
Lemma partial_sums_opp zs : forall acc, partial_sums (- acc) (map Z.opp zs) = map Z.opp (partial_sums acc zs).
Proof.
  induction zs as [|z zs IH]; intro acc; [reflexivity|]. cbn [map partial_sums].
  replace (- acc + - z)%Z with (- (acc + z))%Z by ring. rewrite IH. reflexivity.
Qed.
Lemma f64_is_neg x z : f64_is x (IZR z) -> f64_is (fneg x) (IZR (- z)).
Proof. intro H. apply f64_is_int in H. apply f64_is_int. apply fneg_int, H. Qed.
Lemma fsum_opp (l : list amount) zs :
  Forall2 (fun a z => f64_is (mag a) (IZR z)) l zs ->
  Forall2 (fun x z => f64_is x (IZR z)) (map (fun a => fneg (mag a)) l) (map Z.opp zs).
Proof. induction 1; cbn [map]; constructor; [apply f64_is_neg; assumption|assumption]. Qed.
Lemma blank_amount_whole e sym zs :
  (exists p, In p (e_postings e) /\ blank p) -> written (e_postings e) <> [] ->
  Forall (fun a => symbol a = sym) (written (e_postings e)) ->
  Forall2 (fun a z => f64_is (mag a) (IZR z)) (written (e_postings e)) zs ->
  Forall (fun s => (Z.abs s <= 2 ^ 53)%Z) (partial_sums 0 zs) ->
  exists b, get_blank_amount e = Ok (Some b) /\ symbol b = sym /\ f64_is (mag b) (IZR (- Zsum zs)).
Proof.
  intros B N F Z P. eexists. split; [apply (blank_amount_one e sym B N F)|]. split; [reflexivity|]. cbn [mag].
  rewrite <- Zsum_opp. apply left_sum_int.
  - apply fsum_opp, Z.
  - change 0%Z with (- 0)%Z. rewrite partial_sums_opp. rewrite Forall_map. rewrite Forall_forall in *.
    intros x I. rewrite Z.abs_opp. apply P, I.
Qed.

Lemma native_iff p v : native_value p = Some v <-> native p v.
Proof.
  split.
  - destruct p as [c|]; [|discriminate]. cbn [native_value]. unfold classic_native. destruct (c_amount c) as [a|] eqn:Ea; [|discriminate].
    destruct (symbol a) as [s|] eqn:Es.
    + destruct (c_cost c) as [[b|b]|] eqn:Ec; [| |discriminate].
      * destruct (symbol b) eqn:Eb; [discriminate|]. intro H. injection H as <-. eapply native_total; eassumption.
      * destruct (symbol b) eqn:Eb; [discriminate|]. intro H. injection H as <-. eapply native_unit; eassumption.
    + intro H. injection H as <-. apply native_plain; assumption.
  - inversion 1; subst; cbn [native_value]; unfold classic_native;
      repeat match goal with H : ?x = _ |- context [match ?x with _ => _ end] => rewrite H end; reflexivity.
Qed.
Lemma native_amount p v : native p v -> get_amount p <> None.
Proof. inversion 1; subst; cbn [get_amount]; congruence. Qed.
Lemma blank_native_spec e ps : forall acc vs,
  Forall2 (fun p v => native p v) (filter (fun p => match get_amount p with Some _ => true | None => false end) ps) vs ->
  blank_native e ps acc = Ok (fold_left fsub vs acc).
Proof.
  induction ps as [|p ps IH]; intros acc vs F; cbn [filter blank_native] in *.
  - inversion F. reflexivity.
  - destruct (get_amount p) as [a|] eqn:G.
    + inversion F as [|? v ? vs' Hn F']; subst. rewrite (proj2 (native_iff p v) Hn). cbn [fold_left]. apply IH, F'.
    + destruct (native_value p) as [v|] eqn:Nv; [|apply IH, F].
      apply native_iff, native_amount in Nv. contradiction.
Qed.
Lemma blank_native_Err e ps : forall acc,
  (exists p, In p ps /\ get_amount p <> None /\ forall v, ~ native p v) ->
  blank_native e ps acc = Err (EProcessing (NoNativeValue (full_string e))).
Proof.
  induction ps as [|p ps IH]; intros acc (q & I & G & Nn); [destruct I|]. cbn [blank_native].
  destruct (native_value p) as [v|] eqn:Nv.
  - apply IH. destruct I as [->|I]; [|exists q; auto]. apply native_iff in Nv. destruct (Nn v Nv).
  - destruct (get_amount p) as [a|] eqn:Ga; [reflexivity|]. apply IH. destruct I as [->|I]; [contradiction|exists q; auto].
Qed.
Lemma blank_amount_mixed e :
  (exists p, In p (e_postings e) /\ blank p) -> mixed (e_postings e) ->
  (forall vs, Forall2 (fun p v => native p v)
                (filter (fun p => match get_amount p with Some _ => true | None => false end) (e_postings e)) vs ->
     get_blank_amount e = Ok (Some (mkAmount (fold_left fsub vs fzero) None)))
  /\ ((exists p, In p (e_postings e) /\ ~ blank p /\ forall v, ~ native p v) ->
     get_blank_amount e = Err (EProcessing (NoNativeValue (full_string e)))).
Proof.
  intros B M. apply has_blank_iff in B. apply has_mixed_iff in M. unfold get_blank_amount. rewrite B, M. split.
  - intros vs F. rewrite (blank_native_spec _ _ _ vs F). reflexivity.
  - intro H. rewrite blank_native_Err by exact H. reflexivity.
Qed.
