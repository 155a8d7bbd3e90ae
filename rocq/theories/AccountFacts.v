(** Accounts: definitions, histories, available money, filling. *)
From Coq Require Import ZArith NArith List Bool String Reals Lra Lia.
From Coq Require Import Floats.SpecFloat.
From Flocq Require Import Core IEEE754.BinarySingleNaN.
From Verif Require Import Base Str F64 Date Amount Posting Entry Envelope Account World Ledger
  SpecAmount SpecDate SpecEntry SpecEnvelope StrFacts F64Facts AmountFacts PostingFacts EntryFacts
  DateFormat DateFacts FreqFacts EnvelopeFacts FillFacts.
Import ListNotations.
Local Open Scope Z_scope.

Opaque dayn of_dayn first_dayn last_dayn.

(** ** Parsed envelopes *)
Definition fresh (account : str) (v : envelope) : Prop := v_account v = account /\ in_currency v.
Lemma add_body_line_fresh account dsym v line w :
  fresh account v -> add_body_line dsym v line = Ok w -> fresh account w.
Proof.
  intros [A [C1 C2]] H. unfold add_body_line in H. destruct (split_ws _) as [|key more]; [discriminate|].
  destruct (find_char _ _) as [i|]; [|discriminate]. destruct more as [|t ts]; [injection H as <-; repeat split; assumption|].
  destruct (str_eqb key (lit "for")).
  - destruct (split_ws (skipn _ _)) as [|x [|y r]]; try discriminate. injection H as <-. repeat split; assumption.
  - destruct (str_eqb key (lit "amount")).
    + apply bind_Ok in H. destruct H as (a & _ & H). injection H as <-. repeat split; assumption.
    + destruct (str_eqb key (lit "funding")); [|discriminate]. apply bind_Ok in H. destruct H as (a & _ & H). injection H as <-.
      repeat split; assumption.
Qed.
Lemma fold_res_inv {A T} (I : T -> Prop) (f : T -> A -> res T) l : 
  (forall s a s', I s -> f s a = Ok s' -> I s') -> forall s s', I s -> fold_res f l s = Ok s' -> I s'.
Proof.
  intro K. induction l as [|a l IH]; intros s s' Hs H; cbn [fold_res] in H; [injection H as <-; exact Hs|].
  apply bind_Ok in H. destruct H as (u & E & H). exact (IH u s' (K _ _ _ Hs E) H).
Qed.
Lemma parse_envelope_fresh chunk account dsym fmt v : parse_envelope chunk account dsym fmt = Ok v -> fresh account v.
Proof.
  unfold parse_envelope. destruct (lines (trim chunk)) as [|h body]; [discriminate|]. intro H. apply bind_Ok in H.
  destruct H as (u & E & H). apply (fold_res_inv (fresh account)) in H; [exact H|intros s a s'; apply add_body_line_fresh|].
  unfold envelope_header in E. destruct (split_ws _) as [|t0 [|t1 r]]; try discriminate.
  apply bind_Ok in E. destruct E as (ty & _ & E). apply bind_Ok in E. destruct E as (st & _ & E).
  apply bind_Ok in E. destruct E as (fr & _ & E). injection E as <-. repeat split.
Qed.

(** ** Account definitions *)
Lemma starts_envelope_iff l : starts_with (lit "expense") (trim l) || starts_with (lit "goal") (trim l) = true <-> starts_envelope l.
Proof.
  unfold starts_envelope. rewrite orb_true_iff, !starts_with_iff. split.
  - intros [(r & E)|(r & E)]; exists r; auto.
  - intros (r & [E|E]); [left|right]; exists r; exact E.
Qed.
Lemma sections_total ls : forall cur, exists ss, sections cur ls ss.
Proof.
  induction ls as [|l ls IH]; intro cur; [eexists; constructor|].
  destruct (starts_with (lit "expense") (trim l) || starts_with (lit "goal") (trim l)) eqn:E.
  - apply starts_envelope_iff in E. destruct (IH l) as (ss & H). eexists. apply sections_new; eassumption.
  - destruct (IH (cur ++ 10%N :: l)) as (ss & H). exists ss. apply sections_more; [|exact H].
    intro K. apply starts_envelope_iff in K. congruence.
Qed.
Lemma account_fold dsym fmt cur body ss : sections cur body ss -> forall a,
  bind (fold_res (account_line dsym fmt) body (a, cur)) (fun st => let (a', rest) := st in flush_envelope dsym fmt a' rest)
  = fold_res (flush_envelope dsym fmt) ss a.
Proof.
  induction 1 as [cur|cur l ls ss St H IH|cur l ls ss St H IH]; intro a; cbn [fold_res].
  - cbn [bind]. destruct (flush_envelope dsym fmt a cur); reflexivity.
  - unfold account_line at 1. cbv zeta. rewrite (proj2 (starts_envelope_iff l) St).
    destruct (flush_envelope dsym fmt a cur); cbn [bind]; [apply IH|reflexivity..].
  - unfold account_line at 1. cbv zeta.
    destruct (starts_with _ _ || starts_with _ _) eqn:E; [apply starts_envelope_iff in E; contradiction|]. cbn [bind]. apply IH.
Qed.
Definition blank_section (s : str) : bool := match trim s with [] => true | _ => false end.
Definition names (vs : list envelope) : list str := map v_name vs.
Lemma existsb_name vs n : existsb (fun w => str_eqb (v_name w) n) vs = true <-> In n (names vs).
Proof.
  unfold names. rewrite existsb_exists, in_map_iff. split; intros (w & A & C); exists w.
  - apply str_eqb_eq in C. auto.
  - rewrite str_eqb_eq. auto.
Qed.
Lemma NoDup_snoc {A} (l1 : list A) x l2 : NoDup (l1 ++ x :: l2) <-> ~ In x l1 /\ NoDup ((l1 ++ [x]) ++ l2).
Proof.
  rewrite <- app_assoc. cbn [app]. split; [|tauto]. intro H. split; [|exact H].
  apply NoDup_remove_2 in H. intro I. apply H, in_or_app. left. exact I.
Qed.
Lemma NoDup_app_one {A} (l : list A) x : NoDup l -> ~ In x l -> NoDup (l ++ [x]).
Proof.
  intros H I. apply (NoDup_Add (a := x) (l := l)); [|auto]. replace l with (l ++ []) at 1 by apply app_nil_r. apply Add_app.
Qed.
Lemma add_fold vs : forall a b, NoDup (names (a_expenses a)) -> NoDup (names (a_goals a)) ->
  (fold_res add_envelope vs a = Ok b <->
   NoDup (names (a_expenses a ++ filter is_expense vs))
    /\ NoDup (names (a_goals a ++ filter is_goal vs))
    /\ b = mkAccount (a_name a) (a_expenses a ++ filter is_expense vs) (a_goals a ++ filter is_goal vs) (a_real a)).
Proof.
  induction vs as [|v vs IH]; intros a b NE NG; cbn [fold_res filter].
  - rewrite !app_nil_r. split.
    + intros [= <-]. destruct a. auto.
    + intros (_ & _ & ->). destruct a. reflexivity.
  - unfold add_envelope at 1. unfold names in *.
    destruct (v_type v) eqn:T.
    + assert (is_expense v = true /\ is_goal v = false) as [-> ->] by (unfold is_expense, is_goal; rewrite T; auto).
      rewrite !map_app in *. cbn [map]. destruct (existsb _ _) eqn:X.
      * apply existsb_name in X. cbn [bind]. split; [discriminate|]. intros (H & _). exfalso.
        apply NoDup_snoc in H. apply H, X.
      * cbn [bind]. assert (~ In (v_name v) (map v_name (a_expenses a))) as X' by (intro I; apply existsb_name in I; congruence).
        rewrite IH; cbn [a_expenses a_goals a_name a_real].
        -- rewrite <- !app_assoc, !map_app. cbn [app map]. tauto.
        -- rewrite map_app. cbn [map]. apply NoDup_app_one; assumption.
        -- exact NG.
    + assert (is_expense v = false /\ is_goal v = true) as [-> ->] by (unfold is_expense, is_goal; rewrite T; auto).
      rewrite !map_app in *. cbn [map]. destruct (existsb _ _) eqn:X.
      * apply existsb_name in X. cbn [bind]. split; [discriminate|]. intros (_ & H & _). exfalso.
        apply NoDup_snoc in H. apply H, X.
      * cbn [bind]. assert (~ In (v_name v) (map v_name (a_goals a))) as X' by (intro I; apply existsb_name in I; congruence).
        rewrite IH; cbn [a_expenses a_goals a_name a_real].
        -- rewrite <- !app_assoc, !map_app. cbn [app map]. tauto.
        -- exact NE.
        -- rewrite map_app. cbn [map]. apply NoDup_app_one; assumption.
Qed.

Lemma flush_fold dsym fmt ss : forall a b,
  fold_res (flush_envelope dsym fmt) ss a = Ok b <->
  exists vs, Forall2 (fun s v => parse_envelope s (a_name a) dsym fmt = Ok v) (filter (fun s => negb (blank_section s)) ss) vs
    /\ fold_res add_envelope vs a = Ok b.
Proof.
  induction ss as [|s ss IH]; intros a b; cbn [fold_res filter].
  - split.
    + intros [= <-]. exists []. split; [constructor|reflexivity].
    + intros (vs & H & K). inversion H; subst. exact K.
  - unfold flush_envelope at 1, blank_section at 1. destruct (trim s) as [|c t] eqn:T; cbn [negb].
    + cbn [bind]. apply IH.
    + split.
      * intro H. apply bind_Ok in H. destruct H as (u & E & H). apply bind_Ok in E. destruct E as (v & P & E).
        apply IH in H. destruct H as (vs & F & K).
        assert (a_name u = a_name a) as Nm.
        { unfold add_envelope in E. destruct (v_type v); destruct (existsb _ _); try discriminate; injection E as <-; reflexivity. }
        rewrite Nm in F. exists (v :: vs). split; [constructor; assumption|]. cbn [fold_res]. rewrite E. exact K.
      * intros (vs & F & K). inversion F as [|s' v l vs' P F' e1 e2]; subst. rewrite P. cbn [bind fold_res] in *.
        apply bind_Ok in K. destruct K as (u & E & K). rewrite E. cbn [bind].
        assert (a_name u = a_name a) as Nm.
        { unfold add_envelope in E. destruct (v_type v); destruct (existsb _ _); try discriminate; injection E as <-; reflexivity. }
        apply IH. exists vs'. rewrite Nm. auto.
Qed.
Lemma parse_account_iff chunk dsym fmt a : parse_account chunk dsym fmt = Ok a <->
  exists header body kw ss vs,
    lines chunk = header :: body
    /\ split_ws (remove_comments header) = [kw; a_name a]
    /\ sections [] body ss
    /\ Forall2 (fun s v => parse_envelope s (a_name a) dsym fmt = Ok v) (filter (fun s => negb (blank_section s)) ss) vs
    /\ NoDup (names (filter is_expense vs)) /\ NoDup (names (filter is_goal vs))
    /\ a_expenses a = filter is_expense vs /\ a_goals a = filter is_goal vs /\ a_real a = [].
Proof.
  unfold parse_account. split.
  - intro H. destruct (lines chunk) as [|header body]; [discriminate|]. apply bind_Ok in H. destruct H as (name & Hd & H).
    destruct (sections_total body []) as (ss & Ss).
    assert (fold_res (flush_envelope dsym fmt) ss (mkAccount name [] [] []) = Ok a) as K.
    { rewrite <- (account_fold _ _ _ _ _ Ss). rewrite <- H. f_equal. }
    apply flush_fold in K. destruct K as (vs & F & K). apply add_fold in K; [|constructor..]. cbn [a_name a_expenses a_goals a_real app] in *.
    destruct K as (N1 & N2 & ->). unfold account_header in Hd.
    destruct (split_ws (remove_comments header)) as [|k [|n [|x r]]] eqn:Sp; try discriminate. injection Hd as <-.
    exists header, body, k, ss, vs. cbn. auto 10.
  - intros (header & body & kw & ss & vs & L & Hd & Ss & F & N1 & N2 & E1 & E2 & E3). rewrite L.
    unfold account_header. rewrite Hd. cbn [bind].
    change (bind (fold_res (account_line dsym fmt) body (mkAccount (a_name a) [] [] [], []))
      (fun st => let (a', rest) := st in flush_envelope dsym fmt a' rest) = Ok a).
    rewrite (account_fold _ _ _ _ _ Ss). apply flush_fold. exists vs. split; [exact F|].
    apply add_fold; [constructor..|]. cbn [a_name a_expenses a_goals a_real app]. repeat split; auto.
    destruct a. cbn in *. congruence.
Qed.

(** ** Histories *)
Definition same_currency (v w : envelope) : Prop := in_currency v -> in_currency w.
Lemma moved_currency today v a d w : moved today v a d w -> in_currency v -> in_currency w.
Proof.
  intros (D & _ & C) [I1 I2]. unfold in_currency. replace (v_amount w) with (v_amount v) by (unfold same_definition in D; intuition congruence).
  unfold added in C. destruct C as [(_ & (_ & ->) & ->)|[(_ & _ & (_ & ->) & ->)|[(_ & _ & (_ & ->) & ->)|(_ & _ & -> & ->)]]]; cbn; auto.
Qed.
Lemma moved_all_currency today d v l w : moved_all today d v l w -> in_currency v -> in_currency w.
Proof. induction 1 as [|v a u l w M K IH]; [tauto|]. intro I. apply IH, (moved_currency _ _ _ _ _ M I). Qed.
Lemma manual_dec e : manual e \/ ~ manual e.
Proof.
  destruct (has_envelope_posting e) eqn:E; [left; apply has_envelope_posting_iff, E|right].
  intro H. apply has_envelope_posting_iff in H. congruence.
Qed.
Lemma env_process_inv today v e w : env_process today v e = Ok w ->
  same_definition v w /\ (in_currency v -> in_currency w).
Proof.
  intro H. destruct (manual_dec e) as [M|M].
  - apply (env_process_manual _ _ _ _ M) in H. split; [exact (moved_all_same _ _ _ _ _ H)|exact (moved_all_currency _ _ _ _ _ H)].
  - destruct (env_process_auto _ _ _ _ M H) as [(-> & _)|(_ & _ & f & s & _ & _ & [(_ & ->)|(_ & K)])].
    + split; [apply same_definition_refl|tauto].
    + split; [apply same_definition_refl|tauto].
    + split; [exact (moved_same _ _ _ _ _ K)|exact (moved_currency _ _ _ _ _ K)].
Qed.
Definition sound (a : account) : Prop :=
  (forall v, In v (all_envelopes a) -> fresh (a_name a) v) /\ NoDup (map symbol (a_real a))
  /\ NoDup (names (a_expenses a)) /\ NoDup (names (a_goals a)).
Lemma process_names today e vs ws : Forall2 (fun v w => env_process today v e = Ok w) vs ws -> names ws = names vs.
Proof.
  induction 1 as [|v w vs ws H F IH]; [reflexivity|]. cbn. f_equal; [|exact IH].
  destruct (env_process_inv _ _ _ _ H) as [D _]. unfold same_definition in D. tauto.
Qed.
Lemma Forall2_In_r {A C} (R : A -> C -> Prop) l l' y : Forall2 R l l' -> In y l' -> exists x, In x l /\ R x y.
Proof.
  induction 1 as [|a b l l' H F IH]; [intros []|]. intros [<-|I]; [exists a; split; [left; reflexivity|exact H]|].
  destruct (IH I) as (x & Ix & Hx). exists x. split; [right; exact Ix|exact Hx].
Qed.
Lemma Forall2_In_l {A C} (R : A -> C -> Prop) l l' x : Forall2 R l l' -> In x l -> exists y, In y l' /\ R x y.
Proof.
  induction 1 as [|a b l l' H F IH]; [intros []|]. intros [<-|I]; [exists b; split; [left; reflexivity|exact H]|].
  destruct (IH I) as (y & Iy & Hy). exists y. split; [right; exact Iy|exact Hy].
Qed.
Lemma pool_add_NoDup p a : NoDup (map symbol p) -> NoDup (map symbol (pool_add p a)).
Proof.
  intro H. rewrite pool_add_symbols. destruct (in_dec _ _ _); [exact H|]. apply NoDup_app_one; assumption.
Qed.
Lemma acc_process_sound today a e b : acc_process today a e = Ok b -> sound a -> sound b.
Proof.
  intros H (Fr & R & N1 & N2). unfold acc_process in H. apply bind_Ok in H. destruct H as (ex & E1 & H). apply bind_Ok in H.
  destruct H as (go & E2 & H). apply bind_Ok in H. destruct H as (r & E3 & H). injection H as <-.
  apply map_res_Ok in E1, E2. unfold sound, all_envelopes in *. cbn [a_name a_expenses a_goals a_real]. split; [|split; [|split]].
  - intros v I. apply in_app_or in I.
    assert (exists u, In u (a_expenses a ++ a_goals a) /\ env_process today u e = Ok v) as (u & Iu & Hu).
    { destruct I as [I|I]; [destruct (Forall2_In_r _ _ _ _ E1 I) as (u & ? & ?)|destruct (Forall2_In_r _ _ _ _ E2 I) as (u & ? & ?)];
        exists u; split; auto; apply in_or_app; auto. }
    destruct (Fr u Iu) as [A C]. destruct (env_process_inv _ _ _ _ Hu) as [D K]. split; [|exact (K C)].
    unfold same_definition in D. intuition congruence.
  - refine (fold_res_inv (fun p => NoDup (map symbol p)) _ _ _ _ _ R E3). intros p x q P Q. unfold real_step in Q.
    destruct (_ && _); [|injection Q as <-; exact P]. destruct (get_amount x); [injection Q as <-; apply pool_add_NoDup, P|].
    apply bind_Ok in Q. destruct Q as ([y|] & _ & Q); injection Q as <-; [apply pool_add_NoDup, P|exact P].
  - rewrite (process_names _ _ _ _ E1). exact N1.
  - rewrite (process_names _ _ _ _ E2). exact N2.
Qed.
Lemma parse_account_sound chunk dsym fmt a : parse_account chunk dsym fmt = Ok a -> sound a.
Proof.
  intro H. apply parse_account_iff in H.
  destruct H as (header & body & kw & ss & vs & L & Hd & Ss & F & N1 & N2 & E1 & E2 & E3).
  unfold sound, all_envelopes. rewrite E1, E2, E3. split; [|split; [constructor|split; assumption]]. intros v H.
  assert (In v vs) as I by (apply in_app_or in H; destruct H as [I|I]; apply filter_In in I; tauto).
  destruct (Forall2_In_r _ _ _ _ F I) as (s & _ & P). apply parse_envelope_fresh in P. exact P.
Qed.
Lemma grown_sound today a : grown today a -> sound a.
Proof. induction 1 as [chunk dsym fmt a H|a e b G IH H]; [exact (parse_account_sound _ _ _ _ H)|exact (acc_process_sound _ _ _ _ H IH)]. Qed.

(** ** Available money *)
Lemma real_as_ops p : forall q, NoDup (map symbol (q ++ p)) -> fold_left run_op (map PAdd p) q = q ++ p.
Proof.
  induction p as [|a p IH]; intros q H; cbn [map fold_left]; [rewrite app_nil_r; reflexivity|].
  assert (run_op q (PAdd a) = q ++ [a]) as ->.
  { cbn [run_op]. rewrite map_app in H. cbn [map] in H. apply NoDup_remove_2 in H.
    assert (~ In (symbol a) (map symbol q)) as K by (intro I; apply H, in_or_app; left; exact I). clear H IH.
    unfold pool_add. induction q as [|b q IH]; [reflexivity|]. cbn [pool_update map In app] in *.
    destruct (ostr_eqb_spec (symbol b) (symbol a)) as [E|E]; [exfalso; apply K; left; exact E|]. f_equal. apply IH. tauto. }
  rewrite IH; rewrite <- app_assoc; [reflexivity|exact H].
Qed.
Lemma available_as_ops vs : forall p,
  fold_left (fun p v => pool_minus (pool_minus p (v_next v)) (v_now v)) vs p = fold_left run_op (set_aside vs) p.
Proof.
  induction vs as [|v vs IH]; intro p; [reflexivity|]. cbn [fold_left set_aside flat_map app]. rewrite IH. cbn [fold_left].
  rewrite !run_op_signed. reflexivity.
Qed.
Lemma available_run a : NoDup (map symbol (a_real a)) ->
  available_value a = run_ops (map PAdd (a_real a) ++ set_aside (all_envelopes a)).
Proof.
  intro H. unfold available_value, run_ops. rewrite fold_left_app, real_as_ops by exact H. cbn [app]. apply available_as_ops.
Qed.

(** ** Filling postings *)
Definition knows (p : pool) (sym : option str) : Prop := exists a, pool_find sym p = Some a.
Lemma pool_sub_add p a : pool_sub p a = pool_add p (amount_neg a).
Proof. exact (run_op_signed p (PSub a)). Qed.
Lemma knows_add p a sym : knows p sym \/ symbol a = sym -> knows (pool_add p a) sym.
Proof.
  unfold knows. rewrite pool_find_add. intros [(b & H)|E].
  - destruct (sym_dec _ _); [eexists; reflexivity|eauto].
  - destruct (sym_dec _ _); [eexists; reflexivity|contradiction].
Qed.
Lemma knows_run ops : forall p sym, knows p sym \/ In sym (map op_symbol ops) -> knows (fold_left run_op ops p) sym.
Proof.
  induction ops as [|o ops IH]; intros p sym H; cbn [fold_left map In] in *; [tauto|].
  apply IH. rewrite run_op_signed. destruct H as [H|[H|H]]; [left|left|right; exact H]; apply knows_add; [auto|].
  right. rewrite <- op_symbol_signed. exact H.
Qed.
Lemma knows_only p sym : knows p sym -> symbol (pool_only p sym) = sym.
Proof. intros (a & H). rewrite pool_only_find, H. exact (pool_find_symbol _ _ _ H). Qed.
Lemma available_knows a v : In v (all_envelopes a) -> in_currency v -> knows (available_value a) (symbol (v_amount v)).
Proof.
  intros I [C _]. unfold available_value. rewrite available_as_ops. apply knows_run. right.
  apply in_map_iff. exists (PSub (v_next v)). split; [exact C|]. apply in_flat_map. exists v. split; [exact I|left; reflexivity].
Qed.
Lemma filling_fold_total today vs : year today < max_year -> forall p ps,
  (forall v, In v vs -> in_currency v /\ knows p (symbol (v_amount v))) ->
  exists r, fold_res (filling_step today) vs (p, ps) = Ok r.
Proof.
  intro H. induction vs as [|v vs IH]; intros p ps K; cbn [fold_res]; [eexists; reflexivity|].
  destruct (K v) as [C Kn]; [left; reflexivity|]. unfold filling_step at 1, filling_posting.
  destruct (filling_amount_total today v (pool_only p (symbol (v_amount v))) H C) as (a & ->); [apply knows_only, Kn|].
  cbn [bind ep_amount]. apply IH. intros w I. destruct (K w) as [Cw Kw]; [right; exact I|]. split; [exact Cw|].
  rewrite pool_sub_add. apply knows_add. auto.
Qed.
Lemma filling_postings_total today a : year today < max_year -> (forall v, In v (all_envelopes a) -> in_currency v) ->
  exists ps, filling_postings today a = Ok ps.
Proof.
  intros H C. unfold filling_postings.
  destruct (filling_fold_total today (rev (all_envelopes a)) H (available_value a) []) as ((p & ps) & ->).
  - intros v I. apply in_rev in I. split; [apply C, I|]. apply available_knows; [exact I|apply C, I].
  - cbn [bind]. eexists. reflexivity.
Qed.

(** What the postings are. *)
Inductive fillings (today : date) : pool -> list envelope -> list posting -> pool -> Prop :=
  | fillings_nil p : fillings today p [] [] p
  | fillings_cons p v a vs ps q :
      filling_amount today v (pool_only p (symbol (v_amount v))) = Ok a ->
      fillings today (pool_sub p a) vs ps q ->
      fillings today p (v :: vs) (EnvPosting (mkEnvPosting (v_account v) (v_name v) a) :: ps) q.
Lemma filling_fold today vs : forall p ps0 q ps,
  fold_res (filling_step today) vs (p, ps0) = Ok (q, ps) <-> exists ps', ps = ps0 ++ ps' /\ fillings today p vs ps' q.
Proof.
  induction vs as [|v vs IH]; intros p ps0 q ps; cbn [fold_res].
  - split.
    + intros [= <- <-]. exists []. rewrite app_nil_r. split; [reflexivity|constructor].
    + intros (ps' & -> & F). inversion F; subst. rewrite app_nil_r. reflexivity.
  - split.
    + intro H. apply bind_Ok in H. destruct H as ((p1 & ps1) & E & H). unfold filling_step, filling_posting in E.
      apply bind_Ok in E. destruct E as (ep & E & K). apply bind_Ok in E. destruct E as (a & E & K'). injection K' as <-. injection K as <- <-.
      apply IH in H. destruct H as (ps' & -> & F). eexists. rewrite <- app_assoc. split; [reflexivity|]. constructor; assumption.
    + intros (ps' & -> & F). inversion F as [|p0 v0 a vs0 ps2 q0 E F' e1 e2 e3 e4]; subst. unfold filling_step at 1, filling_posting. rewrite E.
      cbn [bind ep_amount]. apply IH. exists ps2. rewrite <- app_assoc. auto.
Qed.
Lemma filling_postings_iff today a ps : filling_postings today a = Ok ps <->
  exists q, fillings today (available_value a) (rev (all_envelopes a)) ps q.
Proof.
  unfold filling_postings. split.
  - intro H. apply bind_Ok in H. destruct H as ((q & ps') & E & H). injection H as <-. apply filling_fold in E.
    destruct E as (ps2 & -> & F). exists q. exact F.
  - intros (q & F). assert (fold_res (filling_step today) (rev (all_envelopes a)) (available_value a, []) = Ok (q, ps)) as ->; [|reflexivity].
    apply filling_fold. exists ps. auto.
Qed.
Definition posting_amounts (ps : list posting) : list amount :=
  flat_map (fun p => match get_amount p with Some a => [a] | None => [] end) ps.
Lemma fillings_run today p vs ps q : fillings today p vs ps q ->
  q = fold_left (fun p a => pool_sub p a) (posting_amounts ps) p.
Proof. induction 1 as [|p v a vs ps q E F IH]; [reflexivity|]. cbn. exact IH. Qed.

(** ** Not overdrawing *)
Lemma nan_not_less x y : fis_nan x = true -> fltb x y = false.
Proof. intro H. apply not_true_is_false. intro K. apply fltb_R in K. destruct K. congruence. Qed.
Lemma fsub_nonneg x y : fltb x fzero = false -> fltb y fzero = false -> fltb x y = false \/ y = fzero ->
  fltb (fsub x y) fzero = false.
Proof.
  intros X Y L. destruct (fis_nan x) eqn:Nx.
  { apply nan_not_less. rewrite fsub_fadd. unfold fis_nan, fadd in *. destruct (sf x) eqn:E; try discriminate. reflexivity. }
  destruct (fis_nan y) eqn:Ny.
  { apply nan_not_less. unfold fis_nan, fsub in *. destruct (sf y) eqn:E; try discriminate. destruct (sf x); reflexivity. }
  destruct (ffin x) eqn:Fx.
  - assert (ffin y = true /\ (fR y <= fR x)%R) as [Fy Le].
    { assert (0 <= fval x)%R as Px by (apply (fltb_false_R x fzero) in X; [rewrite fval_zero in X; exact X|exact Nx|reflexivity]).
      destruct L as [L| ->].
      - apply (fltb_false_R x y Nx Ny) in L. apply (fltb_false_R y fzero Ny eq_refl) in Y. rewrite fval_zero in Y.
        rewrite (fval_fin x Fx) in L. assert (fR x < bpow radix2 1024)%R as K by (apply Rle_lt_trans with (1 := Rle_abs _), fR_bound).
        assert (ffin y = true) as Fy.
        { rewrite ffin_SF. assert (0 < bpow radix2 1024)%R as P0 by apply bpow_gt_0. unfold fval, fis_nan in *.
          destruct (sf y) as [s|[]| |s m e]; try reflexivity; [lra|lra|discriminate]. }
        split; [exact Fy|]. rewrite (fval_fin y Fy) in L. exact L.
      - split; [reflexivity|]. rewrite (fval_fin x Fx) in Px. replace (fR fzero) with 0%R by (symmetry; apply fval_zero). exact Px. }
    apply (fltb_false_R y fzero Ny eq_refl) in Y. rewrite fval_zero, (fval_fin y Fy) in Y.
    assert (0 <= rnd (fR x - fR y))%R as P0 by (rewrite <- rnd_0; apply rnd_le; lra).
    assert (rnd (fR x - fR y) <= fR x)%R as P1 by (rewrite <- (rnd_format (fR x)) at 2 by apply fR_format; apply rnd_le; lra).
    destruct (fsub_correct x y Fx Fy) as [E F].
    { rewrite Rabs_pos_eq by exact P0. apply Rle_lt_trans with (1 := P1), Rle_lt_trans with (1 := Rle_abs _), fR_bound. }
    apply not_true_is_false. intro K. apply fltb_R in K. destruct K as (_ & _ & K).
    rewrite fval_zero, (fval_fin _ F), E in K. lra.
  - assert (sf x = S754_infinity false) as E.
    { rewrite ffin_SF in Fx. unfold fis_nan in Nx. unfold fltb in X. destruct (sf x) as [s|[]| |s m e]; try discriminate; reflexivity. }
    unfold fsub. rewrite E. unfold fis_nan in Ny. unfold fltb in Y. destruct (sf y) as [s|[]| |s m e]; try discriminate; reflexivity.
Qed.
Lemma pool_only_sub p a sym : pool_only (pool_sub p a) sym =
  if sym_dec (symbol a) sym then
    match pool_find sym p with Some b => mkAmount (fsub (mag b) (mag a)) sym | None => mkAmount (fneg (mag a)) sym end
  else pool_only p sym.
Proof.
  rewrite pool_sub_add, !pool_only_find, pool_find_add. cbn [symbol amount_neg mag]. destruct (sym_dec (symbol a) sym) as [E|E]; [|reflexivity].
  destruct (pool_find sym p); [rewrite fsub_fadd; reflexivity|]. unfold amount_neg. rewrite E. reflexivity.
Qed.
Lemma fillings_not_overdrawn today p vs ps q sym : fillings today p vs ps q ->
  (forall v, In v vs -> not_owing v /\ knows p (symbol (v_amount v))) ->
  ~ negative (pool_only p sym) -> ~ negative (pool_only q sym).
Proof.
  unfold negative. induction 1 as [|p v a vs ps q E F IH]; intros K N; [exact N|].
  destruct (K v) as [O Kn]; [left; reflexivity|]. destruct (filling_amount_safe _ _ _ _ E) as (An & Ap & As).
  destruct (filling_amount_limits _ _ _ _ E O) as (L & _).
  apply IH.
  - intros w I. destruct (K w) as [Ow Kw]; [right; exact I|]. split; [exact Ow|]. rewrite pool_sub_add. apply knows_add. auto.
  - rewrite pool_only_sub. destruct (sym_dec (symbol a) sym) as [Es|Es]; [|exact N].
    destruct Kn as (b & Fb). rewrite <- As, Es in Fb, L. rewrite pool_only_find, Fb in *. cbn [mag].
    apply not_true_iff_false. apply not_true_iff_false in N. unfold at_most in L.
    destruct (fltb fzero (mag a)) eqn:Pa; [apply fsub_nonneg; auto|].
    (* the amount is zero *)
    assert (fval (mag a) = 0)%R as Z.
    { apply (fltb_false_R (mag a) fzero An eq_refl) in Ap. apply (fltb_false_R fzero (mag a) eq_refl An) in Pa. rewrite fval_zero in *. lra. }
    apply fsub_nonneg; [exact N|exact Ap|]. left. apply not_true_is_false. intro H. apply fltb_R in H. destruct H as (Nb & _ & H).
    apply (fltb_false_R (mag b) fzero Nb eq_refl) in N. rewrite fval_zero in N. lra.
Qed.

(** ** Filling twice *)
Lemma fillings_In today p vs ps q x : fillings today p vs ps q -> In x ps ->
  exists v av a, In v vs /\ filling_amount today v av = Ok a /\ x = EnvPosting (mkEnvPosting (v_account v) (v_name v) a).
Proof.
  induction 1 as [|p v a vs ps q E F IH]; [intros []|]. intros [<-|I].
  - exists v, (pool_only p (symbol (v_amount v))), a. split; [left; reflexivity|auto].
  - destruct (IH I) as (w & av & b & Iw & Eb & ->). exists w, av, b. split; [right; exact Iw|auto].
Qed.
Lemma fill_postings_In today l ps x : fill_postings today l = Ok ps -> In x ps ->
  exists key acc v av a, In (key, acc) (l_accounts l) /\ In v (all_envelopes acc) /\ filling_amount today v av = Ok a
    /\ x = EnvPosting (mkEnvPosting (v_account v) (v_name v) a) /\ feqb (mag a) fzero = false.
Proof.
  unfold fill_postings. intros H I. apply bind_Ok in H. destruct H as (pss & M & H). injection H as <-.
  apply filter_In in I. destruct I as [I Kp]. apply in_concat in I. destruct I as (ps & Ip & I).
  apply map_res_Ok in M. destruct (Forall2_In_r _ _ _ _ M Ip) as ([key acc] & Ia & E). cbn [snd] in E.
  apply filling_postings_iff in E. destruct E as (q & F). destruct (fillings_In _ _ _ _ _ _ F I) as (v & av & a & Iv & Ef & ->).
  exists key, acc, v, av, a. apply in_rev in Iv. cbn [keep_posting get_amount ep_amount] in Kp. apply negb_true_iff in Kp. auto.
Qed.
Lemma add_entry_accounts today l e l' : add_entry today l e = Ok l' ->
  Forall2 (fun ka kb => fst kb = fst ka /\ acc_process today (snd ka) e = Ok (snd kb)) (l_accounts l) (l_accounts l').
Proof.
  unfold add_entry. intro H. apply bind_Ok in H. destruct H as (accs & M & H). injection H as <-. cbn [l_accounts].
  apply map_res_Ok in M. induction M as [|x y xs ys E M IH]; constructor; [|exact IH].
  apply bind_Ok in E. destruct E as (a & E & K). injection K as <-. auto.
Qed.
Lemma acc_process_envelopes today a e b v : acc_process today a e = Ok b -> In v (all_envelopes b) ->
  exists u, In u (all_envelopes a) /\ env_process today u e = Ok v.
Proof.
  unfold acc_process, all_envelopes. intros H I. apply bind_Ok in H. destruct H as (ex & E1 & H). apply bind_Ok in H.
  destruct H as (go & E2 & H). apply bind_Ok in H. destruct H as (r & _ & H). injection H as <-. cbn [a_expenses a_goals] in I.
  apply map_res_Ok in E1, E2. apply in_app_or in I. destruct I as [I|I].
  - destruct (Forall2_In_r _ _ _ _ E1 I) as (u & Iu & Hu). exists u. split; [apply in_or_app; auto|exact Hu].
  - destruct (Forall2_In_r _ _ _ _ E2 I) as (u & Iu & Hu). exists u. split; [apply in_or_app; auto|exact Hu].
Qed.
Lemma named_touched today l e l' key acc v ep : add_entry today l e = Ok l' -> In (EnvPosting ep) (e_postings e) ->
  In (key, acc) (l_accounts l') -> In v (all_envelopes acc) ->
  v_account v = ep_account ep -> v_name v = ep_envelope ep -> v_last v = e_date e.
Proof.
  intros H Ie Ia Iv Ea En. apply add_entry_accounts in H. destruct (Forall2_In_r _ _ _ _ H Ia) as ([k a] & _ & _ & P). cbn [snd] in P.
  destruct (acc_process_envelopes _ _ _ _ _ P Iv) as (u & _ & Hu).
  assert (manual e) as M by (exists ep; exact Ie).
  apply (env_process_manual _ _ _ _ M) in Hu. apply (moved_all_last _ _ _ _ _ Hu).
  assert (D := moved_all_same _ _ _ _ _ Hu). unfold same_definition in D.
  assert (In (ep_amount ep) (posted_to u (e_postings e))) as K.
  { apply posted_to_In. replace (mkEnvPosting _ _ _) with ep; [exact Ie|]. destruct ep. cbn in *. f_equal; intuition congruence. }
  destruct (posted_to u (e_postings e)); [destruct K|discriminate].
Qed.
Lemma fill_twice today l ps l' ps2 ep ep2 : fill_postings today l = Ok ps ->
  add_entry today l (fill_entry today ps) = Ok l' -> fill_postings today l' = Ok ps2 ->
  In (EnvPosting ep) ps -> In (EnvPosting ep2) ps2 -> ep_account ep2 = ep_account ep -> ep_envelope ep2 = ep_envelope ep -> False.
Proof.
  intros _ H F2 I I2 Ea En. destruct (fill_postings_In _ _ _ _ F2 I2) as (key & acc & v & av & a & Ia & Iv & Ef & E & Nz).
  injection E as ->. cbn [ep_account ep_envelope] in *.
  assert (v_last v = today) as L by exact (named_touched _ _ _ _ _ _ _ _ H I Ia Iv Ea En).
  rewrite (filling_amount_zero _ _ _ _ Ef) in Nz by auto. discriminate.
Qed.
