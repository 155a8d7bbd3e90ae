(** Facts about postings (C10, C12). *)
From Coq Require Import ZArith NArith List Bool String Lia Permutation.
From Verif Require Import Base Str StrFacts F64 F64Facts F64Text Amount Posting SpecAmount SpecEntry
  AmountFacts AmountParse LineFacts.
Import ListNotations.

Lemma mem_In s l : mem s l = true <-> In s l.
Proof.
  unfold mem. rewrite existsb_exists. split.
  - intros (x & I & E). apply str_eqb_eq in E. subst. exact I.
  - intro I. exists s. split; [exact I|apply str_eqb_refl].
Qed.

(** ** Positions *)
Lemma position_app {A} (p : A -> bool) a x b :
  forallb (fun y => negb (p y)) a = true -> p x = true ->
  position p (a ++ x :: b) = Some (List.length a).
Proof.
  intros H Hx. induction a as [|y a IH]; cbn [app position List.length].
  - rewrite Hx. reflexivity.
  - cbn [forallb] in H. apply andb_true_iff in H. destruct H as [H1 H2].
    apply negb_true_iff in H1. rewrite H1, (IH H2). reflexivity.
Qed.
Lemma position_None {A} (p : A -> bool) a :
  forallb (fun y => negb (p y)) a = true -> position p a = None.
Proof.
  intros H. induction a as [|y a IH]; [reflexivity|]. cbn [position].
  cbn [forallb] in H. apply andb_true_iff in H. destruct H as [H1 H2].
  apply negb_true_iff in H1. rewrite H1, (IH H2). reflexivity.
Qed.

(** Operators. *)
Definition is_op (s : str) : bool :=
  str_eqb s op_unit || str_eqb s op_bal || str_eqb s op_total || str_eqb s op_bal2.
Lemma is_op_iff s : is_op s = true <-> op_token s.
Proof.
  unfold is_op, op_token, op_unit, op_bal, op_total, op_bal2.
  rewrite !orb_true_iff, !str_eqb_eq. tauto.
Qed.
Lemma not_op s : ~ op_token s -> is_op s = false.
Proof. intro H. destruct (is_op s) eqn:E; [|reflexivity]. apply is_op_iff in E. contradiction. Qed.

Definition read_opt (d : char) (o : option (list str)) : res (option amount) :=
  match o with
  | None => Ok None
  | Some ts => let! a := parse_amount (join (lit " ") ts) d in Ok (Some a)
  end.

Lemma reads_iff d ts o : reads d ts o <-> read_opt d ts = Ok o.
Proof.
  destruct ts as [ts|]; cbn [reads read_opt].
  - destruct (parse_amount (join (lit " ") ts) d) as [a|e| |]; cbn [bind]; split.
    + intros (b & E & ->). injection E as ->. reflexivity.
    + intro E. injection E as <-. eauto.
    + intros (b & E & _). discriminate.
    + discriminate.
    + intros (b & E & _). discriminate.
    + discriminate.
    + intros (b & E & _). discriminate.
    + discriminate.
  - split; [intros ->; reflexivity|intro E; injection E as <-; reflexivity].
Qed.

(** A stop predicate for [op]: the other operators. *)
Definition stops (op : str) (stop : str -> bool) : Prop :=
  (forall s, op_token s -> s <> op -> stop s = true)
  /\ (forall s, ~ op_token s -> stop s = false).

Lemma clause_tokens_cons k cl : clause_tokens (k :: cl) = (fst k :: snd k) ++ clause_tokens cl.
Proof. reflexivity. Qed.

Lemma no_stop op stop ts :
  stops op stop -> Forall (fun t => ~ op_token t) ts -> forallb (fun y => negb (stop y)) ts = true.
Proof.
  intros [_ St] F. apply forallb_forall. intros t I. rewrite Forall_forall in F.
  rewrite (St t (F t I)). reflexivity.
Qed.

Lemma extract_clauses d op stop amt cl :
  op_token op -> stops op stop -> clauses_ok amt cl ->
  extract_amount (amt ++ clause_tokens cl) d op stop = read_opt d (clause_of op cl).
Proof.
  intros O St (A & C & N).
  assert (forall ts, Forall (fun t => ~ op_token t) ts ->
            forallb (fun y => negb (str_eqb op y)) ts = true) as NO.
  { intros ts F. apply forallb_forall. intros t I. rewrite Forall_forall in F.
    apply negb_true_iff, str_eqb_neq. intros <-. exact (F _ I O). }
  unfold clause_of.
  revert amt A. induction cl as [|[o ts] cl IH]; intros amt A.
  - cbn [clause_tokens flat_map List.find option_map read_opt]. rewrite app_nil_r.
    unfold extract_amount. rewrite position_None by (apply NO, A). reflexivity.
  - inversion C as [|? ? [Ho Ht] Ct]; subst. inversion N as [|? ? Nn Nd]; subst.
    cbn [fst snd map] in *. cbn [List.find fst]. rewrite clause_tokens_cons. cbn [fst snd].
    destruct (str_dec o op) as [->|D].
    + cbn [option_map snd read_opt]. unfold extract_amount. cbn [app].
      rewrite position_app; [|apply NO, A|apply str_eqb_refl].
      replace (skipn (S (List.length amt)) (amt ++ op :: ts ++ clause_tokens cl))
        with (ts ++ clause_tokens cl).
      2:{ clear. induction amt as [|x amt IH]; [reflexivity|]. exact IH. }
      destruct cl as [|[o' ts'] cl].
      * cbn [clause_tokens flat_map]. rewrite app_nil_r.
        rewrite (position_None stop ts) by (eapply no_stop; eassumption). reflexivity.
      * rewrite clause_tokens_cons. cbn [fst snd app].
        rewrite (position_app stop ts o').
        -- rewrite firstn_app, firstn_all, Nat.sub_diag. cbn [firstn]. rewrite app_nil_r. reflexivity.
        -- eapply no_stop; eassumption.
        -- inversion Ct as [|? ? [Ho' _] _]; subst. apply St; [exact Ho'|].
           intros ->. apply Nn. left. reflexivity.
    + (* another clause: part of the text before the wanted operator *)
      specialize (IH Ct Nd).
      assert (G : forall pre, forallb (fun y => negb (str_eqb op y)) pre = true ->
                extract_amount (pre ++ clause_tokens cl) d op stop
                = read_opt d (option_map snd
                    (List.find (fun k : clause => if str_dec (fst k) op then true else false) cl))).
      { intros pre Hp.
        assert (extract_amount (pre ++ clause_tokens cl) d op stop
                = extract_amount ([] ++ clause_tokens cl) d op stop) as ->.
        { unfold extract_amount. cbn [app]. clear - Hp.
          induction pre as [|x pre IHp]; [reflexivity|].
          cbn [forallb] in Hp. apply andb_true_iff in Hp. destruct Hp as [H1 H2].
          apply negb_true_iff in H1. cbn [app position]. rewrite H1.
          rewrite <- (IHp H2). destruct (position (str_eqb op) (pre ++ clause_tokens cl)); reflexivity. }
        apply IH. constructor. }
      cbn [app]. change (amt ++ o :: ts ++ clause_tokens cl) with (amt ++ (o :: ts) ++ clause_tokens cl).
      rewrite app_assoc. apply G. rewrite forallb_app. cbn [forallb].
      rewrite (NO amt A), (NO ts Ht). cbn [andb]. rewrite andb_true_r.
      apply negb_true_iff, str_eqb_neq. congruence.
Qed.

Lemma parse_posting_amount_clauses d amt cl :
  Forall is_token amt -> clauses_ok amt cl ->
  parse_posting_amount (amt ++ clause_tokens cl) d
  = read_opt d (match amt with [] => None | _ => Some amt end).
Proof.
  intros T (A & C & _). unfold parse_posting_amount. cbv zeta.
  assert (forallb (fun y => negb (is_op y)) amt = true) as NO.
  { apply forallb_forall. intros t I. rewrite Forall_forall in A. rewrite not_op; auto. }
  change (fun s => str_eqb s op_unit || str_eqb s op_bal || str_eqb s op_total || str_eqb s op_bal2) with is_op.
  assert (match position is_op (amt ++ clause_tokens cl) with
          | Some i => join (lit " ") (firstn i (amt ++ clause_tokens cl))
          | None => join (lit " ") (amt ++ clause_tokens cl)
          end = join (lit " ") amt) as ->.
  { destruct cl as [|[o ts] cl].
    - cbn [clause_tokens flat_map]. rewrite app_nil_r, position_None by exact NO. reflexivity.
    - rewrite clause_tokens_cons. cbn [fst snd app].
      rewrite position_app; [|exact NO|].
      + rewrite firstn_app, firstn_all, Nat.sub_diag. cbn [firstn]. rewrite app_nil_r. reflexivity.
      + inversion C as [|? ? [Ho _] _]; subst. apply is_op_iff, Ho. }
  destruct amt as [|t amt]; [reflexivity|].
  destruct (trim (join (lit " ") (t :: amt))) as [|c r] eqn:E; [|reflexivity].
  exfalso. apply trim_nil, split_ws_nil in E. rewrite split_ws_join in E by exact T. discriminate.
Qed.

Lemma stops_bal : stops op_bal (fun s => str_eqb s op_bal2 || str_eqb s op_unit || str_eqb s op_total).
Proof.
  split.
  - intros s H N. rewrite !orb_true_iff, !str_eqb_eq. unfold op_token in H. unfold op_bal in N.
    unfold op_bal2, op_unit, op_total. tauto.
  - intros s H. apply not_op in H. unfold is_op in H. rewrite !orb_false_iff in H.
    destruct H as [[[H1 H2] H3] H4]. rewrite ?H1, ?H2, ?H3, ?H4. reflexivity.
Qed.
Lemma stops_unit : stops op_unit (fun s => str_eqb s op_bal || str_eqb s op_bal2 || str_eqb s op_total).
Proof.
  split.
  - intros s H N. rewrite !orb_true_iff, !str_eqb_eq. unfold op_token in H. unfold op_unit in N.
    unfold op_bal2, op_bal, op_total. tauto.
  - intros s H. apply not_op in H. unfold is_op in H. rewrite !orb_false_iff in H.
    destruct H as [[[H1 H2] H3] H4]. rewrite ?H1, ?H2, ?H3, ?H4. reflexivity.
Qed.
Lemma stops_total : stops op_total (fun s => str_eqb s op_bal || str_eqb s op_bal2 || str_eqb s op_unit).
Proof.
  split.
  - intros s H N. rewrite !orb_true_iff, !str_eqb_eq. unfold op_token in H. unfold op_total in N.
    unfold op_bal2, op_bal, op_unit. tauto.
  - intros s H. apply not_op in H. unfold is_op in H. rewrite !orb_false_iff in H.
    destruct H as [[[H1 H2] H3] H4]. rewrite ?H1, ?H2, ?H3, ?H4. reflexivity.
Qed.

(** What a line made of clauses is read as. *)
Definition classic_of (d : char) (accounts : list str) (name : str) (amt : list str)
  (lookup : str -> option (list str)) : res classic :=
  let! a := read_opt d (match amt with [] => None | _ => Some amt end) in
  let! b := read_opt d (lookup op_bal) in
  let! u := read_opt d (lookup op_unit) in
  let! c := match u with
            | Some x => Ok (Some (UnitCost x))
            | None => let! t := read_opt d (lookup op_total) in Ok (option_map TotalCost t)
            end in
  if mem name accounts then Ok (mkClassic a name c b) else Err (EValidation (UndefinedAccount name)).

Lemma parse_classic_clauses line d accounts name amt cl :
  split_ws (remove_comments line) = name :: amt ++ clause_tokens cl ->
  clauses_ok amt cl ->
  parse_classic line d accounts = classic_of d accounts name amt (fun op => clause_of op cl).
Proof.
  intros E C. unfold parse_classic. rewrite split_ws_trim, E. unfold classic_of.
  assert (Forall is_token amt) as T.
  { assert (K := split_ws_tokens (remove_comments line)). rewrite E in K.
    inversion K as [|? ? _ K']; subst. apply Forall_app in K'. apply K'. }
  rewrite (parse_posting_amount_clauses d amt cl T C).
  unfold parse_balance_assertion, parse_price, parse_total_cost.
  rewrite (extract_clauses d op_bal _ amt cl) by (try exact C; try apply stops_bal; unfold op_token; tauto).
  rewrite (extract_clauses d op_unit _ amt cl) by (try exact C; try apply stops_unit; unfold op_token; tauto).
  rewrite (extract_clauses d op_total _ amt cl) by (try exact C; try apply stops_total; unfold op_token; tauto).
  destruct (read_opt d (match amt with [] => None | _ => Some amt end)); [cbn [bind]|reflexivity..].
  destruct (read_opt d (clause_of op_bal cl)); [cbn [bind]|reflexivity..].
  destruct (read_opt d (clause_of op_unit cl)) as [[u|]|e| |]; cbn [bind option_map]; reflexivity.
Qed.

Lemma classic_of_Ok d accounts name amt lookup c :
  classic_of d accounts name amt lookup = Ok c <->
  c_account c = name /\ In name accounts
  /\ reads d (match amt with [] => None | _ => Some amt end) (c_amount c)
  /\ reads d (lookup (lit "!")) (c_balance c)
  /\ match lookup (lit "@") with
     | Some ts => exists u, reads d (Some ts) (Some u) /\ c_cost c = Some (UnitCost u)
     | None => exists t, reads d (lookup (lit "=")) t /\ c_cost c = option_map TotalCost t
     end.
Proof.
  unfold classic_of. rewrite !reads_iff.
  change (lit "!") with op_bal. change (lit "@") with op_unit. change (lit "=") with op_total.
  destruct c as [ca cn cc cb]. cbn [c_account c_amount c_balance c_cost].
  destruct (read_opt d (match amt with [] => None | _ => Some amt end)) as [a|e| |]; cbn [bind];
    try (split; [discriminate|intros (_ & _ & E & _); discriminate]).
  destruct (read_opt d (lookup op_bal)) as [b|e| |]; cbn [bind];
    try (split; [discriminate|intros (_ & _ & _ & E & _); discriminate]).
  destruct (lookup op_unit) as [ts|].
  - destruct (read_opt d (Some ts)) as [u|e| |] eqn:U; cbn [bind];
      try (split; [discriminate|intros (_ & _ & _ & _ & u & E & _); apply reads_iff in E; congruence]).
    assert (exists x, u = Some x) as [x ->].
    { cbn [read_opt] in U. destruct (parse_amount _ d); cbn [bind] in U; try discriminate.
      injection U as <-. eauto. }
    cbn [bind]. destruct (mem name accounts) eqn:M.
    + apply mem_In in M. split.
      * intro E. injection E as <- <- <- <-. repeat split; try assumption.
        exists x. split; [apply reads_iff, U|reflexivity].
      * intros (-> & _ & E1 & E2 & u & E3 & ->). apply reads_iff in E3. congruence.
    + split; [discriminate|]. intros (_ & I & _). apply mem_In in I. congruence.
  - cbn [read_opt bind].
    destruct (read_opt d (lookup op_total)) as [t|e| |] eqn:U; cbn [bind];
      try (split; [discriminate|intros (_ & _ & _ & _ & t & E & _); apply reads_iff in E; congruence]).
    destruct (mem name accounts) eqn:M.
    + apply mem_In in M. split.
      * intro E. injection E as <- <- <- <-. repeat split; try assumption.
        exists t. split; [apply reads_iff, U|reflexivity].
      * intros (-> & _ & E1 & E2 & t' & E3 & ->). apply reads_iff in E3. congruence.
    + split; [discriminate|]. intros (_ & I & _). apply mem_In in I. congruence.
Qed.

(** Clause order does not matter. *)
Lemma clause_of_In op cl ts :
  NoDup (map fst cl) -> In (op, ts) cl -> clause_of op cl = Some ts.
Proof.
  unfold clause_of. induction cl as [|[o u] cl IH]; intros N I; [destruct I|].
  inversion N as [|? ? Nn Nd]; subst. cbn [List.find fst] in *. destruct I as [I|I].
  - injection I as -> ->. destruct (str_dec op op); [reflexivity|contradiction].
  - destruct (str_dec o op) as [->|D]; [|apply IH; assumption].
    exfalso. apply Nn. apply (in_map fst) in I. exact I.
Qed.
Lemma clause_of_None op cl : clause_of op cl = None <-> ~ In op (map fst cl).
Proof.
  unfold clause_of. induction cl as [|[o u] cl IH]; [split; [intros _ []|reflexivity]|].
  cbn [List.find fst map In]. destruct (str_dec o op) as [->|D].
  - split; [discriminate|]. intro H. exfalso. apply H. left. reflexivity.
  - rewrite IH. split; [intros H [E|I]; [congruence|contradiction]|tauto].
Qed.
Lemma clause_of_perm op cl cl' :
  NoDup (map fst cl) -> Permutation cl cl' -> clause_of op cl = clause_of op cl'.
Proof.
  intros N P. assert (NoDup (map fst cl')) as N' by (eapply Permutation_NoDup; [apply Permutation_map, P|exact N]).
  destruct (clause_of op cl) as [ts|] eqn:E.
  - symmetry. apply clause_of_In; [exact N'|]. eapply Permutation_in; [exact P|].
    unfold clause_of in E.
    match type of E with option_map _ ?f = _ => destruct f as [[o u]|] eqn:F end; [|discriminate].
    apply find_some in F. destruct F as [I F]. cbn [fst] in F. destruct (str_dec o op) as [->|]; [|discriminate].
    cbn in E. injection E as <-. exact I.
  - symmetry. apply clause_of_None. apply clause_of_None in E. intro I. apply E.
    eapply Permutation_in; [apply Permutation_sym, Permutation_map, P|exact I].
Qed.
Lemma classic_of_ext d accounts name amt f g :
  (forall op, f op = g op) -> classic_of d accounts name amt f = classic_of d accounts name amt g.
Proof. intro H. unfold classic_of. rewrite !H. reflexivity. Qed.

Lemma clauses_ok_perm amt cl cl' : Permutation cl cl' -> clauses_ok amt cl -> clauses_ok amt cl'.
Proof.
  intros P (A & C & N). split; [exact A|]. split.
  - rewrite Forall_forall in *. intros k I. apply C. eapply Permutation_in; [apply Permutation_sym, P|exact I].
  - eapply Permutation_NoDup; [apply Permutation_map, P|exact N].
Qed.

Lemma clause_order line line' d accounts name amt cl cl' :
  split_ws (remove_comments line) = name :: amt ++ clause_tokens cl ->
  split_ws (remove_comments line') = name :: amt ++ clause_tokens cl' ->
  clauses_ok amt cl -> Permutation cl cl' ->
  parse_classic line d accounts = parse_classic line' d accounts.
Proof.
  intros E E' C P. rewrite (parse_classic_clauses _ _ _ _ _ _ E C).
  rewrite (parse_classic_clauses _ _ _ _ _ _ E' (clauses_ok_perm _ _ _ P C)).
  apply classic_of_ext. intro op. apply clause_of_perm; [apply C|exact P].
Qed.

(** ** Printed amounts *)

Inductive printed (a : amount) : list str -> Prop :=
  | PrNone : symbol a = None -> printed a [show_f64 (rounded_mag a)]
  | PrGlued sym : symbol a = Some sym -> printed a [sym ++ show_f64 (rounded_mag a)]
  | PrFront sym : symbol a = Some sym -> printed a [sym; show_f64 (rounded_mag a)]
  | PrBack sym : symbol a = Some sym -> printed a [show_f64 (rounded_mag a); sym].

Lemma writable_fin a : writable a -> ffin (rounded_mag a) = true.
Proof. intros (F & _). rewrite ffin_SF. exact F. Qed.
Lemma writable_sym a sym : writable a -> symbol a = Some sym ->
  is_token sym /\ plain_symbol (Some sym) /\ markfree sym = true /\ is_op sym = false.
Proof.
  intros (_ & P & Q) E. rewrite E in P, Q. split; [apply token_iff, P|]. split; [exact P|].
  split; [apply markfree_iff, Q|apply not_op, Q].
Qed.
Lemma number_token a : writable a -> is_token (show_f64 (rounded_mag a)).
Proof. intro W. apply (show_f64_printed _ (writable_fin a W)). Qed.

Lemma show_amount_printed a : writable a -> printed a (split_ws (show_amount a)).
Proof.
  intro W. assert (T := number_token a W). unfold show_amount.
  change (chr " ") with 32%N. set (D := show_f64 (rounded_mag a)) in *.
  destruct (symbol a) as [sym|] eqn:E.
  - destruct (writable_sym a sym W E) as (Ts & _).
    destruct (Nat.leb (byte_len sym) 2); destruct (fltb (mag a) fzero).
    + rewrite split_ws_one; [apply PrGlued, E|]. destruct T as [_ T], Ts as [N Ts]. split.
      * destruct sym; [contradiction|discriminate].
      * apply no_ws_app. auto.
    + rewrite split_ws_tok by (try exact Ts; reflexivity). rewrite split_ws_lead by reflexivity.
      rewrite split_ws_one by exact T. apply PrFront, E.
    + rewrite split_ws_tok by (try exact T; reflexivity). rewrite split_ws_lead by reflexivity.
      rewrite split_ws_one by exact Ts. apply PrBack, E.
    + cbn [app]. rewrite split_ws_lead by reflexivity.
      rewrite split_ws_tok by (try exact T; reflexivity). rewrite split_ws_lead by reflexivity.
      rewrite split_ws_one by exact Ts. apply PrBack, E.
  - destruct (fltb (mag a) fzero).
    + rewrite split_ws_one by exact T. apply PrNone, E.
    + rewrite split_ws_lead by reflexivity. rewrite split_ws_one by exact T. apply PrNone, E.
Qed.

Lemma parse_printed a ts :
  writable a -> printed a ts ->
  parse_amount (join (lit " ") ts) 46%N = Ok (to8 a) /\ parse_amount (List.concat ts) 46%N = Ok (to8 a).
Proof.
  intros W P. unfold to8. assert (F := writable_fin a W). set (r := rounded_mag a) in *.
  assert (K := show_f64_printed r F). assert (R := parse_show_f64 r F).
  assert (T := proj1 K). assert (M := proj1 (proj2 K)).
  assert (PZ : forall sym, symbol a = Some sym ->
     parse_amount (sym ++ show_f64 r) 46%N = Ok (mkAmount r (symbol a))
     /\ parse_amount (show_f64 r ++ sym) 46%N = Ok (mkAmount r (symbol a))).
  { intros sym E. destruct (writable_sym a sym W E) as (Ts & Ps & _ & _).
    assert (N45 := plain_no45 _ Ps). assert (PM := plain_mag _ Ps). assert (PS := plain_sym _ Ps).
    split.
    - rewrite (parse_amount_parts _ (sym ++ show_f64 r) r).
      + rewrite filter_app, PS, (printed_sym _ M), app_nil_r, E. destruct sym; [destruct Ts; contradiction|reflexivity].
      + assert (X := wdd_around sym (show_f64 r) [] K N45 (fun x => x)). rewrite app_nil_r in X. rewrite X.
        apply split_ws_one. destruct Ts as [N Ts], T as [_ T]. split.
        * destruct sym; [contradiction|discriminate].
        * apply no_ws_app. auto.
      + rewrite filter_app, PM, (filter_all _ _ M). exact R.
    - rewrite (parse_amount_parts _ (show_f64 r ++ sym) r).
      + rewrite filter_app, PS, (printed_sym _ M), E. destruct sym; [destruct Ts; contradiction|reflexivity].
      + assert (X := wdd_around [] (show_f64 r) sym K (fun x => x) N45). cbn [app] in X. rewrite X.
        apply split_ws_one. destruct Ts as [_ Ts], T as [N T]. split.
        * destruct (show_f64 r); [contradiction|discriminate].
        * apply no_ws_app. auto.
      + rewrite filter_app, PM, (filter_all _ _ M), app_nil_r. exact R. }
  destruct P as [E|sym E|sym E|sym E]; fold r; cbn [join List.concat]; rewrite ?app_nil_r.
  - assert (parse_amount (show_f64 r) 46%N = Ok (mkAmount r (symbol a))) as H; [|split; exact H].
    rewrite (parse_amount_parts _ (show_f64 r) r).
    + rewrite (printed_sym _ M), E. reflexivity.
    + assert (X := wdd_around [] (show_f64 r) [] K (fun x => x) (fun x => x)).
      cbn [app] in X. rewrite app_nil_r in X. rewrite X. apply split_ws_one, T.
    + rewrite (filter_all _ _ M). exact R.
  - destruct (PZ sym E) as [H _]. split; exact H.
  - destruct (PZ sym E) as [H _]. split; [|exact H].
    destruct (writable_sym a sym W E) as (Ts & Ps & _ & _).
    assert (N45 := plain_no45 _ Ps). assert (PM := plain_mag _ Ps). assert (PS := plain_sym _ Ps).
    change (lit " ") with [32%N]. cbn [app].
    rewrite (parse_amount_parts2 _ sym (show_f64 r) r).
    + rewrite PS, (printed_sym _ M), E. destruct sym; [destruct Ts; contradiction|reflexivity].
    + assert (X := wdd_around (sym ++ [32%N]) (show_f64 r) [] K). rewrite app_nil_r in X.
      rewrite <- app_assoc in X. cbn [app] in X. rewrite X.
      * rewrite split_ws_tok by (try exact Ts; reflexivity).
        rewrite split_ws_lead by reflexivity. rewrite split_ws_one by exact T. reflexivity.
      * rewrite in_app_iff. intros [I|[I|[]]]; [contradiction|discriminate].
      * easy.
    + rewrite PM, (filter_all _ _ M). exact R.
  - destruct (PZ sym E) as [_ H]. split; [|exact H].
    destruct (writable_sym a sym W E) as (Ts & Ps & _ & _).
    assert (N45 := plain_no45 _ Ps). assert (PM := plain_mag _ Ps). assert (PS := plain_sym _ Ps).
    change (lit " ") with [32%N]. cbn [app].
    rewrite (parse_amount_parts2 _ (show_f64 r) sym r).
    + rewrite PS, (printed_sym _ M), E. destruct sym; [destruct Ts; contradiction|reflexivity].
    + assert (X := wdd_around [] (show_f64 r) (32%N :: sym) K). cbn [app] in X. rewrite X.
      * rewrite split_ws_tok by (try exact T; reflexivity).
        rewrite split_ws_lead by reflexivity. rewrite split_ws_one by exact Ts. reflexivity.
      * easy.
      * intros [I|I]; [discriminate|contradiction].
    + rewrite PM, (filter_all _ _ M), app_nil_r. exact R.
Qed.

(** Printed numbers: digits, dots and dashes. *)
Lemma number_chars x : ffin x = true ->
  forall c, In c (show_f64 x) -> digit_char c \/ c = 46%N \/ c = 45%N.
Proof.
  intros F c I. destruct (show_f64_printed x F) as (_ & M & _).
  rewrite forallb_forall in M. specialize (M c I). unfold mag_char in M.
  rewrite !orb_true_iff, andb_true_iff, !N.leb_le, !N.eqb_eq in M. unfold digit_char. tauto.
Qed.
Lemma number_markfree x : ffin x = true -> markfree (show_f64 x) = true.
Proof.
  intro F. apply markfree_Forall, Forall_forall. intros c I. apply (number_chars x F) in I.
  unfold digit_char in I. split; intros ->; lia.
Qed.
Lemma number_start x s : ffin x = true -> no_slash_start (show_f64 x ++ s).
Proof.
  intro F. destruct (show_f64 x) as [|c t] eqn:E.
  - destruct (show_f64_printed x F) as ((N & _) & _). rewrite E in N. contradiction.
  - cbn [app no_slash_start]. intros ->.
    assert (In 47%N (show_f64 x)) as I by (rewrite E; left; reflexivity).
    apply (number_chars x F) in I. unfold digit_char in I. lia.
Qed.
Lemma number_not_op x a : ffin x = true -> is_op (a ++ show_f64 x) = false.
Proof.
  intro F. apply not_op. intro H.
  assert (exists c, In c (show_f64 x)) as [c I].
  { destruct (show_f64 x) as [|c t] eqn:E; [|exists c; left; reflexivity].
    destruct (show_f64_printed x F) as ((N & _) & _). rewrite E in N. contradiction. }
  assert (In c (a ++ show_f64 x)) as J by (apply in_app_iff; auto).
  apply (number_chars x F) in I. unfold digit_char in I.
  destruct H as [H|[H|[H|H]]]; rewrite H in J; cbn in J; repeat destruct J as [J|J]; try subst c; try lia; destruct J.
Qed.

Lemma markfree_space s : markfree s = true -> markfree (32%N :: s) = true.
Proof. intro H. cbn [markfree N.eqb]. exact H. Qed.

Lemma show_amount_markfree a : writable a -> markfree (show_amount a) = true.
Proof.
  intro W. assert (F := writable_fin a W). assert (M := number_markfree _ F).
  unfold show_amount. change (chr " ") with 32%N.
  assert (markfree (if fltb (mag a) fzero then show_f64 (rounded_mag a)
                    else 32%N :: show_f64 (rounded_mag a)) = true) as M'.
  { destruct (fltb _ _); [exact M|apply markfree_space, M]. }
  assert (no_slash_start (if fltb (mag a) fzero then show_f64 (rounded_mag a)
                    else 32%N :: show_f64 (rounded_mag a))) as N'.
  { destruct (fltb _ _); [|discriminate]. assert (N := number_start _ [] F).
    rewrite app_nil_r in N. exact N. }
  destruct (symbol a) as [sym|] eqn:E; [|exact M'].
  destruct (writable_sym a sym W E) as (Ts & _ & Ms & _).
  destruct (Nat.leb (byte_len sym) 2).
  - apply markfree_app; assumption.
  - apply markfree_app; [exact M'|apply markfree_space, Ms|discriminate].
Qed.

Lemma printed_not_op a ts : writable a -> printed a ts -> Forall (fun t => ~ op_token t) ts.
Proof.
  intros W P. assert (F := writable_fin a W).
  assert (forall s, is_op s = false -> ~ op_token s) as K.
  { intros s H I. apply is_op_iff in I. congruence. }
  destruct P as [E|sym E|sym E|sym E]; repeat constructor; apply K;
    try (apply (number_not_op _ [] F)); try (apply (number_not_op _ sym F));
    apply (writable_sym a sym W E).
Qed.
Lemma printed_nonempty a ts : printed a ts -> ts <> [].
Proof. intro P. destruct P; discriminate. Qed.

(** ** C10 *)

Lemma split_ws_space s : split_ws (32%N :: s) = split_ws s.
Proof. apply split_ws_lead. reflexivity. Qed.
Lemma split_ws_padded name k s :
  is_token name -> split_ws ((name ++ spaces k) ++ 32%N :: s) = name :: split_ws s.
Proof.
  intro T. rewrite <- app_assoc, spaces_cons_end, split_ws_tok by (try exact T; reflexivity).
  rewrite split_ws_space, split_ws_ws by apply all_ws_spaces. reflexivity.
Qed.

Definition cost_op (k : cost) : str := match k with TotalCost _ => op_total | UnitCost _ => op_unit end.
Definition clauses_of_classic (c : classic) : list clause :=
  (match c_cost c with Some k => [(cost_op k, split_ws (show_amount (cost_amount k)))] | None => [] end)
  ++ (match c_balance c with Some b => [(op_bal, split_ws (show_amount b))] | None => [] end).

Lemma show_cost_tokens k : split_ws (32%N :: show_cost k) = cost_op k :: split_ws (show_amount (cost_amount k)).
Proof.
  rewrite split_ws_space. destruct k as [a|a]; cbn [show_cost cost_op cost_amount].
  - change (lit " = " ++ show_amount a) with (32%N :: op_total ++ 32%N :: show_amount a).
    rewrite split_ws_space, split_ws_tok by first [reflexivity | split; [discriminate|reflexivity]].
    rewrite split_ws_space. reflexivity.
  - change (lit " @ " ++ show_amount a) with (32%N :: op_unit ++ 32%N :: show_amount a).
    rewrite split_ws_space, split_ws_tok by first [reflexivity | split; [discriminate|reflexivity]].
    rewrite split_ws_space. reflexivity.
Qed.

Lemma show_classic_tokens c :
  is_token (c_account c) ->
  split_ws (show_classic c) =
  c_account c
  :: (match c_amount c with Some a => split_ws (show_amount a) | None => [] end)
  ++ clause_tokens (clauses_of_classic c).
Proof.
  intro T. unfold show_classic. cbv zeta. change (chr " ") with 32%N.
  destruct (pad_right_split 50 (c_account c)) as [k ->]. rewrite split_ws_padded by exact T. f_equal.
  rewrite split_ws_app_ws by (destruct (c_cost c); [reflexivity|destruct (c_balance c); reflexivity]).
  f_equal; [destruct (c_amount c); reflexivity|].
  rewrite split_ws_app_ws by (destruct (c_balance c); reflexivity).
  unfold clauses_of_classic, clause_tokens. rewrite flat_map_app. f_equal.
  - destruct (c_cost c) as [x|]; [|reflexivity]. rewrite show_cost_tokens.
    cbn [flat_map fst snd]. rewrite app_nil_r. reflexivity.
  - destruct (c_balance c) as [b|]; [|reflexivity].
    change (lit " ! " ++ show_amount b) with (32%N :: op_bal ++ 32%N :: show_amount b).
    rewrite split_ws_space, split_ws_tok by first [reflexivity | split; [discriminate|reflexivity]].
    rewrite split_ws_space. cbn [flat_map fst snd]. rewrite app_nil_r. reflexivity.
Qed.

Lemma show_classic_markfree c :
  markfree (c_account c) = true ->
  opt_holds writable (c_amount c) -> opt_holds (fun k => writable (cost_amount k)) (c_cost c) ->
  opt_holds writable (c_balance c) ->
  markfree (show_classic c) = true.
Proof.
  intros Mn Wa Wc Wb. unfold show_classic. cbv zeta. change (chr " ") with 32%N.
  destruct (pad_right_split 50 (c_account c)) as [k ->].
  apply markfree_app; [apply markfree_app; [exact Mn|apply markfree_spaces|]| |].
  - destruct k; [exact I|discriminate].
  - apply markfree_space. apply markfree_app.
    + destruct (c_amount c); [apply show_amount_markfree, Wa|reflexivity].
    + apply markfree_app.
      * destruct (c_cost c) as [[x|x]|]; [| |reflexivity]; cbn [show_cost cost_amount opt_holds] in *.
        -- apply (markfree_app (lit "  =")); [reflexivity|apply markfree_space, show_amount_markfree, Wc|discriminate].
        -- apply (markfree_app (lit "  @")); [reflexivity|apply markfree_space, show_amount_markfree, Wc|discriminate].
      * destruct (c_balance c) as [b|]; [|reflexivity].
        apply (markfree_app (lit " !")); [reflexivity|apply markfree_space, show_amount_markfree, Wb|discriminate].
      * destruct (c_balance c) as [b|]; [discriminate|exact I].
    + destruct (c_cost c) as [x|]; [discriminate|]. destruct (c_balance c) as [b|]; [discriminate|exact I].
  - discriminate.
Qed.

(** Reading a posting depends only on the tokens before the first mark. *)
Lemma parse_posting_markfree l d accounts :
  parse_posting l d accounts =
  match split_ws (remove_comments l) with
  | [] => Err (EParse PostingBlank)
  | t :: _ =>
      if str_eqb t (lit "envelope") then
        let! e := parse_envposting (trim (remove_comments l)) d in Ok (EnvPosting e)
      else let! c := parse_classic (remove_comments l) d accounts in Ok (Classic c)
  end.
Proof.
  unfold parse_posting. cbv zeta. rewrite split_ws_trim.
  destruct (split_ws (remove_comments l)) as [|t ts] eqn:E; [reflexivity|].
  unfold parse_envposting, parse_classic. rewrite !split_ws_trim, remove_comments_idem.
  rewrite (remove_comments_markfree (trim (remove_comments l)))
    by (apply markfree_trim, markfree_remove_comments).
  rewrite !split_ws_trim, E. reflexivity.
Qed.
Lemma parse_posting_tokens l l' d accounts p :
  split_ws (remove_comments l) = split_ws (remove_comments l') ->
  parse_posting l' d accounts = Ok p -> parse_posting l d accounts = Ok p.
Proof.
  intro E. rewrite !parse_posting_markfree, E. unfold parse_envposting, parse_classic.
  rewrite !remove_comments_idem, !split_ws_trim, E.
  destruct (split_ws (remove_comments l')) as [|t [|a [|b ts]]]; try (intro H; exact H);
    cbn [skipn]; destruct (str_eqb t (lit "envelope")); try (intro H; exact H); discriminate.
Qed.

Lemma show_envposting_tokens e :
  is_token (ep_account e) -> is_token (ep_envelope e) ->
  split_ws (show_envposting e)
  = lit "envelope" :: ep_account e :: ep_envelope e :: split_ws (show_amount (ep_amount e)).
Proof.
  intros Ta Te. unfold show_envposting. cbv zeta. change (chr " ") with 32%N.
  destruct (pad_right_split 50 (lit "envelope " ++ ep_account e ++ 32%N :: ep_envelope e)) as [k ->].
  change (lit "envelope ") with (lit "envelope" ++ [32%N]).
  replace ((((lit "envelope" ++ [32%N]) ++ ep_account e ++ 32%N :: ep_envelope e) ++ spaces k)
      ++ 32%N :: show_amount (ep_amount e))
    with (lit "envelope" ++ 32%N :: ep_account e ++ 32%N :: (ep_envelope e ++ spaces k) ++ 32%N :: show_amount (ep_amount e)).
  2:{ repeat (rewrite <- app_assoc; cbn [app]). reflexivity. }
  rewrite split_ws_tok by first [reflexivity | split; [discriminate|reflexivity]].
  rewrite split_ws_space, split_ws_tok by (try exact Ta; reflexivity).
  rewrite split_ws_space, split_ws_padded by exact Te. reflexivity.
Qed.
Lemma show_envposting_markfree e :
  markfree (ep_account e) = true -> markfree (ep_envelope e) = true -> writable (ep_amount e) ->
  markfree (show_envposting e) = true.
Proof.
  intros Ma Me W. unfold show_envposting. cbv zeta. change (chr " ") with 32%N.
  destruct (pad_right_split 50 (lit "envelope " ++ ep_account e ++ 32%N :: ep_envelope e)) as [k ->].
  apply markfree_app; [apply markfree_app; [|apply markfree_spaces|]| |].
  - change (lit "envelope " ++ ep_account e ++ 32%N :: ep_envelope e)
      with (lit "envelope" ++ (32%N :: (ep_account e ++ 32%N :: ep_envelope e))).
    apply markfree_app; [reflexivity| |discriminate].
    apply markfree_space, markfree_app; [exact Ma|apply markfree_space, Me|discriminate].
  - destruct k; [exact I|discriminate].
  - apply markfree_space, show_amount_markfree, W.
  - discriminate.
Qed.

Lemma show_posting_markfree accounts p : writable_posting accounts p -> markfree (show_posting p) = true.
Proof.
  destruct p as [c|e]; cbn [writable_posting show_posting].
  - intros ((_ & U) & _ & _ & Wa & Wc & Wb). apply markfree_iff in U.
    apply show_classic_markfree; assumption.
  - intros ((_ & U1) & (_ & U2) & W). apply markfree_iff in U1, U2. apply show_envposting_markfree; assumption.
Qed.

Lemma parse_show_posting accounts p :
  writable_posting accounts p ->
  parse_posting (show_posting p) 46%N accounts = Ok (to8_posting p).
Proof.
  intro W. assert (M := show_posting_markfree accounts p W).
  rewrite parse_posting_markfree, (remove_comments_markfree _ M).
  destruct p as [c|e]; cbn [writable_posting show_posting] in *.
  - destruct W as ((T & U) & Ne & I & Wa & Wc & Wb). apply token_iff in T.
    rewrite show_classic_tokens by exact T. cbn [app].
    destruct (str_eqb_spec (c_account c) (lit "envelope")) as [E|_]; [contradiction|].
    rewrite (parse_classic_clauses (show_classic c) 46%N accounts (c_account c)
               (match c_amount c with Some a => split_ws (show_amount a) | None => [] end)
               (clauses_of_classic c)).
    + assert (R : forall a, writable a -> read_opt 46%N (Some (split_ws (show_amount a))) = Ok (Some (to8 a))).
      { intros a Ha. cbn [read_opt]. rewrite (proj1 (parse_printed a _ Ha (show_amount_printed a Ha))). reflexivity. }
      unfold classic_of, to8_posting, clauses_of_classic.
      replace (match (match c_amount c with Some a => split_ws (show_amount a) | None => [] end) with
               | [] => None | _ => Some (match c_amount c with Some a => split_ws (show_amount a) | None => [] end) end)
        with (option_map (fun a => split_ws (show_amount a)) (c_amount c)).
      2:{ destruct (c_amount c) as [a|]; [|reflexivity]. cbn [option_map].
          assert (N := printed_nonempty _ _ (show_amount_printed a Wa)).
          destruct (split_ws (show_amount a)); [contradiction|reflexivity]. }
      assert (read_opt 46%N (option_map (fun a => split_ws (show_amount a)) (c_amount c))
              = Ok (option_map to8 (c_amount c))) as ->.
      { destruct (c_amount c) as [a|]; [|reflexivity]. apply R, Wa. }
      cbn [bind]. assert (mem (c_account c) accounts = true) as -> by (apply mem_In, I).
      destruct (c_cost c) as [[k|k]|] eqn:Ec, (c_balance c) as [b|] eqn:Eb;
        cbn [opt_holds cost_amount] in *;
        unfold clause_of; cbn [app List.find fst cost_op cost_amount];
        repeat (destruct (str_dec _ _) as [X|X]; try discriminate X; try congruence; clear X);
        cbn [option_map snd]; rewrite ?R by assumption; reflexivity.
    + rewrite (remove_comments_markfree _ M). apply show_classic_tokens, T.
    + split; [|split].
      * destruct (c_amount c) as [a|]; [|constructor].
        apply (printed_not_op a); [exact Wa|apply show_amount_printed, Wa].
      * unfold clauses_of_classic. apply Forall_app. split.
        -- destruct (c_cost c) as [k|]; [|constructor]. constructor; [split|constructor]; cbn [fst snd].
           ++ destruct k; [right; right; right|right; right; left]; reflexivity.
           ++ apply (printed_not_op (cost_amount k)); [exact Wc|apply show_amount_printed, Wc].
        -- destruct (c_balance c) as [b|]; [|constructor]. constructor; [split|constructor]; cbn [fst snd].
           ++ left. reflexivity.
           ++ apply (printed_not_op b); [exact Wb|apply show_amount_printed, Wb].
      * unfold clauses_of_classic. destruct (c_cost c) as [[k|k]|], (c_balance c) as [b|]; cbn;
          repeat constructor; cbn; intuition discriminate.
  - destruct W as ((T1 & _) & (T2 & _) & Wa). apply token_iff in T1, T2.
    rewrite show_envposting_tokens by assumption.
    change (str_eqb (lit "envelope") (lit "envelope")) with true.
    unfold parse_envposting. rewrite split_ws_trim, show_envposting_tokens by assumption. cbn [skipn].
    rewrite (proj2 (parse_printed _ _ Wa (show_amount_printed _ Wa))). reflexivity.
Qed.

(** ** C12 for posting lines *)
Lemma posting_clauses line d accounts name amt cl c :
  split_ws (remove_comments line) = name :: amt ++ clause_tokens cl ->
  name <> lit "envelope" -> clauses_ok amt cl ->
  (parse_posting line d accounts = Ok (Classic c) <->
   c_account c = name /\ In name accounts
   /\ reads d (match amt with [] => None | _ => Some amt end) (c_amount c)
   /\ reads d (clause_of (lit "!") cl) (c_balance c)
   /\ match clause_of (lit "@") cl with
      | Some ts => exists u, reads d (Some ts) (Some u) /\ c_cost c = Some (UnitCost u)
      | None => exists t, reads d (clause_of (lit "=") cl) t /\ c_cost c = option_map TotalCost t
      end).
Proof.
  intros E N C. rewrite parse_posting_markfree, E. rewrite (proj2 (str_eqb_neq _ _) N).
  rewrite (parse_classic_clauses (remove_comments line) d accounts name amt cl);
    [|rewrite remove_comments_idem; exact E|exact C].
  rewrite <- (classic_of_Ok d accounts name amt (fun op => clause_of op cl) c).
  destruct (classic_of d accounts name amt (fun op => clause_of op cl)); cbn [bind]; split; congruence.
Qed.
Lemma posting_clause_order line line' d accounts name amt cl cl' :
  split_ws (remove_comments line) = name :: amt ++ clause_tokens cl ->
  split_ws (remove_comments line') = name :: amt ++ clause_tokens cl' ->
  clauses_ok amt cl -> Permutation cl cl' -> name <> lit "envelope" ->
  parse_posting line d accounts = parse_posting line' d accounts.
Proof.
  intros E E' C P N. rewrite !parse_posting_markfree, E, E'. rewrite (proj2 (str_eqb_neq _ _) N).
  rewrite (clause_order (remove_comments line) (remove_comments line') d accounts name amt cl cl');
    [reflexivity|rewrite remove_comments_idem; exact E|rewrite remove_comments_idem; exact E'|exact C|exact P].
Qed.
