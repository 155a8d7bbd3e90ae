(** Proofs about rules files. *)
From Coq Require Import ZArith NArith List Bool String Permutation Lia.
From Verif Require Import Base Str F64 Date World Amount Posting Entry Ledger Importer
  SpecAmount SpecDate SpecEntry SpecEnvelope SpecLedger SpecRegister SpecImport
  StrFacts LineFacts AmountFacts PostingFacts EntryFacts AccountFacts EnvelopeFacts LedgerFacts LoadFacts RegisterFacts.
Import ListNotations.

(** ** Layout *)
Definition header_patterns (l : str) : res (list str) :=
  match position is_ws l with
  | Some i => let! p := slice_from (S i) l in Ok [p]
  | None => Ok []
  end.
Definition item_step (inc : str -> rules -> res rules) (r : rules) (i : item) : res rules :=
  match i with
  | Root l => add_from_line inc r l
  | Block l ps rs =>
      let! p := header_patterns l in
      let! br := fold_res (add_from_line inc) rs r in
      Ok (push_subrules r (p ++ ps, br))
  end.

Lemma starts_block_iff l : starts_with (lit "if") l = true <-> starts_block l.
Proof. apply starts_with_iff. Qed.
Definition indentedb (l : str) : bool := match l with c :: _ => is_ws c | [] => false end.
Lemma indentedb_iff l : indentedb l = true <-> indented l.
Proof.
  unfold indentedb, indented. destruct l as [|c r].
  - split; [discriminate|]. intros (c & r & E & _). discriminate.
  - split; [eauto|]. intros (c' & r' & E & H). injection E as <- <-. exact H.
Qed.

Definition clean (l : str) : Prop := remove_comments l = l /\ ~ all_ws l.
Lemma rule_lines_clean text : Forall clean (rule_lines text).
Proof.
  unfold rule_lines. apply Forall_forall. intros l I. apply filter_In in I as (I & H).
  apply in_map_iff in I as (l' & <- & _). split; [apply remove_comments_idem|].
  unfold all_ws. apply negb_true_iff in H. congruence.
Qed.

Lemma rules_line_skip inc st l : all_ws (remove_comments l) -> rules_line inc st l = Ok st.
Proof.
  intro H. unfold rules_line. assert (trim (remove_comments l) = []) as -> by (apply trim_nil, H). reflexivity.
Qed.
Lemma rules_line_clean inc st l : rules_line inc st (remove_comments l) = rules_line inc st l.
Proof. unfold rules_line. rewrite remove_comments_idem. reflexivity. Qed.
Lemma rules_fold_lines inc ls : forall st, fold_res (rules_line inc) ls st
  = fold_res (rules_line inc) (filter (fun l => negb (forallb is_ws l)) (map remove_comments ls)) st.
Proof.
  induction ls as [|l ls IH]; intro st; cbn [fold_res map filter]; [reflexivity|].
  destruct (forallb is_ws (remove_comments l)) eqn:E; cbn [negb].
  - rewrite rules_line_skip by exact E. cbn [bind]. apply IH.
  - cbn [fold_res]. rewrite rules_line_clean. destruct (rules_line inc st l); cbn [bind]; auto.
Qed.

Lemma rules_line_eq inc st l : clean l -> rules_line inc st l =
  match st_block st with
  | Some (pats, br) =>
      if indentedb l then
        let! br' := add_from_line inc br l in Ok (mkRState (st_root st) (Some (pats, br')) true)
      else if st_inrules st then root_line inc (push_subrules (st_root st) (pats, br)) l
      else Ok (mkRState (st_root st) (Some (pats ++ [l], br)) false)
  | None => root_line inc (st_root st) l
  end.
Proof.
  intros (R & W). unfold rules_line. rewrite R. destruct (trim l) eqn:T.
  - exfalso. apply W, trim_nil, T.
  - destruct l as [|c' l']; [exfalso; apply W; reflexivity|]. reflexivity.
Qed.

Definition finish (st : rstate) : rules :=
  match st_block st with Some b => push_subrules (st_root st) b | None => st_root st end.

Lemma pattern_lines inc root br ps : forall pats, Forall clean ps -> Forall (fun p => ~ indented p) ps ->
  fold_res (rules_line inc) ps (mkRState root (Some (pats, br)) false)
  = Ok (mkRState root (Some (pats ++ ps, br)) false).
Proof.
  induction ps as [|p ps IH]; intros pats C N; cbn [fold_res]; [rewrite app_nil_r; reflexivity|].
  inversion C; inversion N; subst. rewrite rules_line_eq by assumption. cbn [st_block st_inrules st_root].
  destruct (indentedb p) eqn:E; [apply indentedb_iff in E; contradiction|]. cbn [bind].
  rewrite IH by assumption. rewrite <- app_assoc. reflexivity.
Qed.
Lemma block_lines inc root pats rs : forall br k, Forall clean rs -> Forall indented rs ->
  fold_res (rules_line inc) rs (mkRState root (Some (pats, br)) k)
  = let! br' := fold_res (add_from_line inc) rs br in
    Ok (mkRState root (Some (pats, br')) (match rs with [] => k | _ => true end)).
Proof.
  induction rs as [|l rs IH]; intros br k C N; cbn [fold_res]; [reflexivity|].
  inversion C; inversion N; subst. rewrite rules_line_eq by assumption. cbn [st_block st_inrules st_root].
  assert (indentedb l = true) as -> by (apply indentedb_iff; assumption).
  destruct (add_from_line inc br l) as [br'| | |]; cbn [bind]; try reflexivity.
  rewrite IH by assumption. destruct rs; reflexivity.
Qed.

Lemma layout_fold inc ls is : layout ls is -> Forall clean ls -> forall r,
  (let! st := fold_res (rules_line inc) ls (mkRState r None false) in Ok (finish st))
  = fold_res (item_step inc) is r.
Proof.
  induction 1 as [|l ls is N L IH|l ps rs ls is B Np Ir E Hh L IH]; intros C r.
  - reflexivity.
  - inversion C as [|? ? C1 C2]; subst. cbn [fold_res item_step].
    rewrite rules_line_eq by exact C1. cbn [st_block st_root]. unfold root_line.
    destruct (starts_with (lit "if") l) eqn:S; [apply starts_block_iff in S; contradiction|].
    destruct (add_from_line inc r l) as [r'| | |]; cbn [bind]; try reflexivity. apply IH, C2.
  - inversion C as [|? ? C1 C2]; subst. apply Forall_app in C2 as (Cp & C2). apply Forall_app in C2 as (Cr & Cl).
    cbn [fold_res item_step]. rewrite rules_line_eq by exact C1. cbn [st_block st_root]. unfold root_line.
    apply starts_block_iff in B. rewrite B. fold (header_patterns l).
    destruct (header_patterns l) as [hp| | |]; cbn [bind]; try reflexivity.
    rewrite fold_res_app, pattern_lines by assumption. cbn [bind].
    rewrite fold_res_app, block_lines by assumption.
    destruct (fold_res (add_from_line inc) rs r) as [br| | |]; cbn [bind]; try reflexivity.
    rewrite <- IH by exact Cl. destruct ls as [|h ls].
    + reflexivity.
    + destruct rs as [|r0 rs]; [discriminate (E eq_refl)|]. cbn [fold_res].
      inversion Cl as [|? ? Ch Ct]; subst. rewrite !rules_line_eq by exact Ch. cbn [st_block st_root st_inrules].
      destruct (indentedb h) eqn:I; [|reflexivity]. apply indentedb_iff in I. exfalso. exact (Hh h ls eq_refl I).
Qed.

Fixpoint span (f : str -> bool) (l : list str) : list str * list str :=
  match l with
  | [] => ([], [])
  | x :: l' => if f x then let (a, b) := span f l' in (x :: a, b) else ([], l)
  end.
Lemma span_spec f l : forall a b, span f l = (a, b) ->
  l = a ++ b /\ Forall (fun x => f x = true) a /\ (forall h t, b = h :: t -> f h = false).
Proof.
  induction l as [|x l IH]; intros a b E; cbn in E.
  - injection E as <- <-. repeat split; try constructor. discriminate.
  - destruct (f x) eqn:F.
    + destruct (span f l) as (a' & b'). injection E as <- <-. destruct (IH a' b' eq_refl) as (-> & Fa & H).
      repeat split; auto.
    + injection E as <- <-. repeat split; try constructor. intros h t E. injection E as <- <-. exact F.
Qed.
Lemma layout_total ls : exists is, layout ls is.
Proof.
  remember (List.length ls) as n eqn:En. revert ls En. induction n as [n IH] using lt_wf_ind. intros ls ->.
  destruct ls as [|l ls]; [exists []; constructor|].
  destruct (starts_with (lit "if") l) eqn:S.
  - destruct (span (fun x => negb (indentedb x)) ls) as (ps & ls1) eqn:E1. apply span_spec in E1 as (-> & F1 & H1).
    destruct (span indentedb ls1) as (rs & ls2) eqn:E2. apply span_spec in E2 as (-> & F2 & H2).
    destruct (IH (List.length ls2)) with (ls := ls2) as (is & L).
    { cbn [List.length]. rewrite !app_length. lia. }
    { reflexivity. }
    exists (Block l ps rs :: is). apply layout_block; auto.
    + apply starts_block_iff, S.
    + eapply Forall_impl; [|exact F1]. cbn. intros x Hx. apply negb_true_iff in Hx. rewrite <- indentedb_iff. congruence.
    + eapply Forall_impl; [|exact F2]. cbn. intros x Hx. apply indentedb_iff, Hx.
    + intros ->. cbn [app] in *. destruct ls2 as [|h t]; [reflexivity|].
      specialize (H1 h t eq_refl). specialize (H2 h t eq_refl). cbn in H1. rewrite H2 in H1. discriminate.
    + intros h t ->. rewrite <- indentedb_iff. rewrite (H2 h t eq_refl). discriminate.
  - destruct (IH (List.length ls)) with (ls := ls) as (is & L); [cbn; lia|reflexivity|].
    exists (Root l :: is). constructor; [|exact L]. rewrite <- starts_block_iff. congruence.
Qed.

Lemma split_run (P : str -> Prop) a : forall b a' b', a ++ b = a' ++ b' ->
  Forall P a -> Forall P a' -> (forall h t, b = h :: t -> ~ P h) -> (forall h t, b' = h :: t -> ~ P h) ->
  a = a' /\ b = b'.
Proof.
  induction a as [|x a IH]; intros b a' b' E Fa Fa' Hb Hb'.
  - destruct a' as [|x' a']; [auto|]. cbn in E. inversion Fa'; subst. exfalso. eapply Hb; eauto.
  - destruct a' as [|x' a'].
    + cbn in E. inversion Fa; subst. exfalso. eapply Hb'; eauto.
    + cbn in E. injection E as <- E. inversion Fa; inversion Fa'; subst.
      destruct (IH b a' b' E) as (-> & ->); auto.
Qed.
Lemma layout_unique ls is : layout ls is -> forall is', layout ls is' -> is = is'.
Proof.
  assert (forall rs (ls : list str), Forall indented rs -> (rs = [] -> ls = []) ->
            (forall h t, ls = h :: t -> ~ indented h) -> forall h t, rs ++ ls = h :: t -> ~ ~ indented h) as K.
  { intros rs ls0 F E Hh h t X. destruct rs as [|r rs].
    - rewrite (E eq_refl) in X. discriminate.
    - cbn in X. injection X as -> X. inversion F; subst. tauto. }
  induction 1 as [|l ls is N L IH|l ps rs ls is B Np Ir E Hh L IH]; intros is' L'.
  - inversion L'. reflexivity.
  - inversion L' as [|? ? ? N' L2|? ? ? ? ? B']; subst; [f_equal; auto|contradiction].
  - inversion L' as [|? ? ? N' L2|? ps' rs' ls' is2 B' Np' Ir' E' Hh' L2 X Y]; subst; [contradiction|].
    destruct (split_run (fun p => ~ indented p) ps' (rs' ++ ls') ps (rs ++ ls)) as (-> & X1); auto.
    { eapply K; eauto. } { eapply K; eauto. }
    destruct (split_run indented rs' ls' rs ls) as (-> & ->); auto.
    f_equal. auto.
Qed.

Lemma rules_layout inc r text is : layout (rule_lines text) is ->
  rules_from_str inc r text = fold_res (item_step inc) is r.
Proof.
  intro L. unfold rules_from_str. rewrite rules_fold_lines. fold (rule_lines text).
  rewrite <- (layout_fold inc _ _ L (rule_lines_clean text) r). reflexivity.
Qed.

Lemma ascii_len c : (c < 128)%N -> utf8_len c = 1%nat.
Proof. intro H. unfold utf8_len. apply N.ltb_lt in H. rewrite H. reflexivity. Qed.
Lemma split_at_ascii a b : Forall (fun c => (c < 128)%N) a -> split_at_byte (List.length a) (a ++ b) = Some (a, b).
Proof.
  induction 1 as [|c a H F IH]; [destruct b; reflexivity|]. cbn [app List.length split_at_byte].
  rewrite (ascii_len c H). cbn [Nat.leb Nat.sub]. rewrite Nat.sub_0_r, IH. reflexivity.
Qed.
Lemma position_first {A} (f : A -> bool) a c b : Forall (fun x => f x = false) a -> f c = true ->
  position f (a ++ c :: b) = Some (List.length a).
Proof.
  intros F Hc. induction F as [|x a H F IH]; cbn [app position List.length]; [rewrite Hc; reflexivity|].
  rewrite H, IH. reflexivity.
Qed.
Lemma position_none {A} (f : A -> bool) a : Forall (fun x => f x = false) a -> position f a = None.
Proof. induction 1 as [|x a H F IH]; cbn; [reflexivity|]. rewrite H, IH. reflexivity. Qed.

Lemma first_pattern_ok l p : first_pattern l p -> header_patterns l = Ok p.
Proof.
  unfold header_patterns. intros [l' N|a c q F B Hc].
  - rewrite position_none; [reflexivity|]. apply Forall_forall. intros c I. apply not_true_iff_false. exact (N c I).
  - rewrite position_first.
    + unfold slice_from. replace (a ++ c :: q) with ((a ++ [c]) ++ q) by (rewrite <- app_assoc; reflexivity).
      replace (S (List.length a)) with (List.length (a ++ [c])) by (rewrite app_length; cbn; lia).
      rewrite split_at_ascii; [reflexivity|]. apply Forall_app. split; [|constructor; [exact Hc|constructor]].
      eapply Forall_impl; [|exact F]. cbn. tauto.
    + eapply Forall_impl; [|exact F]. cbn. intros x (Hx & _). apply not_true_iff_false. exact Hx.
    + exact B.
Qed.

(** ** One rule *)
Definition apply_rule (inc : str -> rules -> res rules) (line : str) (r : rules) (nv : str * str) : res rules :=
  if str_eqb (trim (snd nv)) (lit "-") then reset_rule inc line r (fst nv) (snd nv)
  else set_rule inc line r (fst nv) (snd nv).
Lemma add_from_line_eq inc r w name c rest : all_ws w -> is_token name -> Forall (fun c => (c < 128)%N) name ->
  is_ws c = true -> (c < 128)%N ->
  add_from_line inc r (w ++ name ++ c :: rest) = apply_rule inc (name ++ c :: rest) r (name, trim_start rest).
Proof.
  intros W (Ne & T) A B Hc. unfold add_from_line. rewrite trim_start_ws by exact W.
  rewrite trim_start_id by (destruct name; [contradiction|]; cbn in T |- *; apply andb_true_iff in T; destruct (is_ws n); [destruct T; discriminate|reflexivity]).
  rewrite position_first.
  - unfold slice_to, slice_from. rewrite split_at_ascii by exact A. cbn [bind].
    replace (name ++ c :: rest) with ((name ++ [c]) ++ rest) by (rewrite <- app_assoc; reflexivity).
    replace (S (List.length name)) with (List.length (name ++ [c])) by (rewrite app_length; cbn; lia).
    rewrite split_at_ascii by (apply Forall_app; split; [exact A|constructor; [exact Hc|constructor]]).
    reflexivity.
  - apply Forall_forall. intros x I. apply (proj1 (no_ws_In name) T x I).
  - exact B.
Qed.

(** In general: the line fails, or it is a rule with some name and value. *)
Lemma add_from_line_cases inc r l :
  (exists nv, forall inc r, add_from_line inc r l = apply_rule inc (trim_start l) r nv)
  \/ ((forall inc' r', add_from_line inc' r' l = add_from_line inc r l) /\ forall x, add_from_line inc r l <> Ok x).
Proof.
  unfold add_from_line. destruct (position is_ws (trim_start l)) as [i|]; [|right; split; [reflexivity|discriminate]].
  destruct (slice_to i (trim_start l)) as [name| | |]; cbn [bind]; try (right; split; [reflexivity|discriminate]).
  destruct (slice_from (S i) (trim_start l)) as [rest| | |]; cbn [bind]; try (right; split; [reflexivity|discriminate]).
  left. exists (name, trim_start rest). reflexivity.
Qed.

(** ** Rules up to blocks *)
Definition like (r r' : rules) : Prop := bare r = bare r'.
Lemma like_set r r' : like r r' -> r' = set_subrules r (r_subrules r').
Proof. destruct r, r'. unfold like, bare, set_subrules. cbn. intro E. injection E as -> -> -> -> -> -> -> -> -> -> ->. reflexivity. Qed.
Lemma set_like r s : like r (set_subrules r s).
Proof. destruct r. reflexivity. Qed.
Definition inc_like (inc : str -> rules -> res rules) : Prop :=
  forall p r r', like r r' -> both like (inc p r) (inc p r').
Ltac rule_cases :=
  repeat match goal with
  | |- context[if ?b then _ else _] => destruct b
  | |- context[match ?x with Some _ => _ | None => _ end] => destruct x
  | |- context[match ?x with [] => _ | _ :: _ => _ end] => destruct x
  end.
Lemma apply_rule_like inc k r r' nv : inc_like inc -> like r r' ->
  both like (apply_rule inc k r nv) (apply_rule inc k r' nv).
Proof.
  intros Hi L. pose proof L as L0. apply like_set in L. rewrite L in *. clear L. set (s := r_subrules r'). clearbody s.
  unfold apply_rule, reset_rule, set_rule. destruct nv as (name & value). cbn [fst snd].
  rule_cases; try exact I; try (apply Hi; exact (set_like r s)); try (destruct r; reflexivity).
Qed.
Lemma add_from_line_like inc r r' l : inc_like inc -> like r r' ->
  both like (add_from_line inc r l) (add_from_line inc r' l).
Proof.
  intros Hi L. destruct (add_from_line_cases inc r l) as [(nv & E)|(E & N)].
  - rewrite !E. apply apply_rule_like; assumption.
  - rewrite (E inc r'). destruct (add_from_line inc r l) eqn:X; try exact I. exfalso. exact (N _ eq_refl).
Qed.
Lemma lines_like inc rs : forall r r', inc_like inc -> like r r' ->
  both like (fold_res (add_from_line inc) rs r) (fold_res (add_from_line inc) rs r').
Proof.
  induction rs as [|l rs IH]; intros r r' Hi L; cbn [fold_res]; [exact L|].
  eapply both_bind; [apply add_from_line_like; eassumption|]. intros a b Lab. apply IH; assumption.
Qed.
Lemma push_like r b : like (push_subrules r b) r.
Proof. destruct r. reflexivity. Qed.
Lemma like_trans a b c : like a b -> like b c -> like a c.
Proof. unfold like. congruence. Qed.
Lemma like_sym a b : like a b -> like b a.
Proof. unfold like. congruence. Qed.
Lemma item_like inc r r' i : inc_like inc -> like r r' -> both like (item_step inc r i) (item_step inc r' i).
Proof.
  intros Hi L. destruct i as [l|l ps rs]; cbn [item_step]; [apply add_from_line_like; assumption|].
  eapply both_bind; [apply both_refl|]. intros p ? <-.
  eapply both_bind; [apply lines_like; eassumption|]. intros a b _. cbn.
  eapply like_trans; [apply push_like|]. eapply like_trans; [exact L|]. apply like_sym, push_like.
Qed.
Lemma items_like inc is : forall r r', inc_like inc -> like r r' ->
  both like (fold_res (item_step inc) is r) (fold_res (item_step inc) is r').
Proof.
  induction is as [|i is IH]; intros r r' Hi L; cbn [fold_res]; [exact L|].
  eapply both_bind; [apply item_like; eassumption|]. intros a b Lab. apply IH; assumption.
Qed.
Lemma rules_file_like fuel w : inc_like (rules_from_file fuel w).
Proof.
  induction fuel as [|k IH]; intros p r r' L; cbn [rules_from_file]; [exact I|].
  destruct (read_file w p) as [t| | |]; cbn [bind]; try exact I.
  destruct (layout_total (rule_lines t)) as (is & Li). rewrite !(rules_layout _ _ _ _ Li).
  apply items_like; assumption.
Qed.

Definition is_root (i : item) : bool := match i with Root _ => true | _ => false end.
Lemma roots_only inc is : inc_like inc -> forall r r' r1, like r r' -> fold_res (item_step inc) is r = Ok r1 ->
  exists r2, fold_res (item_step inc) (filter is_root is) r' = Ok r2 /\ like r1 r2.
Proof.
  intro Hi. induction is as [|i is IH]; intros r r' r1 L H; cbn [fold_res filter] in *.
  - injection H as <-. eauto.
  - apply bind_Ok in H as (r0 & H0 & H). destruct i as [l|l ps rs]; cbn [is_root].
    + cbn [fold_res]. pose proof (item_like inc r r' (Root l) Hi L) as B. rewrite H0 in B.
      destruct (item_step inc r' (Root l)) as [r0'| | |]; try contradiction. cbn [bind].
      eapply IH; eassumption.
    + eapply IH; [|exact H]. cbn [item_step] in H0. apply bind_Ok in H0 as (p & _ & H0).
      apply bind_Ok in H0 as (br & _ & H0). injection H0 as <-. eapply like_trans; [apply push_like|exact L].
Qed.

(** ** Blocks *)
(** Each block knows the blocks before it. *)
Definition chained (l : list (list str * rules)) : Prop :=
  forall l1 pats br l2, l = l1 ++ (pats, br) :: l2 -> r_subrules br = l1.
Lemma chained_nil : chained [].
Proof. intros l1 pats br l2 E. destruct l1; discriminate. Qed.
Lemma chained_snoc l pats br : chained l -> r_subrules br = l -> chained (l ++ [(pats, br)]).
Proof.
  intros C E l1 p b l2 X. destruct l2 as [|x l2] using rev_ind.
  - apply app_inj_tail in X as (-> & X). injection X as -> ->. exact E.
  - clear IHl2. rewrite app_comm_cons, app_assoc in X. apply app_inj_tail in X as (X & _). exact (C _ _ _ _ X).
Qed.

Definition inc_keeps (P : rules -> Prop) (inc : str -> rules -> res rules) : Prop :=
  forall p r r', P r -> inc p r = Ok r' -> P r'.
Definition include_name (n : str) : bool := is_name n ["include"; "use"]%string.
Lemma apply_rule_subrules inc k r nv r' : include_name (fst nv) = false -> apply_rule inc k r nv = Ok r' ->
  r_subrules r' = r_subrules r.
Proof.
  unfold apply_rule, reset_rule, set_rule, include_name. destruct nv as (name & value). cbn [fst snd]. intro N. rewrite N.
  rule_cases; intro H; try discriminate; injection H as <-; destruct r; reflexivity.
Qed.
Lemma include_names n : include_name n = true <-> n = lit "include" \/ n = lit "use".
Proof.
  unfold include_name, is_name. cbn [existsb]. rewrite !orb_true_iff, !str_eqb_eq. intuition discriminate.
Qed.
Lemma apply_include inc k r n v : include_name n = true -> apply_rule inc k r (n, v) = inc v r.
Proof.
  intro N. apply include_names in N. unfold apply_rule. cbn [fst snd].
  destruct N as [-> | ->]; destruct (str_eqb _ _); reflexivity.
Qed.

Lemma split_at_spec s : forall i a b, split_at_byte i s = Some (a, b) -> s = a ++ b /\ byte_len a = i.
Proof.
  induction s as [|c s IH]; intros [|i] a b H; cbn [split_at_byte] in H; try discriminate;
    try (injection H as <- <-; split; reflexivity).
  destruct (Nat.leb (utf8_len c) (S i)) eqn:L; [|discriminate].
  destruct (split_at_byte (S i - utf8_len c) s) as [(a' & b')|] eqn:E; [|discriminate].
  injection H as <- <-. apply IH in E as (-> & E). split; [reflexivity|].
  apply Nat.leb_le in L. unfold byte_len in *. cbn [fold_right]. lia.
Qed.
Lemma position_Some {A} (f : A -> bool) s : forall i, position f s = Some i ->
  exists a c b, s = a ++ c :: b /\ List.length a = i /\ Forall (fun x => f x = false) a /\ f c = true.
Proof.
  induction s as [|x s IH]; intros i H; cbn in H; [discriminate|]. destruct (f x) eqn:E.
  - injection H as <-. exists [], x, s. auto.
  - destruct (position f s) as [k|]; [|discriminate]. injection H as <-.
    destruct (IH k eq_refl) as (a & c & b & -> & <- & F & Hc). exists (x :: a), c, b. auto.
Qed.
Lemma bytes_ascii s : Forall (fun c => (c < 128)%N) s -> byte_len s = List.length s.
Proof.
  induction 1 as [|c s H F IH]; [reflexivity|]. unfold byte_len in *. cbn [fold_right List.length].
  rewrite ascii_len, IH by exact H. reflexivity.
Qed.
Lemma add_from_line_subrules inc r l r' : add_from_line inc r l = Ok r' ->
  (exists v, includes_rules l /\ inc v r = Ok r') \/ r_subrules r' = r_subrules r.
Proof.
  unfold add_from_line. destruct (position is_ws (trim_start l)) as [i|] eqn:P; [|discriminate].
  intro H. apply bind_Ok in H as (name & Hn & H). apply bind_Ok in H as (rest & Hr & H).
  change (apply_rule inc (trim_start l) r (name, trim_start rest) = Ok r') in H.
  destruct (include_name name) eqn:N.
  - rewrite apply_include in H by exact N. left. exists (trim_start rest). split; [|exact H].
    exists name. split; [|apply include_names, N].
    apply position_Some in P as (a & c & b & E & La & Fa & Hc).
    unfold slice_to in Hn. destruct (split_at_byte i (trim_start l)) as [(a' & b')|] eqn:S; [|discriminate].
    injection Hn as ->. apply split_at_spec in S as (E' & B).
    assert (Forall (fun c => (c < 128)%N) name) as A.
    { apply include_names in N. destruct N as [-> | ->]; repeat constructor. }
    rewrite bytes_ascii in B by exact A.
    assert (a = name) as ->.
    { rewrite E in E'. rewrite <- La in B. clear -E' B. revert name E' B.
      induction a as [|x a IH]; intros [|y n] E B; cbn in *; try lia; [reflexivity|]. injection E as <- E.
      f_equal. apply IH; [exact E|lia]. }
    destruct (trim_start_spec l) as (w & Ew & W & _). rewrite Ew, split_ws_ws by exact W. rewrite E.
    rewrite split_ws_tok; [reflexivity| |].
    + split.
      * intros ->. apply include_names in N. destruct N; discriminate.
      * apply no_ws_In. intros x I. rewrite Forall_forall in Fa. apply Fa, I.
    + exact Hc.
  - right. apply (apply_rule_subrules inc (trim_start l) r (name, trim_start rest)); assumption.
Qed.

Definition chain (r : rules) : Prop := chained (r_subrules r).
Lemma block_rules_subrules inc rs : forall r br, (forall x, In x rs -> ~ includes_rules x) ->
  fold_res (add_from_line inc) rs r = Ok br -> r_subrules br = r_subrules r.
Proof.
  induction rs as [|l rs IH]; intros r br N H; cbn [fold_res] in H; [injection H as <-; reflexivity|].
  apply bind_Ok in H as (r0 & H0 & H). rewrite (IH r0 br) by (auto; intros x I; apply N; right; exact I).
  apply add_from_line_subrules in H0 as [(v & Hi & _)|E]; [|exact E]. exfalso. exact (N l (or_introl eq_refl) Hi).
Qed.
(** ** Choosing *)
Lemma applies_iff lower pats rec : applies_to lower pats rec = true <-> matches lower rec pats.
Proof.
  unfold applies_to, matches. rewrite existsb_exists. split; intros (p & I & H); exists p; rewrite occurs_contains in *; auto.
Qed.
Lemma select_none lower rec r : Forall (fun b => ~ matches lower rec (fst b)) (r_subrules r) ->
  select_rules lower rec r = r.
Proof.
  destruct r as [a1 a2 a3 a4 a5 a6 a7 a8 a9 a10 a11 subs]. cbn [r_subrules]. intro F.
  unfold select_rules; fold select_rules. cbn [r_subrules].
  set (r0 := mkRules _ _ _ _ _ _ _ _ _ _ _ subs). clearbody r0.
  induction subs as [|(pats & br) subs IH]; [reflexivity|]. inversion F as [|? ? N F']; subst.
  destruct (applies_to lower pats rec) eqn:A; [apply applies_iff in A; contradiction|]. apply IH, F'.
Qed.
Lemma select_first lower rec r l1 pats br l2 : r_subrules r = l1 ++ (pats, br) :: l2 ->
  Forall (fun b => ~ matches lower rec (fst b)) l1 -> matches lower rec pats ->
  select_rules lower rec r = select_rules lower rec br.
Proof.
  destruct r as [a1 a2 a3 a4 a5 a6 a7 a8 a9 a10 a11 subs]. cbn [r_subrules]. intros -> F M.
  cbn [select_rules r_subrules].
  set (r0 := mkRules _ _ _ _ _ _ _ _ _ _ _ _). clearbody r0.
  induction l1 as [|(p' & b') l1 IH]; cbn [app].
  - apply applies_iff in M. rewrite M. reflexivity.
  - inversion F as [|? ? N F']; subst. destruct (applies_to lower p' rec) eqn:A; [apply applies_iff in A; contradiction|].
    apply IH, F'.
Qed.
Lemma first_match lower rec (l : list (list str * rules)) :
  Forall (fun b => ~ matches lower rec (fst b)) l
  \/ exists l1 pats br l2, l = l1 ++ (pats, br) :: l2
     /\ Forall (fun b => ~ matches lower rec (fst b)) l1 /\ matches lower rec pats.
Proof.
  induction l as [|(pats & br) l IH]; [left; constructor|].
  destruct (applies_to lower pats rec) eqn:A.
  - apply applies_iff in A. right. exists [], pats, br, l. auto.
  - assert (~ matches lower rec pats) as N by (rewrite <- applies_iff; congruence).
    destruct IH as [F|(l1 & p & b & l2 & -> & F & M)]; [left; constructor; assumption|].
    right. exists ((pats, br) :: l1), p, b, l2. split; [reflexivity|]. split; [constructor; assumption|exact M].
Qed.
Lemma select_chain lower rec r l1 pats br l2 : chain r -> r_subrules r = l1 ++ (pats, br) :: l2 ->
  Forall (fun b => ~ matches lower rec (fst b)) l1 -> matches lower rec pats ->
  select_rules lower rec r = br.
Proof.
  intros C E F M. rewrite (select_first _ _ _ _ _ _ _ E F M). apply select_none.
  rewrite (C _ _ _ _ E). exact F.
Qed.

