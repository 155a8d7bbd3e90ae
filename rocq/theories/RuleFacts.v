(** Proofs about single rules. *)
From Coq Require Import ZArith NArith List Bool String Permutation Lia.
From Verif Require Import Base Str F64 Date World Amount Posting Entry Ledger Importer
  SpecAmount SpecDate SpecEntry SpecEnvelope SpecLedger SpecRegister SpecImport
  StrFacts LineFacts AmountFacts PostingFacts EntryFacts LedgerFacts RegisterFacts ImportFacts.
Import ListNotations.

Definition clear (s : slot) (r : rules) : rules :=
  match s with
  | SComment => set_comment r []
  | SFormat => set_format r default_format
  | SDate => set_date r (lit "%date%")
  | SDecimal => set_decimal r (chr ".")
  | SDesc => set_desc r (lit "%description%")
  | SFields => r
  | SPayee => set_payee r []
  | SSkip => set_skip r 1
  | SStatus => set_status r (lit "~")
  | SAmount k => set_amounts r (map_remove k (r_amounts r))
  | SAccount k => set_accounts r (map_remove k (r_accounts r))
  end.
Definition put (line : str) (s : slot) (v : str) (r : rules) : res rules :=
  match s with
  | SComment => Ok (set_comment r v)
  | SFormat => Ok (set_format r v)
  | SDate => Ok (set_date r v)
  | SDecimal => if Nat.ltb 1 (byte_len v) then Err (EParse (DecimalLong line))
                else match v with c :: _ => Ok (set_decimal r c) | [] => Panic end
  | SDesc => Ok (set_desc r v)
  | SFields => Ok (set_fields r (r_fields r ++ map trim (split_on (chr ",") v)))
  | SPayee => Ok (set_payee r v)
  | SSkip => match parse_i32 v with Some n => Ok (set_skip r n) | None => Err (EParse (SkipNumber v)) end
  | SStatus => Ok (set_status r v)
  | SAmount k => Ok (set_amounts r (map_insert k v (r_amounts r)))
  | SAccount k => Ok (set_accounts r (map_insert k v (r_accounts r)))
  end.

Lemma slot_cases n s : slot_of n = Some s ->
  (exists k, In (k, s) slot_names /\ n = lit k)
  \/ (exists k, s = SAmount k /\ n = lit "amount" ++ k) \/ (exists k, s = SAccount k /\ n = lit "account" ++ k).
Proof.
  unfold slot_of. destruct (find _ slot_names) as [(k & s')|] eqn:F.
  - intro E. injection E as <-. apply find_some in F as (I & H). left. exists k. split; [exact I|].
    cbn [fst] in H. destruct (str_dec (lit k) n); [congruence|discriminate].
  - destruct (str_dec (firstn 6 n) (lit "amount")) as [E|_].
    + intro H. injection H as <-. right; left. exists (skipn 6 n). split; [reflexivity|].
      rewrite <- E at 1. symmetry. apply firstn_skipn.
    + destruct (str_dec (firstn 7 n) (lit "account")) as [E|_]; [|discriminate].
      intro H. injection H as <-. right; right. exists (skipn 7 n). split; [reflexivity|].
      rewrite <- E at 1. symmetry. apply firstn_skipn.
Qed.
Lemma reset_slot inc k r n s v : slot_of n = Some s -> s <> SFields -> reset_rule inc k r n v = Ok (clear s r).
Proof.
  intros H N. apply slot_cases in H as [(k0 & I & ->)|[(k0 & -> & ->)|(k0 & -> & ->)]]; [|reflexivity|reflexivity].
  cbn in I. repeat (destruct I as [I|I]; [injection I as <- <-; try contradiction; reflexivity|]). destruct I.
Qed.
Lemma reset_fields inc k r n v : slot_of n = Some SFields -> reset_rule inc k r n v = Err (EValidation FieldsDiscarded).
Proof.
  intro H. apply slot_cases in H as [(k0 & I & ->)|[(k0 & E & ->)|(k0 & E & ->)]]; try discriminate.
  cbn in I. repeat (destruct I as [I|I]; [try discriminate; injection I as <-; reflexivity|]). destruct I.
Qed.
Lemma set_slot inc k r n s v : slot_of n = Some s -> set_rule inc k r n v = put k s v r.
Proof.
  intro H. apply slot_cases in H as [(k0 & I & ->)|[(k0 & -> & ->)|(k0 & -> & ->)]]; [|reflexivity|reflexivity].
  cbn in I. repeat (destruct I as [I|I]; [injection I as <- <-; reflexivity|]). destruct I.
Qed.

Lemma remove_insert_same {A} k (v : A) m : map_remove k (map_insert k v m) = map_remove k m.
Proof.
  unfold map_remove. induction m as [|(k' & v') m IH]; cbn [map_insert filter fst].
  - rewrite str_eqb_refl. reflexivity.
  - destruct (str_eqb k' k) eqn:E; cbn [filter fst]; rewrite E; cbn [negb]; [reflexivity|]. rewrite IH. reflexivity.
Qed.
Lemma remove_insert_other {A} k k' (v : A) m : k <> k' ->
  map_remove k (map_insert k' v m) = map_insert k' v (map_remove k m).
Proof.
  intro N. unfold map_remove. induction m as [|(k0 & v0) m IH]; cbn [map_insert filter fst].
  - destruct (str_eqb k' k) eqn:E; [apply str_eqb_eq in E; congruence|reflexivity].
  - destruct (str_eqb k0 k') eqn:E; cbn [filter fst].
    + apply str_eqb_eq in E. subst k0. destruct (str_eqb k' k) eqn:E2; [apply str_eqb_eq in E2; congruence|].
      cbn [negb map_insert]. rewrite str_eqb_refl. reflexivity.
    + destruct (str_eqb k0 k) eqn:E2; cbn [negb]; [exact IH|]. cbn [map_insert]. rewrite E, IH. reflexivity.
Qed.
Lemma remove_remove {A} k k' (m : list (str * A)) : map_remove k (map_remove k' m) = map_remove k' (map_remove k m).
Proof.
  unfold map_remove. induction m as [|x m IH]; cbn [filter]; [reflexivity|].
  destruct (str_eqb (fst x) k') eqn:E1; destruct (str_eqb (fst x) k) eqn:E2; cbn [negb filter]; rewrite ?E1, ?E2; cbn [negb]; rewrite ?IH; reflexivity.
Qed.

Ltac slot_neq := match goal with H : SAmount ?a <> SAmount ?b |- _ => assert (a <> b) by congruence
                  | H : SAccount ?a <> SAccount ?b |- _ => assert (a <> b) by congruence | _ => idtac end.
Lemma put_other k s s' v r r1 : s <> s' -> put k s' v r = Ok r1 -> put k s' v (clear s r) = Ok (clear s r1).
Proof.
  intros N H. destruct r. destruct s'; cbn [put] in H |- *;
    repeat match type of H with context[if ?b then _ else _] => destruct b | context[match ?x with _ => _ end] => destruct x end;
    try discriminate; injection H as <-; destruct s; try contradiction; try reflexivity; slot_neq; unfold clear, set_amounts, set_accounts; cbn -[map_remove map_insert];
    rewrite remove_insert_other by assumption; reflexivity.
Qed.
Lemma put_same k s v r r1 : s <> SFields -> put k s v r = Ok r1 -> clear s r1 = clear s r.
Proof.
  intros N H. destruct r. destruct s; try contradiction; cbn [put] in H;
    repeat match type of H with context[if ?b then _ else _] => destruct b | context[match ?x with _ => _ end] => destruct x end;
    try discriminate; injection H as <-; try reflexivity; unfold clear, set_amounts, set_accounts; cbn -[map_remove map_insert];
    rewrite remove_insert_same; reflexivity.
Qed.
Lemma remove_twice {A} k (m : list (str * A)) : map_remove k (map_remove k m) = map_remove k m.
Proof.
  unfold map_remove. induction m as [|x m IH]; cbn [filter]; [reflexivity|].
  destruct (str_eqb (fst x) k) eqn:E; cbn [negb filter]; [exact IH|]. rewrite E. cbn [negb]. rewrite IH. reflexivity.
Qed.
Lemma clear_same s r : clear s (clear s r) = clear s r.
Proof.
  destruct r, s; try reflexivity; unfold clear, set_amounts, set_accounts; cbn -[map_remove]; rewrite remove_twice; reflexivity.
Qed.
Lemma clear_clear s s' r : clear s (clear s' r) = clear s' (clear s r).
Proof.
  destruct r, s, s'; try reflexivity; unfold clear, set_amounts, set_accounts; cbn -[map_remove map_insert]; f_equal; apply remove_remove.
Qed.
Lemma clear_default s : clear s default_rules = default_rules.
Proof. destruct s; reflexivity. Qed.

Lemma apply_slot inc k r n s v r1 : slot_of n = Some s -> apply_rule inc k r (n, v) = Ok r1 ->
  (s <> SFields /\ trim v = lit "-" /\ r1 = clear s r) \/ (trim v <> lit "-" /\ put k s v r = Ok r1).
Proof.
  intros H A. unfold apply_rule in A. cbn [fst snd] in A. destruct (str_eqb (trim v) (lit "-")) eqn:E.
  - left. apply str_eqb_eq in E. destruct (slot_dec s SFields) as [-> |N].
    + rewrite (reset_fields inc k r n v H) in A. discriminate.
    + rewrite (reset_slot inc k r n s v H N) in A. injection A as <-. auto.
  - right. rewrite (set_slot inc k r n s v H) in A. apply str_eqb_neq in E. auto.
Qed.
Lemma apply_other inc k r x s r1 : slot_of (fst x) <> None -> about s x = false -> apply_rule inc k r x = Ok r1 ->
  apply_rule inc k (clear s r) x = Ok (clear s r1).
Proof.
  destruct x as (n & v). cbn [fst]. unfold about. cbn [fst]. destruct (slot_of n) as [s'|] eqn:E; [|congruence].
  intros _ B A. destruct (slot_dec s s') as [|N]; [discriminate|].
  pose proof A as A0. apply (apply_slot inc k r n s' v r1 E) in A as [(Nf & T & ->)|(T & P)].
  - unfold apply_rule. cbn [fst snd]. rewrite T, str_eqb_refl. rewrite (reset_slot inc k _ n s' v E Nf). rewrite clear_clear. reflexivity.
  - unfold apply_rule. cbn [fst snd]. destruct (str_eqb (trim v) (lit "-")) eqn:X; [apply str_eqb_eq in X; contradiction|].
    rewrite (set_slot inc k _ n s' v E). apply put_other; assumption.
Qed.
Lemma apply_same inc k r x s r1 : s <> SFields -> about s x = true -> apply_rule inc k r x = Ok r1 -> clear s r1 = clear s r.
Proof.
  destruct x as (n & v). unfold about. cbn [fst]. destruct (slot_of n) as [s'|] eqn:E; [|discriminate].
  intros Nf B A. destruct (slot_dec s s') as [<-|N]; [|discriminate].
  apply (apply_slot inc k r n s v r1 E) in A as [(_ & T & ->)|(T & P)]; [apply clear_same|].
  eapply put_same; eassumption.
Qed.
Lemma apply_without inc k s xs : s <> SFields -> Forall (fun x => slot_of (fst x) <> None) xs -> forall r r1,
  fold_res (apply_rule inc k) xs r = Ok r1 ->
  fold_res (apply_rule inc k) (filter (fun x => negb (about s x)) xs) (clear s r) = Ok (clear s r1).
Proof.
  intros Nf F. induction F as [|x xs H F IH]; intros r r1 E; cbn [fold_res filter] in *.
  - injection E as <-. reflexivity.
  - apply bind_Ok in E as (r0 & E0 & E). apply IH in E. destruct (about s x) eqn:B; cbn [negb].
    + rewrite <- (apply_same inc k r x s r0 Nf B E0). exact E.
    + cbn [fold_res]. rewrite (apply_other inc k r x s r0 H B E0). exact E.
Qed.

Lemma written_rule_eq inc r x : rule_ok x -> add_from_line inc r (written_rule x) = apply_rule inc (written_rule x) r (fst x, trim_start (snd x)).
Proof.
  intros ((Ne & T) & A & _). unfold written_rule. apply (add_from_line_eq inc r [] (fst x) 32%N (snd x)); try reflexivity; auto.
  split; [exact Ne|]. apply no_ws_In. intros c I. rewrite Forall_forall in T. apply not_true_iff_false, T, I.
Qed.
Lemma apply_line inc k k' r x y : apply_rule inc k r x = Ok y -> apply_rule inc k' r x = Ok y.
Proof. unfold apply_rule, reset_rule, set_rule. rule_cases; intro H; try discriminate; exact H. Qed.
Lemma written_fold inc k xs r1 : forall r, Forall rule_ok xs ->
  fold_res (add_from_line inc) (map written_rule xs) r = Ok r1
  <-> fold_res (apply_rule inc k) (map (fun x => (fst x, trim_start (snd x))) xs) r = Ok r1.
Proof.
  induction xs as [|x xs IH]; intros r F; cbn [map fold_res]; [tauto|]. inversion F; subst.
  rewrite written_rule_eq by assumption. split; intro H; apply bind_Ok in H as (r0 & H0 & H);
    apply IH in H; try assumption; rewrite (apply_line _ _ _ _ _ _ H0); exact H.
Qed.
Lemma reset_forgets inc xs n s r1 r2 : Forall rule_ok xs -> rule_ok (n, lit "-") -> slot_of n = Some s ->
  fold_res (add_from_line inc) (map written_rule xs) default_rules = Ok r1 ->
  add_from_line inc r1 (written_rule (n, lit "-")) = Ok r2 ->
  fold_res (add_from_line inc) (map written_rule (filter (fun x => negb (about s x)) xs)) default_rules = Ok r2.
Proof.
  intros F Rn Sn H K. rewrite written_rule_eq in K by exact Rn. cbn [fst snd] in K.
  apply (apply_slot _ _ _ _ _ _ _ Sn) in K as [(Nf & _ & ->)|(X & _)]; [|exfalso; apply X; reflexivity].
  apply (written_fold inc []) in H; [|exact F].
  apply (apply_without inc [] s _ Nf) in H.
  2:{ apply Forall_forall. intros x I. apply in_map_iff in I as (y & <- & I). cbn [fst].
      rewrite Forall_forall in F. apply F, I. }
  rewrite clear_default in H. apply (written_fold inc []).
  - apply Forall_forall. intros x I. apply filter_In in I as (I & _). rewrite Forall_forall in F. apply F, I.
  - rewrite <- H. f_equal. clear. induction xs as [|x xs IH]; [reflexivity|]. cbn [filter map].
    assert (E : about s (fst x, trim_start (snd x)) = about s x) by reflexivity. rewrite E.
    destruct (about s x); cbn [negb map]; rewrite <- IH; reflexivity.
Qed.
