(** Property C130: entries whose amounts are in proportion. *)
From Coq Require Import ZArith NArith List Bool String Ascii Permutation Lia Reals.
From Flocq Require Import Core.
From Verif Require Import Base Str F64 Date Amount Posting Entry Envelope Account World Ledger Cli
  SpecAmount SpecDate SpecEntry SpecEnvelope SpecLedger SpecHistory SpecOrder SpecGroup SpecScale
  StrFacts F64Facts AmountFacts EntryFacts EnvelopeFacts AccountFacts LedgerFacts OrderFacts PropertiesHistory PropertiesLedger PropertiesCli PropertiesOrder WholeFacts PropertiesGroup.
Import ListNotations.
Local Open Scope Z_scope.

Section Ratio.
Context (c k : Z) (Hc : 0 < c) (Hk : 0 < k).

Lemma ratio_z x y : in_ratio c k x y <-> isint x /\ isint y /\ k * zval x = c * zval y.
Proof.
  split.
  - intros (n & m & A & B & E). rewrite (zval_is _ _ A), (zval_is _ _ B). split; [exact (is_isint _ _ A)|]. split; [exact (is_isint _ _ B)|exact E].
  - intros (A & B & E). exists (zval x), (zval y). auto.
Qed.
Lemma ratio_is x y n m : is_int x n -> is_int y m -> k * n = c * m -> in_ratio c k x y.
Proof. intros A B E. exists n, m. rewrite !f64_is_int. auto. Qed.

(** ** Postings *)
Notation PR := (postings_ratio c k).
Lemma pr_same p q : PR p q -> get_account q = get_account p /\ is_envelope q = is_envelope p
  /\ match get_amount p, get_amount q with Some a, Some b => amounts_ratio c k a b | None, None => True | _, _ => False end
  /\ worth_ratio c k (native_value p) (native_value q).
Proof. intros [name a b o o' h h' A W|name o o' h h'|name env a b A]; cbn; auto. Qed.
Lemma pr_az p q : PR p q -> k * az p = c * az q.
Proof.
  intro H. apply pr_same in H as (_ & _ & H & _). unfold az. destruct (get_amount p) as [a|], (get_amount q) as [b|]; try contradiction; [|lia]. destruct H as [_ H]. apply ratio_z in H. apply H.
Qed.
Lemma pr_nz p q : PR p q -> k * nz p = c * nz q.
Proof.
  intro H. apply pr_same in H as (_ & _ & _ & H). unfold nz. destruct (native_value p) as [a|], (native_value q) as [b|]; try contradiction; [|lia]. apply ratio_z in H. apply H.
Qed.
Lemma pr_sum f g ps qs : Forall2 PR ps qs -> (forall p q, In p ps -> In q qs -> PR p q -> k * f p = c * g q) -> k * Zof f ps = c * Zof g qs.
Proof.
  induction 1 as [|p q ps qs H F IH]; intro E; [change (k * 0 = c * 0); lia|]. rewrite !Zof_cons. specialize (E p q (or_introl eq_refl) (or_introl eq_refl) H) as E1.
  specialize (IH (fun a b I J => E a b (or_intror I) (or_intror J))). lia.
Qed.
Lemma pr_ex (P Q : posting -> Prop) ps qs : Forall2 PR ps qs -> (forall p q, PR p q -> P p -> Q q) -> (exists p, In p ps /\ P p) -> exists q, In q qs /\ Q q.
Proof.
  intros F T (p & I & H). induction F as [|p' q' ps qs R F IH]; [destruct I|]. destruct I as [<-|I]; [exists q'; split; [left; reflexivity|exact (T _ _ R H)]|].
  destruct (IH I) as (q & J & K). exists q. split; [right; exact J|exact K].
Qed.
Lemma pr_all (P Q : posting -> Prop) ps qs : Forall2 PR ps qs -> (forall p q, PR p q -> P p -> Q q) -> (forall p, In p ps -> P p) -> forall q, In q qs -> Q q.
Proof.
  intros F T H q J. induction F as [|p' q' ps qs R F IH]; [destruct J|]. destruct J as [<-|J]; [exact (T _ _ R (H p' (or_introl eq_refl)))|].
  exact (IH (fun p I => H p (or_intror I)) J).
Qed.
Lemma pr_sym s p q : PR p q -> has_sym s p -> has_sym s q.
Proof.
  intros R (a & G & E). apply pr_same in R as (_ & _ & H & _). rewrite G in H. destruct (get_amount q) as [b|] eqn:Q; [|contradiction]. exists b. split; [exact Q|]. rewrite (proj1 H). exact E.
Qed.
Lemma existsb_pr (f : posting -> bool) ps qs : (forall p q, PR p q -> f q = f p) -> Forall2 PR ps qs -> existsb f qs = existsb f ps.
Proof. intros H F. induction F as [|p q ps qs R F IH]; [reflexivity|]. cbn [existsb]. rewrite (H _ _ R), IH. reflexivity. Qed.

(** ** The amount left out *)
Notation ER := (entries_ratio c k).
Lemma blank_ratio e e' o : ER e e' -> good e -> good e' -> get_blank_amount e = Ok o ->
  exists o', get_blank_amount e' = Ok o' /\ match o, o' with Some b, Some b' => amounts_ratio c k b b' | None, None => True | _, _ => False end.
Proof.
  intros [_ R] G G' H. apply (blank_Ok e o (proj1 G) (good53 e G)) in H. destruct o as [b|].
  - destruct H as [B [(W & A & V)|(M & A & Y & V)]].
    + destruct (blank_one_z e' (symbol b) (proj1 G') (good53 e' G')) as (b' & E & Y & V').
      * apply (pr_ex (fun p => get_amount p = None) _ _ _ R); [|exact B]. intros p q Q N. apply pr_same in Q as (_ & _ & Q & _). rewrite N in Q. destruct (get_amount q); [contradiction|reflexivity].
      * apply (pr_ex (has_sym (symbol b)) _ _ _ R); [apply pr_sym|exact W].
      * intros q a I Ga. revert a Ga. apply (pr_all (fun p => forall a, get_amount p = Some a -> symbol a = symbol b) (fun q => forall a, get_amount q = Some a -> symbol a = symbol b) _ _ R); [|intros p Ip a; exact (A p a Ip)|exact I].
        intros p q' Q K a Ga. apply pr_same in Q as (_ & _ & Q & _). rewrite Ga in Q. destruct (get_amount p) as [d|]; [|contradiction]. rewrite (proj1 Q). exact (K d eq_refl).
      * exists (Some b'). split; [exact E|]. split; [exact Y|]. apply (ratio_is _ _ _ _ V V'). assert (K := pr_sum az az _ _ R (fun p q _ _ => pr_az p q)). lia.
    + assert (exists m, get_blank_amount e' = Ok (Some (mkAmount m None)) /\ is_int m (- Zof nz (e_postings e'))) as (m & E & V').
      { unfold get_blank_amount. rewrite (proj2 (has_blank_iff e')), (proj2 (has_mixed_iff e')).
        - destruct (blank_native_z e' (e_postings e') fzero 0 (proj1 G') fzero_int) as (m & E & V');
            [assert (K := good53 e' G'); change (Z.abs 0) with 0; lia| |rewrite E; exists m; split; [reflexivity|exact V']].
          apply (pr_all (fun p => get_amount p <> None -> native_value p <> None) (fun p => get_amount p <> None -> native_value p <> None) _ _ R); [|exact A].
          intros p q Q K N. apply pr_same in Q as (_ & _ & Q & Q'). destruct (get_amount p); [|destruct (get_amount q); [contradiction|congruence]].
          specialize (K ltac:(discriminate)). destruct (native_value p); [|congruence]. destruct (native_value q); [discriminate|contradiction].
        - apply mixed_has. destruct M as (p & q & s & s' & Ip & Iq & Hp & Hq & Ne).
          destruct (pr_ex (has_sym s) (has_sym s) _ _ R (pr_sym s) (ex_intro _ p (conj Ip Hp))) as (p' & Ip' & Hp').
          destruct (pr_ex (has_sym s') (has_sym s') _ _ R (pr_sym s') (ex_intro _ q (conj Iq Hq))) as (q' & Iq' & Hq'). exists p', q', s, s'. auto.
        - apply (pr_ex (fun p => get_amount p = None) _ _ _ R); [|exact B]. intros p q Q N. apply pr_same in Q as (_ & _ & Q & _). unfold blank. rewrite N in Q. destruct (get_amount q); [contradiction|reflexivity]. }
      exists (Some (mkAmount m None)). split; [exact E|]. split; [symmetry; exact Y|]. apply (ratio_is _ _ _ _ V V'). assert (K := pr_sum nz nz _ _ R (fun p q _ _ => pr_nz p q)). lia.
  - exists None. split; [|exact Logic.I]. unfold get_blank_amount. destruct (has_blank_posting e') eqn:B; [|reflexivity]. apply has_blank_iff in B as (q & I & N). exfalso.
    refine (pr_all (fun p => get_amount p <> None) (fun p => get_amount p <> None) _ _ R _ H q I N).
    intros p q' Q K. apply pr_same in Q as (_ & _ & Q & _). destruct (get_amount p); [|congruence]. destruct (get_amount q'); [discriminate|contradiction].
Qed.
Lemma worth_pr e e' p q a : ER e e' -> good e -> good e' -> PR p q -> worth e p a -> exists b, worth e' q b /\ amounts_ratio c k a b.
Proof.
  intros R G G' Q [W|[W W']]; apply pr_same in Q as (_ & _ & Q & _); rewrite W in Q; destruct (get_amount q) as [b|] eqn:E; try contradiction.
  - exists b. split; [left; exact E|exact Q].
  - destruct (blank_ratio e e' _ R G G' W') as (o & B & H). destruct o as [b|]; [|contradiction]. exists b. split; [right; auto|exact H].
Qed.
Lemma worth_wz e e' p q a : ER e e' -> good e -> good e' -> PR p q -> In p (e_postings e) -> In q (e_postings e') -> worth e p a -> k * wz e p = c * wz e' q.
Proof.
  intros R G G' Q I J W. destruct (worth_pr e e' p q a R G G' Q W) as (b & W' & [_ H]). apply ratio_z in H as (_ & _ & H).
  rewrite <- (proj2 (worth_z e p a G I W)), <- (proj2 (worth_z e' q b G' J W')). exact H.
Qed.

(** ** What an envelope takes *)
Lemma fits_pr v e e' p q : ER e e' -> good e -> good e' -> PR p q -> fits v e p -> fits v e' q.
Proof.
  intros R G G' Q (a & W & D). destruct (worth_pr e e' p q a R G G' Q W) as (b & W' & [Y _]). exists b. split; [exact W'|]. rewrite Y.
  apply pr_same in Q as (A & _ & _ & N). rewrite A. destruct D as [D|(D & Nv & O)]; [left; exact D|right]. split; [exact D|]. split; [|exact O].
  destruct (native_value p); [|congruence]. destruct (native_value q); [discriminate|contradiction].
Qed.
Lemma posted_pr v ps qs : Forall2 PR ps qs -> Forall2 (amounts_ratio c k) (posted_to v ps) (posted_to v qs).
Proof.
  induction 1 as [|p q ps qs R F IH]; [constructor|]. unfold posted_to in *. cbn [flat_map]. apply Forall2_app; [|exact IH].
  destruct R as [name a b o o' h h' A W|name o o' h h'|name env a b A]; cbn [ep_account ep_envelope ep_amount]; [constructor|constructor|].
  destruct (str_dec name (v_account v)); [|constructor]. destruct (str_dec env (v_name v)); [|constructor]. repeat constructor; apply A.
Qed.
Lemma feqb_zero x n : is_int x n -> feqb x fzero = (n =? 0).
Proof.
  intros [F R]. assert (feqb x fzero = true <-> n = 0) as E.
  { rewrite feqb_R, fval_fin, R by exact F. change (fval fzero) with (IZR 0). split; [intros (_ & _ & H); apply eq_IZR, H|].
    intros ->. split; [apply ffin_not_nan, F|]. split; reflexivity. }
  destruct (Z.eqb_spec n 0) as [L|L]; [apply E, L|]. apply not_true_iff_false. rewrite E. exact L.
Qed.
Lemma ratio_sign n m : k * n = c * m -> (n <? 0) = (m <? 0) /\ (0 <? n) = (0 <? m) /\ (n =? 0) = (m =? 0).
Proof.
  intro E. assert (n < 0 <-> m < 0) as A by nia. assert (0 < n <-> 0 < m) as B by nia.
  destruct (Z.ltb_spec n 0), (Z.ltb_spec m 0); try lia; destruct (Z.ltb_spec 0 n), (Z.ltb_spec 0 m); try lia; destruct (Z.eqb_spec n 0), (Z.eqb_spec m 0); try lia; auto.
Qed.
Lemma ratio_abs n m : k * n = c * m -> k * Z.abs n = c * Z.abs m.
Proof. intro E. destruct (ratio_sign n m E) as (A & _). destruct (Z.ltb_spec n 0), (Z.ltb_spec m 0); try discriminate; lia. Qed.
Lemma ratio_min n m n' m' : k * n = c * m -> k * n' = c * m' -> k * Z.min n n' = c * Z.min m m'.
Proof. intros E E'. rewrite <- !Z.mul_min_distr_nonneg_l by lia. lia. Qed.
Lemma ratio_zeros x y : in_ratio c k x y -> fltb x fzero = fltb y fzero /\ fltb fzero x = fltb fzero y /\ feqb x fzero = feqb y fzero.
Proof.
  intros (n & m & A & B & E). apply f64_is_int in A. apply f64_is_int in B.
  rewrite (int_less _ _ _ _ A fzero_int), (int_less _ _ _ _ B fzero_int), (int_less _ _ _ _ fzero_int A), (int_less _ _ _ _ fzero_int B), (feqb_zero _ _ A), (feqb_zero _ _ B).
  apply ratio_sign, E.
Qed.
Lemma Forall2_both {A C} (R : A -> C -> Prop) (P : A -> Prop) (Q : C -> Prop) l m : (forall x, In x l -> P x) -> (forall y, In y m -> Q y) -> Forall2 R l m -> Forall2 (fun x y => P x /\ Q y /\ R x y) l m.
Proof. intros H K F. induction F as [|x y l m Rxy F IH]; constructor; [split; [apply H; left; reflexivity|split; [apply K; left; reflexivity|exact Rxy]]|]. apply IH; intros z I; [apply H|apply K]; right; exact I. Qed.
Lemma plan_pr v e e' ls : ER e e' -> good e -> good e' -> plan v e = Ok ls -> exists ls', plan v e' = Ok ls' /\ Forall2 (amounts_ratio c k) ls ls'.
Proof.
  intros R G G' H. unfold plan in *. assert (R' := proj2 R).
  assert (has_envelope_posting e' = has_envelope_posting e) as E1 by (apply existsb_pr; [intros p q Q; apply (pr_same _ _ Q)|exact R']).
  rewrite E1. destruct (has_envelope_posting e); [injection H as <-; exists (posted_to v (e_postings e')); split; [reflexivity|apply posted_pr, R']|].
  assert (Nat.ltb (count_self v (e_postings e')) 1 = Nat.ltb (count_self v (e_postings e)) 1) as E2
    by (unfold count_self; rewrite !counted; f_equal; apply existsb_pr; [intros p q Q; rewrite (proj1 (pr_same _ _ Q)); reflexivity|exact R']).
  assert (Nat.ltb (count_auto v (e_postings e')) 1 = Nat.ltb (count_auto v (e_postings e)) 1) as E3
    by (unfold count_auto; rewrite !counted; f_equal; apply existsb_pr; [intros p q Q; rewrite (proj1 (pr_same _ _ Q)); reflexivity|exact R']).
  rewrite E2, E3. destruct (_ || _); [injection H as <-; exists []; auto|].
  apply bind_Ok in H as ([au se] & E & H). set (zero := mkAmount fzero (symbol (v_amount v))) in *.
  assert (F := infer_fits v e (e_postings e) zero zero _ eq_refl eq_refl E).
  assert (F' := pr_all _ _ _ _ R' (fun p q Q => fits_pr v e e' p q R G G' Q) F). assert (S1 := wz_size e G). assert (S2 := wz_size e' G').
  assert (B1 := proj1 (proj2 G)). assert (B2 := proj1 (proj2 G')).
  destruct (infer_total v e (e_postings e) G (fun _ I => I) F zero zero 0 0 eq_refl eq_refl fzero_int fzero_int (fun _ => eq_refl) (fun _ => eq_refl)) as (au1 & se1 & K1 & A1 & C1 & _);
    [change (Z.abs 0) with 0; lia..|].
  destruct (infer_total v e' (e_postings e') G' (fun _ I => I) F' zero zero 0 0 eq_refl eq_refl fzero_int fzero_int (fun _ => eq_refl) (fun _ => eq_refl)) as (au2 & se2 & K2 & A2 & C2 & _);
    [change (Z.abs 0) with 0; lia..|].
  rewrite K1 in E. injection E as -> ->. rewrite K2. cbn [bind].
  assert (forall p q, In p (e_postings e) -> In q (e_postings e') -> PR p q -> k * wz e p = c * wz e' q) as Wz.
  { intros p q I J Q. destruct (F p I) as (a & W & _). exact (worth_wz e e' p q a R G G' Q I J W). }
  assert (k * Zof (linkz v e) (e_postings e) = c * Zof (linkz v e') (e_postings e')) as Q1.
  { apply (pr_sum _ _ _ _ R'). intros p q I J Q. unfold linkz. rewrite (proj1 (pr_same _ _ Q)). destruct (str_eqb _ _); [lia|]. destruct (mem _ _); [auto|lia]. }
  assert (k * Zof (ownz v e) (e_postings e) = c * Zof (ownz v e') (e_postings e')) as Q2.
  { apply (pr_sum _ _ _ _ R'). intros p q I J Q. unfold ownz. rewrite (proj1 (pr_same _ _ Q)). destruct (str_eqb _ _); [auto|lia]. }
  rewrite Z.add_0_l in A1, C1, A2, C2.
  assert (M1 := fmin_int _ _ _ _ A1 (fabs_int _ _ C1)). assert (M2 := fmin_int _ _ _ _ A2 (fabs_int _ _ C2)).
  assert (in_ratio c k (fmin (mag au) (fabs (mag se))) (fmin (mag au2) (fabs (mag se2)))) as Rm by (apply (ratio_is _ _ _ _ M1 M2), ratio_min; [exact Q1|apply ratio_abs, Q2]).
  assert (in_ratio c k (mag se) (mag se2)) as Rs by exact (ratio_is _ _ _ _ C1 C2 Q2).
  destruct (ratio_zeros _ _ Rm) as (_ & _ & Zm). destruct (ratio_zeros _ _ Rs) as (Zs & _ & _). rewrite <- Zm, <- Zs.
  destruct (negb _); injection H as <-; [|exists []; auto]. eexists. split; [reflexivity|]. constructor; [|constructor]. split; [reflexivity|]. cbn [mag].
  destruct (fltb (mag se) fzero); [|exact Rm]. destruct Rm as (n & m & X & Y & Z). apply f64_is_int in X. apply f64_is_int in Y.
  apply (ratio_is _ _ (- n) (- m)); [apply fneg_int, X|apply fneg_int, Y|lia].
Qed.

(** ** The envelopes *)
Definition moves_ratio (x y : date * amount) : Prop := fst y = fst x /\ amounts_ratio c k (snd x) (snd y).
Lemma plans_pr v es es' : Forall2 ER es es' -> Forall good es -> Forall good es' -> forall h, plans v es h ->
  exists h', plans v es' h' /\ Forall2 moves_ratio h h' /\ mz (map snd h) <= 2 * total es /\ mz (map snd h') <= 2 * total es'.
Proof.
  induction 1 as [|e e' es es' R F IH]; intros G G' h P.
  - destruct P as (lss & F & ->). inversion F; subst. exists []. split; [apply plans_nil|]. split; [constructor|]. split; reflexivity.
  - inversion G as [|? ? Ge Gs]; subst. inversion G' as [|? ? Ge' Gs']; subst. apply plans_cons in P as (ls & h1 & Pe & Ps & ->).
    destruct (IH Gs Gs' h1 Ps) as (h1' & Ps' & P1 & B1 & B1'). destruct (plan_pr v e e' ls R Ge Ge' Pe) as (ls' & Pe' & Pl).
    destruct (plan_z v e ls Ge Pe) as [_ Bl]. destruct (plan_z v e' ls' Ge' Pe') as [_ Bl'].
    exists (map (pair (e_date e')) ls' ++ h1'). split; [apply plans_cons; eauto|]. rewrite (proj1 R).
    split; [apply Forall2_app; [|exact P1]; clear - Pl; induction Pl; constructor; [split; [reflexivity|assumption]|assumption]|].
    rewrite !map_app, !mz_app, !total_cons, !map_map. cbn [snd]. rewrite !map_id. lia.
Qed.
Lemma sum_of_z q h : (forall x, In x h -> isint (mag (snd x))) -> mz (map snd h) <= 2 ^ 53 ->
  is_int (sum_of q h fzero) (Zsum (map (fun x => zval (mag (snd x))) (filter q h))).
Proof.
  intros A B. unfold sum_of. rewrite <- (Z.add_0_l (Zsum _)). apply fold_fadd_int; [|apply fzero_int|].
  - assert (forall x, In x (filter q h) -> isint (mag (snd x))) as K by (intros x I; apply A; apply filter_In in I; apply I). revert K. generalize (filter q h). intro l.
    induction l as [|x l IH]; intro K; constructor; [apply K; left; reflexivity|apply IH; intros y I; apply K; right; exact I].
  - apply partial_bound. rewrite map_map. change (Z.abs 0) with 0. eapply Z.le_trans; [|exact B]. unfold mz. rewrite map_map. clear.
    induction h as [|x h IH]; [reflexivity|]. cbn [filter]. unfold Zsum in *. destruct (q x); cbn [map fold_right]; lia.
Qed.
Lemma sum_of_pr q h h' : Forall2 moves_ratio h h' -> mz (map snd h) <= 2 ^ 53 -> mz (map snd h') <= 2 ^ 53 ->
  (forall x y, moves_ratio x y -> q y = q x) -> in_ratio c k (sum_of q h fzero) (sum_of q h' fzero).
Proof.
  intros F B B' Q.
  assert ((forall x, In x h -> isint (mag (snd x))) /\ (forall x, In x h' -> isint (mag (snd x)))) as [A A'].
  { clear B B'. induction F as [|x y h h' R F [IH IH']]; [split; intros ? []|]. destruct R as (_ & _ & R). apply ratio_z in R as (X & Y & _). split; intros z [<-|I]; auto. }
  apply (ratio_is _ _ _ _ (sum_of_z q h A B) (sum_of_z q h' A' B')). clear A A' B B'.
  induction F as [|x y h h' R F IH]; [change (k * 0 = c * 0); lia|]. cbn [filter]. rewrite (Q x y R). destruct (q x); [|exact IH]. cbn [map]. rewrite !Zsum_cons.
  destruct R as (_ & _ & R). apply ratio_z in R as (_ & _ & R). lia.
Qed.
Lemma envelope_pr today v es es' w : in_currency v -> empty v -> Forall2 ER es es' -> Forall good es -> Forall good es' -> total es <= 2 ^ 52 -> total es' <= 2 ^ 52 ->
  fold_res (env_process today) es v = Ok w -> exists w', fold_res (env_process today) es' v = Ok w' /\ envelopes_ratio c k w w'.
Proof.
  intros C [En Ex] R G G' B B' H. apply history_walked in H as (h & P & W). destruct (plans_pr v es es' R G G' h P) as (h' & P' & Ph & Bh & Bh').
  assert (Forall (fun x => movable today v (snd x)) h') as F.
  { assert (Forall (fun x => movable today v (snd x)) h) as K by (apply walked_movable; eauto). clear - K Ph Hc Hk. induction Ph as [|x y h h' Q F IH]; [constructor|].
    inversion K as [|? ? M K']; subst. constructor; [|apply IH, K']. destruct Q as (_ & Y & Q). destruct (ratio_zeros _ _ Q) as (Z1 & Z2 & _). destruct M as [M1 M2].
    unfold movable, negative, positive in *. rewrite <- Z1, <- Z2, Y. auto. }
  apply walked_movable in F as (w' & W'); [|exact C]. exists w'. split; [apply history_walked; eauto|].
  assert (S := walked_same _ _ _ _ W). assert (S' := walked_same _ _ _ _ W').
  destruct (walked_currency _ _ _ _ W C) as [C1 C2]. destruct (walked_currency _ _ _ _ W' C) as [C1' C2'].
  assert (v_amount w = v_amount v /\ v_amount w' = v_amount v) as [A A'] by (split; [apply S|apply S']).
  assert (L := walked_last _ _ _ _ W). assert (L' := walked_last _ _ _ _ W').
  assert (map fst h' = map fst h) as D by (clear - Ph; induction Ph as [|x y h h' [Q _] F IH]; [reflexivity|]; cbn [map]; congruence).
  split; [exact (same_definition_trans _ _ _ (same_sym _ _ S) S')|]. split; [congruence|].
  assert (mz (map snd h) <= 2 ^ 53 /\ mz (map snd h') <= 2 ^ 53) as [L1 L2] by lia.
  assert (in_ratio c k (mag (v_now w)) (mag (v_now w')) /\ in_ratio c k (mag (v_next w)) (mag (v_next w'))) as [M1 M2].
  { assert (in_ratio c k fzero fzero) as Z0 by (apply (ratio_is _ _ 0 0 fzero_int fzero_int); lia).
    destruct (freq_last today (v_freq v)) as [l| | |] eqn:Fr;
      [|destruct (walked_stuck _ _ _ _ W) as [X Y]; [congruence|]; destruct (walked_stuck _ _ _ _ W') as [X' Y']; [congruence|];
        rewrite X, X', Y, Y', En, Ex; split; [|exact Z0]; apply sum_of_pr; auto; intros x y (_ & _ & Q); symmetry; apply (ratio_zeros _ _ Q)..].
    destruct (walked_sums _ _ _ _ _ W Fr) as [X Y]. destruct (walked_sums _ _ _ _ _ W' Fr) as [X' Y'].
    rewrite X, X', Y, Y', En, Ex. split; apply sum_of_pr; auto; intros x y (Q0 & _ & Q); unfold to_now, to_next; destruct (ratio_zeros _ _ Q) as (Z1 & Z2 & _); rewrite ?Z1, ?Z2, Q0; reflexivity. }
  split; (split; [congruence|assumption]).
Qed.

(** ** The money *)
Lemma worths_pr name e e' : ER e e' -> good e -> good e' -> forall ps qs, Forall2 PR ps qs -> forall xs, worths (filter (to_classic name) (map (pair e) ps)) xs ->
  exists ys, worths (filter (to_classic name) (map (pair e') qs)) ys /\ Forall2 (amounts_ratio c k) xs ys.
Proof.
  intros R G G' ps qs F. induction F as [|p q ps qs Q F IH]; intros xs W; [inversion W; subst; exists []; split; constructor|].
  cbn [map filter] in *. assert (to_classic name (e', q) = to_classic name (e, p)) as E by (destruct Q; reflexivity). rewrite E. destruct (to_classic name (e, p)); [|auto].
  inversion W as [|? a ? xs' Wp W']; subst. destruct (IH xs' W') as (ys & V & D). destruct (worth_pr e e' p q a R G G' Q Wp) as (b & Wb & Db). exists (b :: ys). split; constructor; assumption.
Qed.
Lemma all_worths_pr name es es' : Forall2 ER es es' -> Forall good es -> Forall good es' -> forall xs, worths (filter (to_classic name) (postings es)) xs ->
  exists ys, worths (filter (to_classic name) (postings es')) ys /\ Forall2 (amounts_ratio c k) xs ys /\ mz xs <= 2 * total es /\ mz ys <= 2 * total es'.
Proof.
  induction 1 as [|e e' es es' R F IH]; intros G G' xs W.
  - inversion W; subst. exists []. split; [constructor|]. split; [constructor|]. split; reflexivity.
  - inversion G as [|? ? Ge Gs]; subst. inversion G' as [|? ? Ge' Gs']; subst. unfold postings in *. cbn [flat_map] in *. rewrite filter_app in *.
    apply Forall2_app_inv_l in W as (x1 & x2 & W1 & W2 & ->). destruct (worths_pr name e e' R Ge Ge' _ _ (proj2 R) x1 W1) as (y1 & V1 & E1).
    destruct (IH Gs Gs' x2 W2) as (y2 & V2 & E2 & B2 & D2). exists (y1 ++ y2). split; [apply Forall2_app; assumption|]. split; [apply Forall2_app; assumption|].
    destruct (worths_z name e _ Ge (fun _ I => I) x1 W1) as (_ & B & _). destruct (worths_z name e' _ Ge' (fun _ I => I) y1 V1) as (_ & B' & _).
    assert (S1 := wz_size e Ge). assert (S2 := wz_size e' Ge'). rewrite !mz_app, !total_cons. lia.
Qed.
Lemma pool_pr xs ys sym : Forall2 (amounts_ratio c k) xs ys -> mz xs <= 2 ^ 53 -> mz ys <= 2 ^ 53 ->
  in_ratio c k (mag (pool_only (fold_left pool_add xs []) sym)) (mag (pool_only (fold_left pool_add ys []) sym)).
Proof.
  intros F B B'. exists (value_in sym xs), (value_in sym ys).
  assert ((forall a, In a xs -> isint (mag a)) /\ (forall a, In a ys -> isint (mag a))) as [A A'].
  { clear B B'. induction F as [|x y xs ys R F [IH IH']]; [split; intros ? []|]. destruct R as (_ & R). apply ratio_z in R as (X & Y & _). split; intros z [<-|I]; auto. }
  split; [apply pool_value; assumption|]. split; [apply pool_value; assumption|]. clear B B' A A'. unfold value_in.
  induction F as [|x y xs ys R F IH]; [change (k * 0 = c * 0); lia|]. cbn [filter]. unfold of_sym in *. destruct R as (Y & R). rewrite Y. destruct (sym_dec (symbol x) sym); [|exact IH].
  cbn [map]. rewrite !Zsum_cons. apply ratio_z in R as (_ & _ & R). lia.
Qed.
Lemma account_pr today es es' a b : starting a -> Forall2 ER es es' -> Forall good es -> Forall good es' -> total es <= 2 ^ 52 -> total es' <= 2 ^ 52 ->
  fold_res (acc_process today) es a = Ok b -> exists b', fold_res (acc_process today) es' a = Ok b' /\ accounts_ratio c k b b'.
Proof.
  intros [St Re] R G G' B B' H. apply acc_fold_iff in H as (N & Ex & Go & Rl). rewrite Re in Rl.
  assert (forall vs ws, (forall v, In v vs -> In v (all_envelopes a)) -> Forall2 (fun v w => fold_res (env_process today) es v = Ok w) vs ws ->
    exists ws', Forall2 (fun v w => fold_res (env_process today) es' v = Ok w) vs ws' /\ Forall2 (envelopes_ratio c k) ws ws') as K.
  { intros vs ws I F. induction F as [|v w vs ws E F IH]; [exists []; split; constructor|]. destruct IH as (ws' & F1 & F2); [intros u J; apply I; right; exact J|].
    destruct (St v (I v (or_introl eq_refl))) as [C Em]. destruct (envelope_pr today v es es' w C Em R G G' B B' E) as (w' & E' & D). exists (w' :: ws'). split; constructor; assumption. }
  destruct (K _ _ (fun v i => in_or_app _ _ _ (or_introl i)) Ex) as (ex' & Ex' & Mx).
  destruct (K _ _ (fun v i => in_or_app _ _ _ (or_intror i)) Go) as (go' & Go' & Mg).
  apply real_fold_iff in Rl as (xs & W & Er). destruct (all_worths_pr _ es es' R G G' xs W) as (ys & W' & V & D & D').
  exists (mkAccount (a_name a) ex' go' (fold_left pool_add ys [])). split.
  - apply acc_fold_iff. cbn [a_name a_expenses a_goals a_real]. rewrite Re. split; [reflexivity|]. split; [exact Ex'|]. split; [exact Go'|]. apply real_fold_iff. eauto.
  - split; [symmetry; exact N|]. split; [exact Mx|]. split; [exact Mg|]. intro sym. cbn [a_real]. rewrite Er. apply pool_pr; [exact V|lia|lia].
Qed.

(** ** The balances *)
Notation PoolR := (Forall2 (amounts_ratio c k)).
Lemma zval_zero : zval fzero = 0.
Proof. apply zval_is. apply f64_is_int, fzero_int. Qed.
Lemma mz_cons a xs : mz (a :: xs) = Z.abs (zval (mag a)) + mz xs.
Proof. reflexivity. Qed.
Lemma mz_nonneg xs : 0 <= mz xs.
Proof. induction xs as [|a xs IH]; [reflexivity|]. rewrite mz_cons. lia. Qed.
Lemma pool_add_pr p q a b : PoolR p q -> amounts_ratio c k a b -> mz p + Z.abs (zval (mag a)) <= 2 ^ 53 -> mz q + Z.abs (zval (mag b)) <= 2 ^ 53 ->
  PoolR (pool_add p a) (pool_add q b) /\ mz (pool_add p a) <= mz p + Z.abs (zval (mag a)) /\ mz (pool_add q b) <= mz q + Z.abs (zval (mag b)).
Proof.
  intros F [Y R] B B'. unfold pool_add. rewrite Y. induction F as [|x y p q [X Q] F IH]; cbn [pool_update].
  - rewrite !mz_cons. change (mz []) with 0 in *. split; [constructor; [split; assumption|constructor]|lia].
  - rewrite !mz_cons in *. rewrite X. assert (N := mz_nonneg p). assert (N' := mz_nonneg q). destruct (ostr_eqb (symbol x) (symbol a)).
    + apply ratio_z in R as (Ia & Ib & E). apply ratio_z in Q as (Ix & Iy & D). apply f64_is_int in Ia, Ib, Ix, Iy.
      assert (is_int (fadd (mag x) (mag a)) (zval (mag x) + zval (mag a))) as V by (apply fadd_int; [exact Ix|exact Ia|lia]).
      assert (is_int (fadd (mag y) (mag b)) (zval (mag y) + zval (mag b))) as V' by (apply fadd_int; [exact Iy|exact Ib|lia]).
      assert (Z1 := zval_is _ _ (proj2 (f64_is_int _ _) V)). assert (Z2 := zval_is _ _ (proj2 (f64_is_int _ _) V')). rewrite !mz_cons. cbn [mag]. rewrite Z1, Z2.
      split; [constructor; [split; [reflexivity|apply (ratio_is _ _ _ _ V V'); lia]|exact F]|lia].
    + destruct IH as (A & C & D); [lia|lia|]. rewrite !mz_cons. split; [constructor; [split; assumption|exact A]|lia].
Qed.
Definition maps_ratio (m m' : list (str * pool)) : Prop := Forall2 (fun x y => fst y = fst x /\ PoolR (snd x) (snd y)) m m'.
Definition mass (m : list (str * pool)) : Z := Zsum (map (fun x => mz (snd x)) m).
Lemma mass_cons x m : mass (x :: m) = mz (snd x) + mass m.
Proof. reflexivity. Qed.
Lemma mass_nonneg m : 0 <= mass m.
Proof. induction m as [|x m IH]; [reflexivity|]. rewrite mass_cons. assert (H := mz_nonneg (snd x)). lia. Qed.
Lemma maps_get m m' key : maps_ratio m m' -> match map_get key m, map_get key m' with Some p, Some q => PoolR p q /\ mz p <= mass m /\ mz q <= mass m' | None, None => True | _, _ => False end.
Proof.
  induction 1 as [|[a p] [b q] m m' [E R] F IH]; [exact Logic.I|]. cbn [fst snd] in E, R. subst b. cbn [map_get]. rewrite !mass_cons. cbn [snd].
  assert (A := mz_nonneg p). assert (B := mz_nonneg q). assert (C := mass_nonneg m). assert (D := mass_nonneg m').
  destruct (str_eqb a key); [split; [exact R|lia]|]. unfold pool in *. revert IH. destruct (map_get key m), (map_get key m'); intro IH; try exact IH. destruct IH as (X & Y & Z). split; [exact X|lia].
Qed.
Lemma maps_insert m m' key p q : maps_ratio m m' -> PoolR p q -> maps_ratio (map_insert key p m) (map_insert key q m').
Proof.
  intros F R. induction F as [|[a x] [b y] m m' [E Q] F IH]; cbn [map_insert]; [constructor; [split; [reflexivity|exact R]|constructor]|].
  cbn [fst snd] in E, Q. subst b. destruct (str_eqb a key); constructor; try (split; [reflexivity|assumption]); assumption.
Qed.
Lemma mass_insert m key p : mass (map_insert key p m) = mass m + mz p - match map_get key m with Some x => mz x | None => 0 end.
Proof.
  induction m as [|[a x] m IH]; cbn [map_insert map_get]; [rewrite mass_cons; cbn [snd]; lia|]. destruct (str_eqb a key); rewrite !mass_cons; cbn [snd]; [lia|]. rewrite IH. lia.
Qed.
Lemma step_pr e e' p q m m' m1 : ER e e' -> good e -> good e' -> PR p q -> In p (e_postings e) -> In q (e_postings e') -> maps_ratio m m' ->
  mass m + Z.abs (wz e p) <= 2 ^ 53 -> mass m' + Z.abs (wz e' q) <= 2 ^ 53 -> totals_step e m p = Ok m1 ->
  exists m1', totals_step e' m' q = Ok m1' /\ maps_ratio m1 m1' /\ mass m1 <= mass m + Z.abs (wz e p) /\ mass m1' <= mass m' + Z.abs (wz e' q).
Proof.
  intros R G G' Q I J M B B' H. unfold totals_step in *. destruct (pr_same _ _ Q) as (A & _ & Am & _). rewrite A. assert (K := maps_get m m' (get_account p) M).
  assert (forall a b pl ql, worth e p a -> worth e' q b -> amounts_ratio c k a b -> map_get (get_account p) m = Some pl -> map_get (get_account p) m' = Some ql ->
    maps_ratio (map_insert (get_account p) (pool_add pl a) m) (map_insert (get_account p) (pool_add ql b) m')
    /\ mass (map_insert (get_account p) (pool_add pl a) m) <= mass m + Z.abs (wz e p) /\ mass (map_insert (get_account p) (pool_add ql b) m') <= mass m' + Z.abs (wz e' q)) as T.
  { intros a b pl ql Wa Wb D E1 E2. rewrite E1, E2 in K. destruct K as (K & K1 & K2). rewrite !mass_insert, E1, E2.
    rewrite <- (proj2 (worth_z e p a G I Wa)) in *. rewrite <- (proj2 (worth_z e' q b G' J Wb)) in *.
    destruct (pool_add_pr pl ql a b K D) as (X & Y & Z); [lia|lia|]. split; [apply maps_insert; assumption|lia]. }
  destruct (map_get (get_account p) m) as [pl|] eqn:E1, (map_get (get_account p) m') as [ql|] eqn:E2; try contradiction.
  - destruct (get_amount p) as [a|] eqn:Gp, (get_amount q) as [b|] eqn:Gq; try contradiction.
    + injection H as <-. eexists. split; [reflexivity|]. apply T; auto; left; assumption.
    + apply bind_Ok in H as (o & Bo & H). injection H as <-. destruct (blank_ratio e e' o R G G' Bo) as (o' & Bo' & D). rewrite Bo'. cbn [bind]. eexists. split; [reflexivity|].
      destruct o as [a|], o' as [b|]; try contradiction; [apply T; auto; right; auto|]. split; [exact M|lia].
  - injection H as <-. eexists. split; [reflexivity|]. rewrite !mass_insert, E1, E2, !mz_cons. change (mz []) with 0.
    destruct (get_amount p) as [a|] eqn:Gp, (get_amount q) as [b|] eqn:Gq; try contradiction.
    + rewrite (proj2 (worth_z e p a G I (or_introl Gp))), (proj2 (worth_z e' q b G' J (or_introl Gq))). split; [apply maps_insert; [exact M|constructor; [exact Am|constructor]]|lia].
    + change (mag amount_zero) with fzero. rewrite zval_zero. split; [|lia]. apply maps_insert; [exact M|]. constructor; [|constructor]. split; [reflexivity|]. apply (ratio_is _ _ 0 0 fzero_int fzero_int). lia.
Qed.
Lemma steps_pr e e' : ER e e' -> good e -> good e' -> forall ps qs, Forall2 PR ps qs -> (forall p, In p ps -> In p (e_postings e)) -> (forall q, In q qs -> In q (e_postings e')) ->
  forall m m' m1, maps_ratio m m' -> mass m + Zof (fun p => Z.abs (wz e p)) ps <= 2 ^ 53 -> mass m' + Zof (fun p => Z.abs (wz e' p)) qs <= 2 ^ 53 -> fold_res (totals_step e) ps m = Ok m1 ->
  exists m1', fold_res (totals_step e') qs m' = Ok m1' /\ maps_ratio m1 m1'
    /\ mass m1 <= mass m + Zof (fun p => Z.abs (wz e p)) ps /\ mass m1' <= mass m' + Zof (fun p => Z.abs (wz e' p)) qs.
Proof.
  intros R G G' ps qs F. induction F as [|p q ps qs Q F IH]; intros S1 S2 m m' m1 M B B' H; cbn [fold_res] in *.
  - injection H as <-. exists m'. split; [reflexivity|]. split; [exact M|]. change (Zof _ []) with 0. change (Zof (fun p => Z.abs (wz e' p)) []) with 0. lia.
  - apply bind_Ok in H as (m2 & H1 & H). rewrite Zof_cons in B, B'. rewrite !Zof_cons.
    assert (0 <= Zof (fun p => Z.abs (wz e p)) ps) as N by (eapply Z.le_trans; [apply Z.abs_nonneg|apply (Zof_abs (wz e))]).
    assert (0 <= Zof (fun p => Z.abs (wz e' p)) qs) as N' by (eapply Z.le_trans; [apply Z.abs_nonneg|apply (Zof_abs (wz e'))]).
    destruct (step_pr e e' p q m m' m2 R G G' Q (S1 p (or_introl eq_refl)) (S2 q (or_introl eq_refl)) M) as (m2' & E & M2 & L & L'); [lia|lia|exact H1|].
    destruct (IH (fun x I => S1 x (or_intror I)) (fun x I => S2 x (or_intror I)) m2 m2' m1 M2) as (m1' & E' & M1 & L1 & L1'); [lia|lia|exact H|].
    exists m1'. rewrite E. cbn [bind]. split; [exact E'|]. split; [exact M1|lia].
Qed.
Lemma totals_pr es es' : Forall2 ER es es' -> Forall good es -> Forall good es' -> forall m m' m1, maps_ratio m m' -> mass m + 2 * total es <= 2 ^ 53 -> mass m' + 2 * total es' <= 2 ^ 53 ->
  fold_res (fun m e => fold_res (totals_step e) (e_postings e) m) es m = Ok m1 ->
  exists m1', fold_res (fun m e => fold_res (totals_step e) (e_postings e) m) es' m' = Ok m1' /\ maps_ratio m1 m1'.
Proof.
  induction 1 as [|e e' es es' R F IH]; intros G G' m m' m1 M B B' H; cbn [fold_res] in *.
  - injection H as <-. eauto.
  - apply bind_Ok in H as (m2 & H1 & H). rewrite total_cons in B, B'. inversion G as [|? ? Ge Gs]; subst. inversion G' as [|? ? Ge' Gs']; subst.
    assert (W := wz_size e Ge). assert (W' := wz_size e' Ge'). assert (N := total_nonneg es). assert (N' := total_nonneg es').
    destruct (steps_pr e e' R Ge Ge' _ _ (proj2 R) (fun _ I => I) (fun _ I => I) m m' m2 M) as (m2' & E & M2 & L & L'); [lia|lia|exact H1|].
    rewrite E. cbn [bind]. apply (IH Gs Gs' m2 m2' m1 M2); [lia|lia|exact H].
Qed.
Lemma insert_pr x y l m : ER x y -> Forall2 ER l m -> Forall2 ER (insert_entry x l) (insert_entry y m).
Proof.
  intros R F. induction F as [|a b l m Q F IH]; cbn [insert_entry]; [constructor; [exact R|constructor]|]. rewrite (proj1 R), (proj1 Q).
  destruct (date_leb (e_date x) (e_date a)); repeat (constructor; try assumption).
Qed.
Lemma sort_pr l m : Forall2 ER l m -> Forall2 ER (sort_entries l) (sort_entries m).
Proof. induction 1; [constructor|]. cbn. apply insert_pr; assumption. Qed.
Lemma added_pr today es es' : Forall2 ER es es' -> forall l l' l1 l2, Forall2 ER (l_entries l) (l_entries l') ->
  fold_res (add_entry today) es l = Ok l1 -> fold_res (add_entry today) es' l' = Ok l2 -> Forall2 ER (l_entries l1) (l_entries l2).
Proof.
  induction 1 as [|e e' es es' R F IH]; intros l l' l1 l2 Q H H'; cbn [fold_res] in *; [injection H as <-; injection H' as <-; exact Q|].
  apply bind_Ok in H as (n & E & H). apply bind_Ok in H' as (n' & E' & H'). apply (IH n n' l1 l2); [|exact H|exact H'].
  unfold add_entry in E, E'. apply bind_Ok in E as (? & _ & E). apply bind_Ok in E' as (? & _ & E'). injection E as <-. injection E' as <-. cbn [l_entries].
  apply sort_pr, Forall2_app; [exact Q|constructor; [exact R|constructor]].
Qed.
End Ratio.

Lemma added_perm today es : forall l l1, fold_res (add_entry today) es l = Ok l1 -> Permutation (l_entries l ++ es) (l_entries l1).
Proof.
  induction es as [|e es IH]; intros l l1 H; cbn [fold_res] in H; [injection H as <-; rewrite app_nil_r; apply Permutation_refl|].
  apply bind_Ok in H as (n & E & H). apply IH in H. eapply Permutation_trans; [|exact H]. unfold add_entry in E. apply bind_Ok in E as (? & _ & E). injection E as <-. cbn [l_entries].
  change (e :: es) with ([e] ++ es). rewrite app_assoc. apply Permutation_app_tail, sort_entries_perm.
Qed.
Lemma good_perm es es' : Permutation es es' -> Forall good es -> total es <= 2 ^ 52 -> Forall good es' /\ total es' <= 2 ^ 52.
Proof.
  intros P G T. split; [rewrite Forall_forall in *; intros e I; apply G, (Permutation_in _ (Permutation_sym P)), I|].
  unfold total in *. rewrite <- (Zsum_perm _ _ (Permutation_map (fun e => size (e_postings e)) P)). exact T.
Qed.
Theorem C130_entries : forall c k today l es es' l1, 0 < c -> 0 < k -> built today l [] -> Forall2 (entries_ratio c k) es es' -> modest es -> modest es' ->
  fold_res (add_entry today) es l = Ok l1 ->
  exists l2, fold_res (add_entry today) es' l = Ok l2
  /\ Forall2 (fun x y => fst y = fst x /\ accounts_ratio c k (snd x) (snd y)) (l_accounts l1) (l_accounts l2)
  /\ forall m, get_totals l1 = Ok m -> exists m', get_totals l2 = Ok m'
       /\ Forall2 (fun x y => fst y = fst x /\ Forall2 (amounts_ratio c k) (snd x) (snd y)) m m'.
Proof.
  intros c k today l es es' l1 Hc Hk B R M M' H0. assert (H := H0). apply adding_iff in H. assert (St := built_starting _ _ _ B eq_refl).
  apply modest_good in M as [G T]. apply modest_good in M' as [G' T'].
  assert (exists m, Forall2 (fun x y => fst y = fst x /\ fold_res (acc_process today) es' (snd x) = Ok (snd y)) (l_accounts l) m
    /\ Forall2 (fun x y => fst y = fst x /\ accounts_ratio c k (snd x) (snd y)) (l_accounts l1) m) as (m & X & Y).
  { revert St. induction H as [|x y xs ys (A & C) _ IH]; intro St; [exists []; split; constructor|].
    destruct IH as (m & X & Y); [intros; apply (St k0 a); right; assumption|].
    destruct x as [k0 a]. cbn [fst snd] in *. destruct (account_pr c k Hc Hk today es es' a (snd y) (St k0 a (or_introl eq_refl)) R G G' T T' C) as (b & Hb & Sb).
    exists ((fst y, b) :: m). split; constructor; auto. }
  destruct (adding_works today es' l m X) as (l2 & H2 & <-). exists l2. split; [exact H2|]. split; [exact Y|].
  assert (l_entries l = []) as E0 by (destruct (built_entries _ _ _ B) as (P & _); apply Permutation_nil; exact P).
  assert (P := added_perm _ _ _ _ H0). assert (P' := added_perm _ _ _ _ H2). rewrite E0 in P, P'. cbn [app] in P, P'.
  destruct (good_perm _ _ P G T) as [Gs Ts]. destruct (good_perm _ _ P' G' T') as [Gs' Ts'].
  intros m Hm. refine (totals_pr c k Hc Hk _ _ (added_pr c k today es es' R l l l1 l2 _ H0 H2) Gs Gs' [] [] m _ _ _ Hm).
  - rewrite E0. constructor.
  - constructor.
  - change (mass []) with 0. lia.
  - change (mass []) with 0. lia.
Qed.
Print Assumptions C130_entries.

(** Half as much again of everything: six dollars and four units of A at 3, or
    nine dollars and six units. *)
Definition priced (n : Z) : posting := Classic (mkClassic (Some (mkAmount (fofZ n) (Some (lit "A")))) (lit "income:job") (Some (UnitCost (mkAmount (fofZ 3) None))) None).
Definition bought (n m : Z) : list entry := [shop [plain (lit "costs:food") (fofZ n) usd; left_out]; shop [priced m; left_out]].
Definition buying (n m : string) : list string :=
  said ["  costs:food  $" ++ n; "  assets:cash"; "2024/03/19 * shop"; "  income:job  " ++ m ++ " A @ 3"; "  assets:cash"]%string.
Example C130_case : Forall2 (entries_ratio 2 3) (bought 6 4) (bought 9 6) /\ modest (bought 6 4) /\ modest (bought 9 6)
  /\ l_entries (loaded (buying "6" "4")) = bought 6 4 /\ l_entries (loaded (buying "9" "6")) = bought 9 6
  /\ views (buying "6" "4")
     = map lit ["assets:cash                            "; String "009"%char " 0"; String "009"%char "A-4";
                "costs:food                             $ 6"; "income:job                             A 4";
                "assets:cash"; "  available"; "    A-4"; "  expenses"; "    food";
                "      now                                     $ 0 / $ 100 |                                        |";
                "      next (on 2024-03-25)                    $-6 / $ 100 |                                        |"; "";
                "2024/03/19 * shop  assets:cash -> costs:food  $-6  $-6"; "2024/03/19 * shop  assets:cash -> income:job  A-4  A-4"]%string
  /\ views (buying "9" "6")
     = map lit ["assets:cash                            "; String "009"%char " 0"; String "009"%char "A-6";
                "costs:food                             $ 9"; "income:job                             A 6";
                "assets:cash"; "  available"; "    A-6"; "  expenses"; "    food";
                "      now                                     $ 0 / $ 100 |                                        |";
                "      next (on 2024-03-25)                    $-9 / $ 100 |                                        |"; "";
                "2024/03/19 * shop  assets:cash -> costs:food  $-9  $-9"; "2024/03/19 * shop  assets:cash -> income:job  A-6  A-6"]%string.
Proof.
  assert (forall n, Z.abs n <= 2 ^ 53 -> f64_is (fofZ n) (IZR n)) as F by (intros n H; apply f64_is_int, fofZ_int, H).
  assert (forall c k n m, Z.abs n <= 2 ^ 53 -> Z.abs m <= 2 ^ 53 -> k * n = c * m -> in_ratio c k (fofZ n) (fofZ m)) as R by (intros c k n m A B E; exists n, m; auto).
  split.
  { constructor; [|constructor; [|constructor]]; (split; [reflexivity|]); (constructor; [|constructor; [|constructor]]); try apply ratio_blank; apply ratio_written; try (split; [reflexivity|apply R; lia]).
    - exact Logic.I.
    - replace (classic_native _) with (Some (fofZ 12)) by (vm_compute; reflexivity). match goal with |- worth_ratio _ _ _ ?x => replace x with (Some (fofZ 18)) by (vm_compute; reflexivity) end. apply R; lia. }
  split; [split; [repeat (constructor; [cbn; lia|]); constructor|]; replace (flat_map figures (bought 6 4)) with [fofZ 6; fofZ 4; fofZ 12] by (vm_compute; reflexivity); exists [6; 4; 12]; split; [repeat constructor; apply F; lia|cbn; lia]|].
  split; [split; [repeat (constructor; [cbn; lia|]); constructor|]; replace (flat_map figures (bought 9 6)) with [fofZ 9; fofZ 6; fofZ 18] by (vm_compute; reflexivity); exists [9; 6; 18]; split; [repeat constructor; apply F; lia|cbn; lia]|].
  split; [vm_compute; reflexivity|]. split; [vm_compute; reflexivity|]. split; vm_compute; reflexivity.
Qed.
