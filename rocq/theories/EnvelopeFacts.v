(** Envelopes: movement of money, filling, display. *)
From Coq Require Import ZArith NArith List Bool String Reals Lra Lia.
From Coq Require Import Floats.SpecFloat.
From Flocq Require Import Core IEEE754.BinarySingleNaN.
From Verif Require Import Base Str F64 Date Amount Posting Entry Envelope Account
  SpecAmount SpecDate SpecEntry SpecEnvelope StrFacts F64Facts AmountFacts PostingFacts EntryFacts
  DateFormat DateFacts FreqFacts.
Import ListNotations.
Local Open Scope Z_scope.

Opaque dayn of_dayn first_dayn last_dayn.

(** ** Folds with failure *)
Lemma fold_res_app {A S} (f : S -> A -> res S) l1 l2 s :
  fold_res f (l1 ++ l2) s = bind (fold_res f l1 s) (fold_res f l2).
Proof.
  revert s. induction l1 as [|a l1 IH]; intro s; [reflexivity|]. cbn [fold_res app].
  destruct (f s a); cbn [bind]; auto.
Qed.
Lemma map_res_Ok {A C} (f : A -> res C) l l' :
  map_res f l = Ok l' <-> Forall2 (fun a b => f a = Ok b) l l'.
Proof.
  revert l'. induction l as [|a l IH]; intro l'; cbn [map_res].
  - split; [intros [= <-]; constructor|intro H; inversion H; reflexivity].
  - split.
    + intro H. apply bind_Ok in H. destruct H as (b & E & H). apply bind_Ok in H. destruct H as (bs & E' & H).
      injection H as <-. constructor; [exact E|]. apply IH, E'.
    + intro H. inversion H as [|a' b l0 bs E H' e1 e2]; subst. rewrite E. cbn [bind]. apply IH in H'. rewrite H'. reflexivity.
Qed.

(** ** Applying an amount *)
Lemma same_definition_refl v : same_definition v v.
Proof. unfold same_definition. tauto. Qed.
Lemma same_definition_trans u v w : same_definition u v -> same_definition v w -> same_definition u w.
Proof. unfold same_definition. intuition congruence. Qed.
Lemma added_iff x a y : amount_add x a = Ok y <-> added x a y.
Proof.
  unfold amount_add, added. destruct (ostr_eqb_spec (symbol x) (symbol a)) as [E|E]; split.
  - intros [= <-]. auto.
  - intros [_ ->]. reflexivity.
  - discriminate.
  - intros [H _]. congruence.
Qed.
Lemma fltb_zero_asym x : fltb x fzero = true -> fltb fzero x = false.
Proof. unfold fltb. cbn [sf fzero]. destruct (sf x) as [s|[]| |[] m e]; easy. Qed.
Lemma fltb_zero_asym' x : fltb fzero x = true -> fltb x fzero = false.
Proof. unfold fltb. cbn [sf fzero]. destruct (sf x) as [s|[]| |[] m e]; easy. Qed.
Lemma moved_unique today v a d w w' : moved today v a d w -> moved today v a d w' -> w = w'.
Proof.
  intros (D & L & C) (D' & L' & C'). 
  assert (v_now w = v_now w' /\ v_next w = v_next w') as [N X].
  { unfold negative, positive, added in *.
    assert (Q := fltb_zero_asym (mag a)). 
    assert (forall l l', freq_last today (v_freq v) = Ok (Some l) -> earlier d l ->
      freq_last today (v_freq v) = Ok (Some l') -> not_later l' d -> False) as K.
    { intros l l' E1 E2 E3 E4. assert (l = l') by congruence. subst. exact (earlier_irrefl _ _ E2 E4). }
    destruct C as [(A & (B & C) & E)|[(A & (l & F & G) & (B & C) & E)|[(A & F & (B & C) & E)|(A & B & C & E)]]];
    destruct C' as [(A' & (B' & C') & E')|[(A' & (l' & F' & G') & (B' & C') & E')|[(A' & F' & (B' & C') & E')|(A' & B' & C' & E')]]];
    try (split; congruence); try (rewrite (Q ltac:(assumption)) in *; discriminate).
    - exfalso. destruct F' as [F'|(l' & F' & G')]; [congruence|]. exact (K _ _ F G F' G').
    - exfalso. destruct F as [F|(l & F & G)]; [congruence|]. exact (K _ _ F' G' F G). }
  destruct w, w'. unfold same_definition in *. cbn in *. f_equal; intuition congruence.
Qed.
Lemma apply_amount_iff today v a d w : apply_amount today v a d = Ok w <-> moved today v a d w.
Proof.
  assert (forall w, apply_amount today v a d = Ok w -> moved today v a d w) as F.
  { clear w. intros w H. unfold apply_amount in H. apply bind_Ok in H. destruct H as (u & H & E). injection E as <-.
    unfold moved. destruct (fltb (mag a) fzero) eqn:N.
    - apply bind_Ok in H. destruct H as (n & H & E). injection E as <-. apply added_iff in H.
      split; [unfold same_definition; cbn; tauto|]. split; [reflexivity|]. left. cbn. auto.
    - destruct (fltb fzero (mag a)) eqn:P.
      + apply bind_Ok in H. destruct H as (o & L & H). destruct o as [l|].
        * destruct (date_ltb d l) eqn:T.
          -- apply date_ltb_iff in T. apply bind_Ok in H. destruct H as (n & H & E). injection E as <-. apply added_iff in H.
             split; [unfold same_definition; cbn; tauto|]. split; [reflexivity|]. right. left. cbn. split; [exact P|]. split; [|auto].
             exists l. auto.
          -- apply bind_Ok in H. destruct H as (n & H & E). injection E as <-. apply added_iff in H.
             split; [unfold same_definition; cbn; tauto|]. split; [reflexivity|]. right. right. left. cbn. split; [exact P|]. split; [|auto].
             right. exists l. split; [exact L|]. destruct (earlier_or d l) as [Q|Q]; [|exact Q]. apply date_ltb_iff in Q. congruence.
        * apply bind_Ok in H. destruct H as (n & H & E). injection E as <-. apply added_iff in H.
          split; [unfold same_definition; cbn; tauto|]. split; [reflexivity|]. right. right. left. cbn. auto.
      + injection H as <-. split; [unfold same_definition; cbn; tauto|]. split; [reflexivity|]. right. right. right.
        unfold negative, positive. rewrite N, P. cbn. repeat split; discriminate. }
  split; [apply F|]. intro M.
  assert (exists u, apply_amount today v a d = Ok u) as (u & U).
  { unfold apply_amount. destruct M as (_ & _ & C). unfold negative, positive in C.
    assert (Q := fltb_zero_asym (mag a)).
    destruct C as [(A & B & _)|[(A & (l & L & T) & B & _)|[(A & L & B & _)|(A & B & _)]]].
    - rewrite A. apply added_iff in B. rewrite B. eexists. reflexivity.
    - rewrite (fltb_zero_asym' _ A), A, L. cbn [bind]. rewrite (proj2 (date_ltb_iff _ _) T).
      apply added_iff in B. rewrite B. eexists. reflexivity.
    - rewrite (fltb_zero_asym' _ A), A. destruct L as [->|(l & -> & T)]; cbn [bind].
      + apply added_iff in B. rewrite B. eexists. reflexivity.
      + destruct (date_ltb d l) eqn:K; [apply date_ltb_iff in K; destruct (earlier_irrefl _ _ K T)|].
        apply added_iff in B. rewrite B. eexists. reflexivity.
    - apply not_true_is_false in A, B. rewrite A, B. eexists. reflexivity. }
  rewrite U. f_equal. exact (moved_unique _ _ _ _ _ _ (F _ U) M).
Qed.

(** ** Manual postings *)
Lemma has_envelope_posting_iff e : has_envelope_posting e = true <-> manual e.
Proof.
  unfold has_envelope_posting, manual. rewrite existsb_exists. split.
  - intros ([c|ep] & I & H); [discriminate|]. exists ep. exact I.
  - intros (ep & I). exists (EnvPosting ep). auto.
Qed.
Lemma moved_same today v a d w : moved today v a d w -> same_definition v w.
Proof. intros (D & _). exact D. Qed.
Lemma posted_to_same v w ps : same_definition v w -> posted_to w ps = posted_to v ps.
Proof.
  unfold same_definition, posted_to. intros D. apply flat_map_ext. intros [c|ep]; [reflexivity|].
  replace (v_account w) with (v_account v) by (symmetry; tauto). replace (v_name w) with (v_name v) by (symmetry; tauto). reflexivity.
Qed.
Lemma process_manual_iff today d ps : forall v w,
  fold_res (manual_step today d) (filter is_envelope ps) v = Ok w <-> moved_all today d v (posted_to v ps) w.
Proof.
  induction ps as [|p ps IH]; intros v w; cbn [filter fold_res posted_to flat_map].
  - split; [intros [= <-]; constructor|intro H; inversion H; reflexivity].
  - destruct p as [c|ep]; cbn [is_envelope]; [apply IH|]. cbn [fold_res manual_step app].
    fold (posted_to v ps).
    destruct (str_eqb_spec (ep_account ep) (v_account v)) as [A|A]; destruct (str_dec (ep_account ep) (v_account v)) as [A'|A']; try contradiction; cbn [andb bind app]; [|apply IH].
    destruct (str_eqb_spec (v_name v) (ep_envelope ep)) as [Nm|Nm]; destruct (str_dec (ep_envelope ep) (v_name v)) as [Nm'|Nm'];
      try (exfalso; congruence); cbn [bind app]; [|apply IH]. split.
    + intro H. apply bind_Ok in H. destruct H as (u & H & K). apply apply_amount_iff in H. apply IH in K.
      rewrite (posted_to_same v u) in K by exact (moved_same _ _ _ _ _ H). econstructor; eassumption.
    + intro H. inversion H as [|v0 a0 u l0 w0 M K e1 e2 e3]; subst. apply apply_amount_iff in M as M'. rewrite M'. cbn [bind].
      apply IH. rewrite (posted_to_same v u) by exact (moved_same _ _ _ _ _ M). exact K.
Qed.
Lemma env_process_manual today v e w : manual e ->
  (env_process today v e = Ok w <-> moved_all today (e_date e) v (posted_to v (e_postings e)) w).
Proof.
  intro H. apply has_envelope_posting_iff in H. unfold env_process. rewrite H. apply process_manual_iff.
Qed.
Lemma posted_to_In v ps a : In a (posted_to v ps) <->
  In (EnvPosting (mkEnvPosting (v_account v) (v_name v) a)) ps.
Proof.
  unfold posted_to. rewrite in_flat_map. split.
  - intros ([c|[an en am]] & I & H); [destruct H|]. cbn [ep_account ep_envelope ep_amount] in H.
    destruct (str_dec an (v_account v)) as [->|]; [|cbn in H; destruct H]. destruct (str_dec en (v_name v)) as [->|]; [|cbn in H; destruct H].
    cbn in H. destruct H as [<-|[]]. exact I.
  - intro I. exists (EnvPosting (mkEnvPosting (v_account v) (v_name v) a)). split; [exact I|]. cbn [ep_account ep_envelope ep_amount].
    destruct (str_dec (v_account v) (v_account v)); [|contradiction]. destruct (str_dec (v_name v) (v_name v)); [|contradiction]. left. reflexivity.
Qed.
Lemma moved_all_last today d v l w : moved_all today d v l w -> l <> [] -> v_last w = d.
Proof.
  induction 1 as [|v a u l w M K IH]; [contradiction|]. intros _. destruct l as [|b l].
  - inversion K; subst. destruct M as (_ & L & _). exact L.
  - apply IH. discriminate.
Qed.
Lemma moved_all_same today d v l w : moved_all today d v l w -> same_definition v w.
Proof.
  induction 1 as [|v a u l w M K IH]; [apply same_definition_refl|].
  apply (same_definition_trans _ u); [exact (moved_same _ _ _ _ _ M)|exact IH].
Qed.

(** ** Automatic movement *)
Lemma own_iff v p : str_eqb (get_account p) (v_account v) = true <-> own v p.
Proof. apply str_eqb_eq. Qed.
Lemma linked_iff v p : negb (str_eqb (get_account p) (v_account v)) && mem (get_account p) (v_auto v) = true <-> linked v p.
Proof. unfold linked. rewrite andb_true_iff, negb_true_iff, str_eqb_neq, mem_In. tauto. Qed.
Lemma filter_count {A} (f : A -> bool) l : Nat.ltb (List.length (filter f l)) 1 = true <-> forall x, In x l -> f x = false.
Proof.
  rewrite PeanoNat.Nat.ltb_lt. split.
  - intros H x I. destruct (f x) eqn:E; [|reflexivity]. assert (In x (filter f l)) as K by (apply filter_In; auto).
    destruct (filter f l); [destruct K|cbn in H; lia].
  - intro H. destruct (filter f l) as [|x r] eqn:E; [cbn; lia|]. exfalso.
    assert (In x (filter f l)) as K by (rewrite E; left; reflexivity). apply filter_In in K. rewrite H in K by tauto. destruct K. discriminate.
Qed.
Lemma infer_amount_worth v e p a : infer_amount v e p = Ok a ->
  exists b, worth e p b /\ symbol a = symbol b /\ (symbol b = symbol (v_amount v) -> a = b).
Proof.
  unfold infer_amount, worth. intro H. apply bind_Ok in H. destruct H as (b & E & H).
  exists b. split.
  - destruct (get_amount p) as [c|]; [left; congruence|]. right. split; [reflexivity|].
    apply bind_Ok in E. destruct E as ([x|] & E & K); cbn in K; [congruence|discriminate].
  - destruct (ostr_eqb_spec (symbol b) (symbol (v_amount v))) as [Q|Q]; [injection H as <-; auto|].
    destruct (symbol (v_amount v)); [discriminate|]. destruct (native_value p); [|discriminate].
    injection H as <-. split; [reflexivity|]. contradiction.
Qed.
Lemma worth_unique e p a b : worth e p a -> worth e p b -> a = b.
Proof. unfold worth. intros [A|[A A']] [C|[C C']]; congruence. Qed.
Lemma infer_fold v e ps : forall auto self auto' self',
  symbol auto = symbol (v_amount v) -> symbol self = symbol (v_amount v) ->
  fold_res (infer_step v e) ps (auto, self) = Ok (auto', self') ->
  sums e (symbol (v_amount v)) (linked v) ps (mag auto) (mag auto')
  /\ sums e (symbol (v_amount v)) (own v) ps (mag self) (mag self').
Proof.
  induction ps as [|p ps IH]; intros auto self auto' self' A Sf H; cbn [fold_res] in H.
  - injection H as <- <-. split; constructor.
  - apply bind_Ok in H. destruct H as ([au se] & E & H). unfold infer_step in E. apply bind_Ok in E.
    destruct E as (a & Ea & E). destruct (infer_amount_worth _ _ _ _ Ea) as (b & W & Sb & Eq).
    destruct (str_eqb_spec (get_account p) (v_account v)) as [O|O].
    + apply bind_Ok in E. destruct E as (s & Es & E). injection E as <- <-.
      apply added_iff in Es. destruct Es as [E1 ->]. assert (symbol b = symbol (v_amount v)) as Q by congruence.
      rewrite (Eq Q) in *. apply IH in H; [|exact A|exact Sf]. destruct H as [H1 H2]. split.
      * apply sums_out; [intros [K _]; contradiction|exact H1].
      * apply (sums_in _ _ _ _ _ b); [exact O|exact W|exact Q|exact H2].
    + destruct (mem (get_account p) (v_auto v)) eqn:M.
      * apply mem_In in M. apply bind_Ok in E. destruct E as (s & Es & E). injection E as <- <-.
        apply added_iff in Es. destruct Es as [E1 ->]. assert (symbol b = symbol (v_amount v)) as Q by congruence.
        rewrite (Eq Q) in *. apply IH in H; [|exact A|exact Sf]. destruct H as [H1 H2]. split.
        -- apply (sums_in _ _ _ _ _ b); [split; assumption|exact W|exact Q|exact H1].
        -- apply sums_out; [exact O|exact H2].
      * injection E as <- <-. apply IH in H; [|exact A|exact Sf]. destruct H as [H1 H2]. split.
        -- apply sums_out; [|exact H1]. intros [_ K]. apply mem_In in K. congruence.
        -- apply sums_out; [exact O|exact H2].
Qed.
Lemma sums_unique e sym P ps : forall x y z, sums e sym P ps x y -> sums e sym P ps x z -> y = z.
Proof.
  intros x y z H. revert z. induction H as [x|p ps a x y H W E S IH|p ps x y H S IH]; intros z K; inversion K; subst; try contradiction; auto.
  apply IH. match goal with W' : worth e p ?b, K' : sums _ _ _ _ (fadd x (mag ?b)) z |- _ => rewrite <- (worth_unique _ _ _ _ W W') in K'; exact K' end.
Qed.
Definition transfer (v : envelope) (f s : f64) : amount :=
  mkAmount (if fltb s fzero then fneg (fmin f (fabs s)) else fmin f (fabs s)) (symbol (v_amount v)).
Lemma env_process_auto today v e w : ~ manual e -> env_process today v e = Ok w ->
  (w = v /\ ((forall p, In p (e_postings e) -> ~ own v p) \/ (forall p, In p (e_postings e) -> ~ linked v p)))
  \/ ((exists p, In p (e_postings e) /\ own v p) /\ (exists p, In p (e_postings e) /\ linked v p)
      /\ exists f s, sums e (symbol (v_amount v)) (linked v) (e_postings e) fzero f
         /\ sums e (symbol (v_amount v)) (own v) (e_postings e) fzero s
         /\ ((feqb (fmin f (fabs s)) fzero = true /\ w = v)
             \/ (feqb (fmin f (fabs s)) fzero = false /\ moved today v (transfer v f s) (e_date e) w))).
Proof.
  intros M H. unfold env_process in H. destruct (has_envelope_posting e) eqn:X; [apply has_envelope_posting_iff in X; contradiction|].
  unfold infer in H. destruct (Nat.ltb (count_self v (e_postings e)) 1) eqn:CS.
  { left. injection H as <-. split; [reflexivity|]. left. intros p I O. apply own_iff in O.
    unfold count_self in CS. rewrite filter_count in CS. rewrite (CS p I) in O. discriminate. }
  destruct (Nat.ltb (count_auto v (e_postings e)) 1) eqn:CA.
  { left. injection H as <-. split; [reflexivity|]. right. intros p I O. apply linked_iff in O.
    unfold count_auto in CA. rewrite filter_count in CA. rewrite (CA p I) in O. discriminate. }
  cbn [orb] in H. right. apply bind_Ok in H. destruct H as ([auto self] & F & H).
  apply infer_fold in F; [|reflexivity..]. cbn [mag] in F. destruct F as [F1 F2].
  split.
  { unfold count_self in CS. destruct (filter (fun p => str_eqb (get_account p) (v_account v)) (e_postings e)) as [|p r] eqn:E; [discriminate|].
    assert (In p (p :: r)) as I by (left; reflexivity). rewrite <- E in I. apply filter_In in I. exists p. rewrite <- own_iff. exact I. }
  split.
  { unfold count_auto in CA. destruct (filter (fun p => negb (str_eqb (get_account p) (v_account v)) && mem (get_account p) (v_auto v)) (e_postings e)) as [|p r] eqn:E; [discriminate|].
    assert (In p (p :: r)) as I by (left; reflexivity). rewrite <- E in I. apply filter_In in I. exists p. rewrite <- linked_iff. exact I. }
  exists (mag auto), (mag self). split; [exact F1|]. split; [exact F2|].
  destruct (feqb (fmin (mag auto) (fabs (mag self))) fzero) eqn:Z; cbn [negb] in H.
  - left. injection H as <-. auto.
  - right. split; [reflexivity|]. apply apply_amount_iff in H. exact H.
Qed.

(** When it cannot fail. *)
Definition in_currency (v : envelope) : Prop :=
  symbol (v_next v) = symbol (v_amount v) /\ symbol (v_now v) = symbol (v_amount v).
Lemma moved_total today v a d : in_currency v -> symbol a = symbol (v_amount v) ->
  (exists o, freq_last today (v_freq v) = Ok o) -> exists w, apply_amount today v a d = Ok w.
Proof.
  intros [C1 C2] E (o & L). unfold apply_amount, amount_add. rewrite C1, C2, E, ostr_eqb_refl, L. cbn [bind].
  destruct (fltb (mag a) fzero); [eexists; reflexivity|]. destruct (fltb fzero (mag a)); [|eexists; reflexivity].
  destruct o as [l|]; [destruct (date_ltb d l)|]; eexists; reflexivity.
Qed.
Lemma infer_amount_total v e p a : worth e p a -> symbol a = symbol (v_amount v) -> infer_amount v e p = Ok a.
Proof.
  unfold infer_amount. intros [W|[W W']] E; rewrite W; [|rewrite W']; cbn [bind unwrap]; rewrite E, ostr_eqb_refl; reflexivity.
Qed.
Lemma infer_fold_total v e ps : (forall p, In p ps -> exists a, worth e p a /\ symbol a = symbol (v_amount v)) ->
  forall auto self, symbol auto = symbol (v_amount v) -> symbol self = symbol (v_amount v) ->
  exists r, fold_res (infer_step v e) ps (auto, self) = Ok r.
Proof.
  induction ps as [|p ps IH]; intros W auto self A Sf; cbn [fold_res]; [eexists; reflexivity|].
  destruct (W p) as (a & Wa & E); [left; reflexivity|]. unfold infer_step at 1. rewrite (infer_amount_total v e p a Wa E). cbn [bind].
  unfold amount_add. rewrite A, Sf, E, ostr_eqb_refl. cbn [bind].
  assert (forall q, In q ps -> exists b, worth e q b /\ symbol b = symbol (v_amount v)) as W' by (intros q I; apply W; right; exact I).
  destruct (str_eqb (get_account p) (v_account v)); [|destruct (mem (get_account p) (v_auto v))]; cbn [bind]; apply IH; auto.
Qed.
Lemma env_process_auto_total today v e : ~ manual e -> in_currency v ->
  (exists o, freq_last today (v_freq v) = Ok o) ->
  (forall p, In p (e_postings e) -> exists a, worth e p a /\ symbol a = symbol (v_amount v)) ->
  exists w, env_process today v e = Ok w.
Proof.
  intros M C L W. unfold env_process. destruct (has_envelope_posting e) eqn:X; [apply has_envelope_posting_iff in X; contradiction|].
  unfold infer. destruct (Nat.ltb _ 1 || Nat.ltb _ 1); [eexists; reflexivity|].
  destruct (infer_fold_total v e (e_postings e) W (mkAmount fzero (symbol (v_amount v))) (mkAmount fzero (symbol (v_amount v)))) as ((au & se) & ->); [reflexivity..|].
  cbn [bind]. destruct (negb _); [|eexists; reflexivity]. apply moved_total; [exact C|reflexivity|exact L].
Qed.

(** ** Direction *)
Lemma fmin_nonneg x y : fltb x fzero = false -> fltb y fzero = false -> fltb (fmin x y) fzero = false.
Proof.
  intros A C. unfold fmin. destruct (fis_nan x); [exact C|]. destruct (fis_nan y); [exact A|]. destruct (fltb y x); assumption.
Qed.
Lemma fabs_nonneg x : fltb (fabs x) fzero = false.
Proof.
  destruct (fltb (fabs x) fzero) eqn:E; [|reflexivity]. apply fltb_R in E. destruct E as (_ & _ & E).
  rewrite fval_fabs, fval_zero in E. assert (P := Rabs_pos (fval x)). lra.
Qed.
Lemma fneg_nonpos x : fltb x fzero = false -> fltb fzero (fneg x) = false.
Proof.
  intro H. destruct (fltb fzero (fneg x)) eqn:E; [|reflexivity]. apply fltb_R in E. destruct E as (_ & Nn & E).
  rewrite fis_nan_fneg in Nn. rewrite fval_fneg, fval_zero in E.
  assert (K := fltb_false_R x fzero Nn eq_refl H). rewrite fval_zero in K. lra.
Qed.
Lemma transfer_direction v f s : fltb f fzero = false ->
  (fltb s fzero = true -> ~ positive (transfer v f s)) /\ (fltb s fzero = false -> ~ negative (transfer v f s)).
Proof.
  intro F. assert (N := fmin_nonneg f (fabs s) F (fabs_nonneg s)). unfold transfer, positive, negative. split; intros ->; cbn.
  - rewrite (fneg_nonpos _ N). discriminate.
  - rewrite N. discriminate.
Qed.
