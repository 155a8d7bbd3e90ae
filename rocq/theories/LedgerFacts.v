(** Facts about ledgers: entry order, real values, hash-map order, totals. *)
From Coq Require Import ZArith NArith List Bool String Permutation Sorted Lia Eqdep_dec.
From Verif Require Import Base Str F64 Date World Amount Posting Entry Envelope Account Register Ledger
  SpecAmount SpecDate SpecEntry SpecEnvelope SpecLedger StrFacts DateFacts AmountFacts PostingFacts
  EntryFacts EnvelopeFacts AccountFacts.
Import ListNotations.
Local Open Scope Z_scope.
Opaque dayn.

(** ** Sorting *)
Definition before (x y : entry) : Prop := not_later (e_date x) (e_date y).

Lemma date_leb_iff x y : date_leb x y = true <-> not_later x y.
Proof. rewrite date_leb_dayn, not_later_dayn. apply Z.leb_le. Qed.
Lemma not_later_trans x y z : not_later x y -> not_later y z -> not_later x z.
Proof. rewrite !not_later_dayn. lia. Qed.
Lemma not_later_neg x y : date_leb x y = false -> earlier y x.
Proof. rewrite date_leb_dayn, earlier_dayn, Z.leb_gt. auto. Qed.

Lemma insert_entry_perm x l : Permutation (x :: l) (insert_entry x l).
Proof.
  induction l as [|y l IH]; cbn [insert_entry]; [apply Permutation_refl|].
  destruct (date_leb _ _); [apply Permutation_refl|].
  eapply perm_trans; [apply perm_swap|]. apply perm_skip. exact IH.
Qed.
Lemma sort_entries_perm l : Permutation l (sort_entries l).
Proof.
  induction l as [|x l IH]; cbn; [apply perm_nil|].
  eapply perm_trans; [apply perm_skip; exact IH|apply insert_entry_perm].
Qed.
Lemma insert_entry_sorted x l : StronglySorted before l -> StronglySorted before (insert_entry x l).
Proof.
  induction l as [|y l IH]; intro H; cbn [insert_entry].
  - repeat constructor.
  - inversion H as [|y' l' Hl Hy E]; subst.
    destruct (date_leb (e_date x) (e_date y)) eqn:C.
    + apply date_leb_iff in C. constructor; [exact H|]. constructor; [exact C|].
      eapply Forall_impl; [|exact Hy]. intros z Hz. eapply not_later_trans; eauto.
    + constructor; [auto|].
      apply not_later_neg in C. rewrite Forall_forall in *. intros z Hz.
      apply (Permutation_in z (Permutation_sym (insert_entry_perm x l))) in Hz.
      destruct Hz as [<-|Hz]; [right; exact C|auto].
Qed.
Lemma sort_entries_sorted l : StronglySorted before (sort_entries l).
Proof. induction l as [|x l IH]; cbn; [constructor|]. apply insert_entry_sorted, IH. Qed.

Lemma earlier_irrefl x : ~ earlier x x.
Proof. rewrite earlier_dayn. lia. Qed.

Lemma insert_entry_on d x l : StronglySorted before l ->
  on d (insert_entry x l) = on d (x :: l).
Proof.
  induction l as [|y l IH]; intro H; cbn [insert_entry]; [reflexivity|].
  inversion H as [|y' l' Hl Hy E]; subst.
  destruct (date_leb (e_date x) (e_date y)) eqn:C; [reflexivity|].
  apply not_later_neg in C.
  assert (on d (y :: insert_entry x l) = (if date_dec (e_date y) d then [y] else []) ++ on d (insert_entry x l)) as ->.
  { unfold on. cbn [filter]. destruct (date_dec (e_date y) d); reflexivity. }
  rewrite (IH Hl). unfold on. cbn [filter].
  destruct (date_dec (e_date y) d), (date_dec (e_date x) d); subst; cbn; try reflexivity.
  rewrite e0 in C. destruct (earlier_irrefl _ C).
Qed.
Lemma sort_entries_on d l : on d (sort_entries l) = on d l.
Proof.
  induction l as [|x l IH]; [reflexivity|].
  cbn [sort_entries fold_right].
  change (fold_right insert_entry [] l) with (sort_entries l).
  rewrite insert_entry_on by apply sort_entries_sorted.
  unfold on in *. cbn [filter]. rewrite IH. reflexivity.
Qed.
Lemma on_app d a b : on d (a ++ b) = on d a ++ on d b.
Proof. apply filter_app. Qed.

Lemma built_entries today l es : built today l es ->
  Permutation es (l_entries l) /\ StronglySorted before (l_entries l)
  /\ (forall d, on d (l_entries l) = on d es).
Proof.
  induction 1 as [p|l es e l' H (P & S & O) A|l es c l' H IH A|l es v l' H IH A|l es v l' H IH A].
  - split; [apply perm_nil|]. split; [constructor|reflexivity].
  - unfold add_entry in A. apply bind_Ok in A as (accs & _ & A). injection A as <-. cbn [l_entries].
    split; [|split].
    + eapply perm_trans; [|apply sort_entries_perm]. apply Permutation_app_tail, P.
    + apply sort_entries_sorted.
    + intro d. rewrite sort_entries_on, !on_app, O. reflexivity.
  - unfold ledger_parse_account in A. apply bind_Ok in A as (a & _ & A). injection A as <-. exact IH.
  - destruct v; [|discriminate]. injection A as <-. exact IH.
  - destruct v; [|discriminate]. injection A as <-. exact IH.
Qed.

(** ** Maps *)
Lemma map_get_insert {A} k (v : A) m k' :
  map_get k' (map_insert k v m) = if str_dec k k' then Some v else map_get k' m.
Proof.
  induction m as [|[k0 v0] m IH]; cbn [map_insert map_get].
  - destruct (str_eqb_spec k k'), (str_dec k k'); congruence.
  - destruct (str_eqb_spec k0 k) as [->|N]; cbn [map_get].
    + destruct (str_eqb_spec k k'), (str_dec k k'); congruence.
    + rewrite IH. destruct (str_eqb_spec k0 k'), (str_dec k k'); congruence.
Qed.
Lemma map_insert_keys {A} k (v : A) m :
  map fst (map_insert k v m) = if in_dec str_dec k (map fst m) then map fst m else map fst m ++ [k].
Proof.
  induction m as [|[k0 v0] m IH]; cbn [map_insert map fst].
  - reflexivity.
  - destruct (str_eqb_spec k0 k) as [->|N]; cbn [map fst].
    + destruct (in_dec str_dec k (k :: map fst m)) as [_|C]; [reflexivity|].
      destruct C. left. reflexivity.
    + rewrite IH.
      destruct (in_dec str_dec k (map fst m)) as [I|I], (in_dec str_dec k (k0 :: map fst m)) as [J|J].
      * reflexivity.
      * destruct J. right. exact I.
      * destruct J as [J|J]; contradiction.
      * reflexivity.
Qed.
Lemma map_insert_NoDup {A} k (v : A) m : NoDup (map fst m) -> NoDup (map fst (map_insert k v m)).
Proof.
  intro H. rewrite map_insert_keys. destruct (in_dec _ _ _); [exact H|].
  apply (Permutation_NoDup (Permutation_cons_append _ _)). constructor; assumption.
Qed.
Lemma map_get_In {A} k (v : A) m : NoDup (map fst m) -> (map_get k m = Some v <-> In (k, v) m).
Proof.
  induction m as [|[k0 v0] m IH]; cbn [map_get map fst]; intro H; [easy|].
  inversion H as [|? ? N H']; subst. destruct (str_eqb_spec k0 k) as [->|C].
  - split.
    + intro E. injection E as ->. left. reflexivity.
    + intros [E|E]; [congruence|]. destruct N. apply (in_map fst) in E. exact E.
  - rewrite (IH H'). split; [right; auto|]. intros [E|E]; [congruence|auto].
Qed.
Lemma map_get_perm {A} k (m m' : list (str * A)) : NoDup (map fst m) -> Permutation m m' ->
  map_get k m = map_get k m'.
Proof.
  intros H P.
  assert (NoDup (map fst m')) as H' by (eapply Permutation_NoDup; [apply Permutation_map, P|exact H]).
  destruct (map_get k m) as [v|] eqn:E.
  - apply (map_get_In k v m H) in E. symmetry. apply map_get_In; [exact H'|].
    eapply Permutation_in; eauto.
  - destruct (map_get k m') as [v|] eqn:E'; [|reflexivity].
    apply (map_get_In k v m' H') in E'.
    apply (Permutation_in _ (Permutation_sym P)) in E'.
    apply (map_get_In k v m H) in E'. congruence.
Qed.

(** ** Accounts of a ledger *)
Definition process_pair (today : date) (e : entry) (ka : str * account) : res (str * account) :=
  let! a := acc_process today (snd ka) e in Ok (fst ka, a).

Lemma process_keys today e m m' : map_res (process_pair today e) m = Ok m' ->
  map fst m' = map fst m.
Proof.
  rewrite map_res_Ok. induction 1 as [|[k a] y m m' H F IH]; [reflexivity|].
  apply bind_Ok in H as (b & _ & H). injection H as <-. cbn. rewrite IH. reflexivity.
Qed.
Lemma process_get today e m m' k a : map_res (process_pair today e) m = Ok m' ->
  map_get k m = Some a -> exists b, acc_process today a e = Ok b /\ map_get k m' = Some b.
Proof.
  rewrite map_res_Ok. induction 1 as [|[k0 a0] y m m' H F IH]; [discriminate|].
  apply bind_Ok in H as (b & Hb & H). injection H as <-. cbn [map_get fst snd] in *.
  destruct (str_eqb k0 k).
  - intro E. injection E as <-. eauto.
  - exact IH.
Qed.
Lemma process_get_none today e m m' k : map_res (process_pair today e) m = Ok m' ->
  map_get k m = None -> map_get k m' = None.
Proof.
  rewrite map_res_Ok. induction 1 as [|[k0 a0] y m m' H F IH]; [reflexivity|].
  apply bind_Ok in H as (b & Hb & H). injection H as <-. cbn [map_get fst snd] in *.
  destruct (str_eqb k0 k); [discriminate|exact IH].
Qed.
Lemma acc_process_name today a e b : acc_process today a e = Ok b -> a_name b = a_name a.
Proof.
  unfold acc_process. intro H. apply bind_Ok in H as (ex & _ & H).
  apply bind_Ok in H as (go & _ & H). apply bind_Ok in H as (r & _ & H).
  injection H as <-. reflexivity.
Qed.

Definition well_keyed (l : ledger) : Prop :=
  NoDup (account_names l) /\ (forall k a, map_get k (l_accounts l) = Some a -> a_name a = k).

Lemma add_entry_accounts_eq today l e :
  add_entry today l e =
  let! accs := map_res (process_pair today e) (l_accounts l) in
  Ok (mkLedger (l_path l) (sort_entries (l_entries l ++ [e])) (l_format l) accs (l_currency l)).
Proof. reflexivity. Qed.

Lemma add_entry_well_keyed today l e l' : add_entry today l e = Ok l' -> well_keyed l -> well_keyed l'.
Proof.
  rewrite add_entry_accounts_eq. intros H (N & K). apply bind_Ok in H as (accs & H & E). injection E as <-.
  unfold well_keyed, account_names. cbn [l_accounts]. split.
  - rewrite (process_keys _ _ _ _ H). exact N.
  - intros k b G. destruct (map_get k (l_accounts l)) as [a|] eqn:E.
    + destruct (process_get _ _ _ _ _ _ H E) as (b' & P & G'). rewrite G in G'. injection G' as ->.
      rewrite (acc_process_name _ _ _ _ P). apply K, E.
    + rewrite (process_get_none _ _ _ _ _ H E) in G. discriminate.
Qed.
Lemma parse_account_well_keyed l c l' : ledger_parse_account l c = Ok l' -> well_keyed l -> well_keyed l'.
Proof.
  unfold ledger_parse_account. intros H (N & K). apply bind_Ok in H as (a & H & E). injection E as <-.
  unfold well_keyed, account_names. cbn [l_accounts]. split.
  - apply map_insert_NoDup, N.
  - intros k b. rewrite map_get_insert. destruct (str_dec (a_name a) k) as [<-|_].
    + intro E. injection E as <-. reflexivity.
    + apply K.
Qed.
Lemma built_well_keyed today l es : built today l es -> well_keyed l.
Proof.
  induction 1 as [p|l es e l' H IH A|l es c l' H IH A|l es v l' H IH A|l es v l' H IH A].
  - split; [constructor|discriminate].
  - eapply add_entry_well_keyed; eauto.
  - eapply parse_account_well_keyed; eauto.
  - destruct v; [|discriminate]. injection A as <-. exact IH.
  - destruct v; [|discriminate]. injection A as <-. exact IH.
Qed.

(** ** Real values *)
Lemma blank_not_none e p : In p (e_postings e) -> get_amount p = None -> get_blank_amount e <> Ok None.
Proof.
  intros I B. assert (has_blank_posting e = true) as H by (apply has_blank_iff; exists p; auto).
  unfold get_blank_amount. rewrite H. destruct (has_mixed_currencies e).
  - intro C. apply bind_Ok in C as (m & _ & C). discriminate.
  - destruct (find_amount _) as [[a r]|]; [|discriminate].
    intro C. apply bind_Ok in C as (m & _ & C). discriminate.
Qed.

Lemma real_steps name e ps : forall r r', (forall p, In p ps -> In p (e_postings e)) ->
  fold_res (real_step name e) ps r = Ok r' ->
  exists xs, worths (filter (to_classic name) (map (pair e) ps)) xs /\ r' = fold_left pool_add xs r.
Proof.
  induction ps as [|p ps IH]; intros r r' I H.
  - injection H as <-. exists []. split; [constructor|reflexivity].
  - cbn [fold_res] in H. apply bind_Ok in H as (r1 & H1 & H).
    assert (forall q, In q ps -> In q (e_postings e)) as I' by (intros; apply I; right; auto).
    destruct (IH _ _ I' H) as (xs & W & E).
    unfold real_step in H1. cbn [map filter].
    assert (to_classic name (e, p) = str_eqb (get_account p) name && negb (is_envelope p)) as T.
    { unfold to_classic. cbn [snd]. destruct p as [c|ep]; cbn [get_account is_envelope].
      - destruct (str_eqb_spec (c_account c) name), (str_dec (c_account c) name); try congruence; reflexivity.
      - rewrite andb_false_r. reflexivity. }
    rewrite T. destruct (_ && _).
    + destruct (get_amount p) as [a|] eqn:G.
      * injection H1 as <-. exists (a :: xs). split; [|exact E].
        constructor; [left; exact G|exact W].
      * apply bind_Ok in H1 as (o & Ho & H1). destruct o as [a|].
        -- injection H1 as <-. exists (a :: xs). split; [|exact E].
           constructor; [right; auto|exact W].
        -- destruct (blank_not_none e p (I p (or_introl eq_refl)) G Ho).
    + injection H1 as <-. eauto.
Qed.

Lemma acc_process_real today a e b : acc_process today a e = Ok b ->
  exists xs, worths (filter (to_classic (a_name a)) (map (pair e) (e_postings e))) xs
  /\ a_real b = fold_left pool_add xs (a_real a).
Proof.
  unfold acc_process. intro H. apply bind_Ok in H as (ex & _ & H).
  apply bind_Ok in H as (go & _ & H). apply bind_Ok in H as (r & Hr & H).
  injection H as <-. cbn [a_real]. eapply real_steps; eauto.
Qed.

Lemma real_after today es : forall l l' name a, fold_res (add_entry today) es l = Ok l' ->
  map_get name (l_accounts l) = Some a -> a_name a = name ->
  exists a' xs, map_get name (l_accounts l') = Some a' /\ a_name a' = name
  /\ worths (filter (to_classic name) (postings es)) xs
  /\ a_real a' = fold_left pool_add xs (a_real a).
Proof.
  induction es as [|e es IH]; intros l l' name a H G N.
  - injection H as <-. exists a, []. split; [exact G|]. split; [exact N|]. split; [constructor|reflexivity].
  - cbn [fold_res] in H. apply bind_Ok in H as (l1 & H1 & H).
    rewrite add_entry_accounts_eq in H1. apply bind_Ok in H1 as (accs & H1 & E). injection E as <-.
    destruct (process_get _ _ _ _ _ _ H1 G) as (b & Hb & Gb).
    destruct (acc_process_real _ _ _ _ Hb) as (xs & W & R).
    pose proof (acc_process_name _ _ _ _ Hb) as Nb. rewrite N in *.
    destruct (IH _ _ name b H Gb (eq_trans Nb eq_refl)) as (a' & ys & G' & N' & W' & R').
    exists a', (xs ++ ys). split; [exact G'|]. split; [exact N'|]. split.
    + unfold postings. cbn [flat_map]. rewrite filter_app. apply Forall2_app; assumption.
    + rewrite fold_left_app, R', R. reflexivity.
Qed.

Lemma worth_unique e p a b : worth e p a -> worth e p b -> a = b.
Proof. unfold worth. intros [H|[H H']] [K|[K K']]; congruence. Qed.
Lemma worths_unique ps : forall xs ys, worths ps xs -> worths ps ys -> xs = ys.
Proof.
  induction ps as [|p ps IH]; intros xs ys H K; inversion H; inversion K; subst; [reflexivity|].
  f_equal; [eapply worth_unique; eauto|auto].
Qed.
Lemma sum_up_fold xs : sum_up xs = fold_left pool_add xs [].
Proof.
  unfold sum_up, run_ops. generalize (@nil amount) as p.
  induction xs as [|x xs IH]; intro p; [reflexivity|]. cbn [map fold_left]. rewrite IH. reflexivity.
Qed.

Lemma fresh_real chunk dsym fmt a : parse_account chunk dsym fmt = Ok a -> a_real a = [].
Proof. rewrite parse_account_iff. intros (h & b & k & ss & vs & H). apply H. Qed.

Lemma built_real today l es name a : built today l es -> map_get name (l_accounts l) = Some a ->
  exists es1 es2 xs, es = es1 ++ es2 /\ worths (filter (to_classic name) (postings es2)) xs
  /\ a_real a = sum_up xs.
Proof.
  intro B. revert a. induction B as [p|l es e l' B IH A|l es c l' H IH A|l es v l' H IH A|l es v l' H IH A];
    intros a G.
  - discriminate.
  - pose proof (built_well_keyed _ _ _ B) as (N & K).
    pose proof A as A'. rewrite add_entry_accounts_eq in A'. apply bind_Ok in A' as (accs & H1 & E).
    injection E as <-. cbn [l_accounts] in G.
    destruct (map_get name (l_accounts l)) as [a0|] eqn:G0.
    + destruct (process_get _ _ _ _ _ _ H1 G0) as (b & Hb & Gb).
      rewrite G in Gb. injection Gb as ->.
      destruct (IH _ eq_refl) as (es1 & es2 & xs & E & W & R).
      destruct (acc_process_real _ _ _ _ Hb) as (ys & W' & R'). rewrite (K _ _ G0) in W'.
      exists es1, (es2 ++ [e]), (xs ++ ys). split; [rewrite E; apply app_assoc_reverse|]. split.
      * unfold postings. rewrite flat_map_app, filter_app. apply Forall2_app; [exact W|].
        cbn [flat_map]. rewrite app_nil_r. exact W'.
      * rewrite R', R, !sum_up_fold, fold_left_app. reflexivity.
    + rewrite (process_get_none _ _ _ _ _ H1 G0) in G. discriminate.
  - unfold ledger_parse_account in A. apply bind_Ok in A as (b & P & E). injection E as <-.
    cbn [l_accounts] in G. rewrite map_get_insert in G.
    destruct (str_dec (a_name b) name) as [E|E]; [|apply IH, G].
    injection G as <-. exists es, [], []. split; [symmetry; apply app_nil_r|]. split; [constructor|].
    apply fresh_real in P. exact P.
  - destruct v; [|discriminate]. injection A as <-. apply IH, G.
  - destruct v; [|discriminate]. injection A as <-. apply IH, G.
Qed.

(** ** Order of the accounts *)
Lemma both_Ok {A B} (R : A -> B -> Prop) r r' : both R r r' ->
  (forall a, r = Ok a -> exists b, r' = Ok b /\ R a b)
  /\ (forall b, r' = Ok b -> exists a, r = Ok a /\ R a b).
Proof.
  unfold both. destruct r, r'; intro H; try contradiction; split; intros x E; try discriminate;
    injection E as <-; eauto.
Qed.
Lemma both_intro {A B} (R : A -> B -> Prop) r r' :
  (forall a, r = Ok a -> exists b, r' = Ok b /\ R a b) ->
  (forall b, r' = Ok b -> exists a, r = Ok a) -> both R r r'.
Proof.
  intros H K. unfold both. destruct r as [a| | |], r' as [b| | |]; try exact I;
    try (destruct (H _ eq_refl) as (x & E & Q); try discriminate; injection E as <-; exact Q);
    try (destruct (K _ eq_refl) as (x & E); discriminate).
Qed.
Lemma both_bind {A B C D} (R : A -> B -> Prop) (Q : C -> D -> Prop) r r' f g :
  both R r r' -> (forall a b, R a b -> both Q (f a) (g b)) -> both Q (bind r f) (bind r' g).
Proof.
  unfold both at 1. intros H K. destruct r, r'; try contradiction; cbn [bind]; try exact I. apply K, H.
Qed.
Lemma both_refl {A} (r : res A) : both eq r r.
Proof. destruct r; cbn; auto. Qed.
Lemma both_weaken {A B} (R Q : A -> B -> Prop) r r' : (forall a b, R a b -> Q a b) ->
  both R r r' -> both Q r r'.
Proof. unfold both. destruct r, r'; auto. Qed.

Lemma map_res_perm {A B} (f : A -> res B) l l' : Permutation l l' ->
  both (@Permutation B) (map_res f l) (map_res f l').
Proof.
  induction 1 as [|x l l' P IH|x y l|l1 l2 l3 P1 IH1 P2 IH2].
  - apply perm_nil.
  - cbn [map_res]. eapply both_bind; [apply both_refl|]. intros b ? <-.
    eapply both_bind; [exact IH|]. intros u v Q. cbn. apply perm_skip, Q.
  - cbn [map_res]. destruct (f x), (f y); cbn [bind]; try exact I.
    destruct (map_res f l); cbn [bind both]; try exact I. apply perm_swap.
  - apply both_intro.
    + intros a E. apply both_Ok in IH1 as (H1 & _). apply both_Ok in IH2 as (H2 & _).
      destruct (H1 _ E) as (b & E' & Q). destruct (H2 _ E') as (c & E'' & Q').
      exists c. split; [exact E''|]. eapply perm_trans; eauto.
    + intros b E. apply both_Ok in IH1 as (_ & H1). apply both_Ok in IH2 as (_ & H2).
      destruct (H2 _ E) as (c & E' & _). destruct (H1 _ E') as (d & E'' & _). eauto.
Qed.

Lemma add_entry_reordered today l l' e : reordered l l' ->
  both reordered (add_entry today l e) (add_entry today l' e).
Proof.
  intros (Hp & He & Hf & Hc & P). rewrite !add_entry_accounts_eq.
  eapply both_bind; [apply map_res_perm, P|]. intros u v Q. cbn.
  unfold reordered; cbn. rewrite Hp, He, Hf, Hc. repeat split. exact Q.
Qed.

Lemma reordered_get l l' k : NoDup (account_names l) -> reordered l l' ->
  map_get k (l_accounts l) = map_get k (l_accounts l').
Proof. intros N (_ & _ & _ & _ & P). apply map_get_perm; auto. Qed.

(** ** Sorting by key *)
Lemma str_compare_eq s t : str_compare s t = Eq <-> s = t.
Proof.
  revert t. induction s as [|a s IH]; intros [|b t]; cbn [str_compare]; try easy.
  destruct (N.compare_spec a b) as [->|H|H].
  - rewrite IH. split; [intros ->; auto|intro E; injection E; auto].
  - split; [discriminate|]. intro E. injection E as -> _. lia.
  - split; [discriminate|]. intro E. injection E as -> _. lia.
Qed.
Lemma str_compare_sym s t : str_compare t s = CompOpp (str_compare s t).
Proof.
  revert t. induction s as [|a s IH]; intros [|b t]; cbn [str_compare]; try easy.
  rewrite N.compare_antisym. destruct (N.compare a b); cbn; auto.
Qed.
Lemma str_compare_lt_trans s t u : str_compare s t = Lt -> str_compare t u = Lt -> str_compare s u = Lt.
Proof.
  revert t u. induction s as [|a s IH]; intros [|b t] [|c u]; cbn [str_compare]; try easy.
  destruct (N.compare_spec a b) as [->|H|H]; intro E; try discriminate.
  - destruct (N.compare_spec b c) as [->|H'|H']; intro E'; try discriminate; [eauto|reflexivity].
  - intro E'. destruct (N.compare_spec b c) as [->|H'|H']; try discriminate.
    + apply N.compare_lt_iff in H. rewrite H. reflexivity.
    + assert (a < c)%N as Q by (eapply N.lt_trans; eauto). apply N.compare_lt_iff in Q. rewrite Q. reflexivity.
Qed.
Definition key_lt {A} (x y : str * A) : Prop := str_compare (fst x) (fst y) = Lt.

Lemma insert_key_perm {A} (x : str * A) l : Permutation (x :: l) (insert_key x l).
Proof.
  induction l as [|y l IH]; cbn [insert_key]; [apply Permutation_refl|].
  destruct (str_compare _ _); try apply Permutation_refl.
  eapply perm_trans; [apply perm_swap|]. apply perm_skip. exact IH.
Qed.
Lemma sort_keys_perm {A} (l : list (str * A)) : Permutation l (sort_keys l).
Proof.
  induction l as [|x l IH]; cbn; [apply perm_nil|].
  eapply perm_trans; [apply perm_skip; exact IH|apply insert_key_perm].
Qed.
Lemma insert_key_sorted {A} (x : str * A) l : ~ In (fst x) (map fst l) ->
  StronglySorted key_lt l -> StronglySorted key_lt (insert_key x l).
Proof.
  induction l as [|y l IH]; intros N H; cbn [insert_key].
  - repeat constructor.
  - inversion H as [|y' l' Hl Hy E]; subst.
    destruct (str_compare (fst x) (fst y)) eqn:C.
    + apply str_compare_eq in C. destruct N. left. auto.
    + constructor; [exact H|]. constructor; [exact C|].
      eapply Forall_impl; [|exact Hy]. intros z Hz. eapply str_compare_lt_trans; eauto.
    + constructor.
      * apply IH; [|exact Hl]. intro I. apply N. right. exact I.
      * rewrite Forall_forall in *. intros z Hz.
        apply (Permutation_in z (Permutation_sym (insert_key_perm x l))) in Hz.
        destruct Hz as [<-|Hz]; [|auto]. unfold key_lt. rewrite str_compare_sym, C. reflexivity.
Qed.
Lemma sort_keys_sorted {A} (l : list (str * A)) : NoDup (map fst l) -> StronglySorted key_lt (sort_keys l).
Proof.
  induction l as [|x l IH]; cbn; intro H; [constructor|]. inversion H as [|? ? N H']; subst.
  apply insert_key_sorted; [|auto]. intro I. apply N.
  eapply Permutation_in; [apply Permutation_map, Permutation_sym, sort_keys_perm|exact I].
Qed.
Lemma sorted_unique {A} (l l' : list (str * A)) : StronglySorted key_lt l -> StronglySorted key_lt l' ->
  Permutation l l' -> l = l'.
Proof.
  revert l'. induction l as [|x l IH]; intros l' H H' P.
  - apply Permutation_nil in P. auto.
  - destruct l' as [|y l']; [apply Permutation_sym, Permutation_nil in P; discriminate|].
    inversion H as [|? ? Hl Hx]; inversion H' as [|? ? Hl' Hy]; subst.
    assert (x = y) as E.
    { pose proof (Permutation_in x P (or_introl eq_refl)) as [I|I]; [auto|].
      pose proof (Permutation_in y (Permutation_sym P) (or_introl eq_refl)) as [J|J]; [auto|].
      rewrite Forall_forall in *. specialize (Hx _ J). specialize (Hy _ I). unfold key_lt in *.
      rewrite str_compare_sym, Hx in Hy. discriminate. }
    subst y. f_equal. apply IH; auto. eapply Permutation_cons_inv; eauto.
Qed.
Lemma sort_keys_unique {A} (l l' : list (str * A)) : NoDup (map fst l) -> Permutation l l' ->
  sort_keys l = sort_keys l'.
Proof.
  intros N P. apply sorted_unique.
  - apply sort_keys_sorted, N.
  - apply sort_keys_sorted. eapply Permutation_NoDup; [apply Permutation_map, P|exact N].
  - eapply perm_trans; [apply Permutation_sym, sort_keys_perm|].
    eapply perm_trans; [exact P|apply sort_keys_perm].
Qed.
Lemma reordered_reports today tty l l' b e m : NoDup (account_names l) -> reordered l l' ->
  show_balance l = show_balance l' /\ show_envelopes today l = show_envelopes today l'
  /\ show_register tty l b e m = show_register tty l' b e m.
Proof.
  intros N (Hp & He & Hf & Hc & P). unfold show_balance, get_totals, show_envelopes, show_register.
  rewrite He, Hf. split; [reflexivity|]. split; [|reflexivity].
  rewrite (sort_keys_unique _ _ N P). reflexivity.
Qed.

(** ** Totals *)
Definition first_total (p : posting) : amount :=
  match get_amount p with Some a => a | None => amount_zero end.
(** What the balance report has for an account after the postings [ps] to it. *)
Definition total_of (ps : list (entry * posting)) (o : option pool) : Prop :=
  match ps with
  | [] => o = None
  | x :: ps' => exists xs, worths ps' xs /\ o = Some (fold_left pool_add xs [first_total (snd x)])
  end.

Lemma total_of_snoc ps x pl a : total_of ps (Some pl) -> worth (fst x) (snd x) a ->
  total_of (ps ++ [x]) (Some (pool_add pl a)).
Proof.
  destruct ps as [|y ps]; cbn [total_of app]; [discriminate|].
  intros (xs & W & E) Wx. injection E as ->. exists (xs ++ [a]). split.
  - apply Forall2_app; [exact W|]. constructor; [exact Wx|constructor].
  - rewrite fold_left_app. reflexivity.
Qed.

Lemma totals_step_spec e p m m' done_ : In p (e_postings e) ->
  (forall k, total_of (filter (to_account k) done_) (map_get k m)) ->
  totals_step e m p = Ok m' ->
  forall k, total_of (filter (to_account k) (done_ ++ [(e, p)])) (map_get k m').
Proof.
  intros I T H k. rewrite filter_app. cbn [filter]. unfold to_account at 2. cbn [snd].
  assert (forall v mm, map_get k (map_insert (get_account p) v mm)
                   = if str_dec (get_account p) k then Some v else map_get k mm) as G
    by (intros; apply (@map_get_insert pool)).
  unfold totals_step in H.
  destruct (map_get (get_account p) m) as [pl|] eqn:E.
  - destruct (get_amount p) as [a|] eqn:A.
    + injection H as <-. rewrite G. destruct (str_dec (get_account p) k) as [<-|N].
      * apply total_of_snoc; [rewrite <- E; apply T|left; exact A].
      * rewrite app_nil_r. apply T.
    + apply bind_Ok in H as (o & B & H). injection H as <-.
      destruct o as [b|]; [|destruct (blank_not_none e p I A B)].
      rewrite G. destruct (str_dec (get_account p) k) as [<-|N].
      * apply total_of_snoc; [rewrite <- E; apply T|right; auto].
      * rewrite app_nil_r. apply T.
  - injection H as <-. rewrite G. destruct (str_dec (get_account p) k) as [<-|N].
    + specialize (T (get_account p)). rewrite E in T.
      destruct (filter (to_account (get_account p)) done_) as [|y ys]; cbn [total_of app] in *.
      * exists []. split; [constructor|reflexivity].
      * destruct T as (xs & _ & C). discriminate.
    + rewrite app_nil_r. apply T.
Qed.
Lemma totals_steps e ps : forall m m' done_, (forall p, In p ps -> In p (e_postings e)) ->
  (forall k, total_of (filter (to_account k) done_) (map_get k m)) ->
  fold_res (totals_step e) ps m = Ok m' ->
  forall k, total_of (filter (to_account k) (done_ ++ map (pair e) ps)) (map_get k m').
Proof.
  induction ps as [|p ps IH]; intros m m' done_ I T H.
  - injection H as <-. cbn [map]. rewrite app_nil_r. exact T.
  - cbn [fold_res] in H. apply bind_Ok in H as (m1 & H1 & H). cbn [map].
    assert (done_ ++ (e, p) :: map (pair e) ps = (done_ ++ [(e, p)]) ++ map (pair e) ps) as ->
      by (rewrite <- app_assoc; reflexivity).
    eapply IH; [|eapply totals_step_spec; eauto|exact H].
    + intros q Q. apply I. right. exact Q.
    + apply I. left. reflexivity.
Qed.
Lemma get_totals_spec l m : get_totals l = Ok m ->
  forall k, total_of (filter (to_account k) (postings (l_entries l))) (map_get k m).
Proof.
  unfold get_totals.
  assert (forall es m0 m' done_, (forall k, total_of (filter (to_account k) done_) (map_get k m0)) ->
    fold_res (fun m e => fold_res (totals_step e) (e_postings e) m) es m0 = Ok m' ->
    forall k, total_of (filter (to_account k) (done_ ++ postings es)) (map_get k m')) as H.
  { induction es as [|e es IH]; intros m0 m' done_ T H.
    - injection H as <-. unfold postings. cbn [flat_map]. rewrite app_nil_r. exact T.
    - cbn [fold_res] in H. apply bind_Ok in H as (m1 & H1 & H).
      unfold postings. cbn [flat_map]. rewrite app_assoc. eapply IH; [|exact H].
      eapply totals_steps; eauto. }
  intros E k. apply (H (l_entries l) [] m [] (fun _ => eq_refl) E k).
Qed.
