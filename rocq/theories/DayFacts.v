(** The same journal loaded on two days. *)
From Coq Require Import ZArith NArith List Bool String Permutation Lia.
From Verif Require Import Base Str F64 Date Amount Posting Entry Envelope Account World Ledger
  SpecAmount SpecDate SpecEntry SpecEnvelope SpecLedger SpecHistory SpecOrder SpecWhole SpecDay
  StrFacts F64Facts AmountFacts EntryFacts EnvelopeFacts AccountFacts LedgerFacts OrderFacts TermFacts WholeFacts WholeAgain.
From Verif Require ErrorFacts.
Import ListNotations.
Local Open Scope list_scope.
Local Open Scope Z_scope.

(** ** Outcomes *)
Lemma uc_bind {A B C D} (R : A -> B -> Prop) (Q : C -> D -> Prop) r s f g :
  unless_crash R r s -> (forall a b, R a b -> unless_crash Q (f a) (g b)) -> unless_crash Q (bind r f) (bind s g).
Proof.
  intros [->|[->|H]] F; [left; reflexivity|right; left; reflexivity|].
  destruct r, s; try contradiction; cbn [bind].
  - apply F, H.
  - right. right. exact H.
  - right. right. exact I.
Qed.
Lemma uc_ok {A B} (R : A -> B -> Prop) a b : R a b -> unless_crash R (Ok a) (Ok b).
Proof. intro H. right. right. exact H. Qed.
Lemma uc_eq {A} (r : res A) : unless_crash eq r r.
Proof. destruct r; [right; right; reflexivity|right; right; reflexivity|left; reflexivity|right; right; exact I]. Qed.
Lemma uc_both {A B} (R Q : A -> B -> Prop) r s : unless_crash R r s -> (forall a b, r = Ok a -> s = Ok b -> R a b -> Q a b) -> unless_crash Q r s.
Proof.
  intros [->|[->|H]] F; [left; reflexivity|right; left; reflexivity|]. right. right.
  destruct r, s; try contradiction; try exact H. apply F; [reflexivity|reflexivity|exact H].
Qed.
Lemma uc_fold {A B C} (R : A -> B -> Prop) (f : A -> C -> res A) (g : B -> C -> res B) l :
  (forall a b c, R a b -> unless_crash R (f a c) (g b c)) -> forall a b, R a b -> unless_crash R (fold_res f l a) (fold_res g l b).
Proof.
  intro H. induction l as [|c l IH]; intros a b K; cbn [fold_res]; [apply uc_ok, K|]. apply (uc_bind R); [apply H, K|exact IH].
Qed.
Lemma uc_map {A B C D} (R : A -> B -> Prop) (Q : C -> D -> Prop) f g l m : Forall2 R l m ->
  (forall a b, R a b -> unless_crash Q (f a) (g b)) -> unless_crash (Forall2 Q) (map_res f l) (map_res g m).
Proof.
  intros F H. induction F as [|a b l m K _ IH]; cbn [map_res]; [apply uc_ok; constructor|].
  apply (uc_bind Q); [apply H, K|]. intros c d E. apply (uc_bind (Forall2 Q)); [exact IH|]. intros cs ds Es. apply uc_ok. constructor; assumption.
Qed.

(** ** Envelopes *)
Lemma apply_same today v a d w : apply_amount today v a d = Ok w -> same_definition v w /\ v_last w = d.
Proof.
  unfold apply_amount. intro H. apply bind_Ok in H as (u & E & H). injection H as <-. split; [|reflexivity].
  assert (same_definition v u) as S.
  { destruct (fltb (mag a) fzero).
    - apply bind_Ok in E as (n & _ & E). injection E as <-. unfold same_definition; cbn; tauto.
    - destruct (fltb fzero (mag a)); [|injection E as <-; apply same_definition_refl].
      apply bind_Ok in E as (o & _ & E). destruct o as [l|]; [destruct (date_ltb d l)|]; apply bind_Ok in E as (n & _ & E); injection E as <-; unfold same_definition; cbn; tauto. }
  exact S.
Qed.
Lemma manual_plan today d v ps : forall u, same_definition v u ->
  fold_res (manual_step today d) (filter is_envelope ps) u = apply_all today d (posted_to v ps) u.
Proof.
  unfold apply_all. induction ps as [|[c|ep] ps IH]; intros u D; [reflexivity|exact (IH u D)|]. cbn [filter is_envelope fold_res].
  unfold posted_to. cbn [flat_map]. fold (posted_to v ps).
  assert (manual_step today d u (EnvPosting ep) = (if str_dec (ep_account ep) (v_account v) then if str_dec (ep_envelope ep) (v_name v) then apply_amount today u (ep_amount ep) d else Ok u else Ok u)) as ->.
  { cbn [manual_step]. destruct D as (-> & _ & _ & _ & _ & _ & _ & ->).
    destruct (str_dec (ep_account ep) (v_account v)) as [E|N].
    - rewrite (proj2 (str_eqb_eq _ _) E). cbn [andb]. destruct (str_dec (ep_envelope ep) (v_name v)) as [E'|N'].
      + rewrite (proj2 (str_eqb_eq _ _) (eq_sym E')). reflexivity.
      + destruct (str_eqb (v_name v) (ep_envelope ep)) eqn:Q; [|reflexivity]. apply str_eqb_eq in Q. congruence.
    - destruct (str_eqb (ep_account ep) (v_account v)) eqn:Q; [|reflexivity]. apply str_eqb_eq in Q. congruence. }
  destruct (str_dec (ep_account ep) (v_account v)); [destruct (str_dec (ep_envelope ep) (v_name v))|]; cbn [app fold_res]; try exact (IH u D).
  destruct (apply_amount today u (ep_amount ep) d) as [u'| | |] eqn:E; cbn [bind]; try reflexivity.
  apply IH. exact (same_definition_trans _ _ _ D (proj1 (apply_same _ _ _ _ _ E))).
Qed.
Lemma process_plan today v e : env_process today v e = let! ls := plan v e in apply_all today (e_date e) ls v.
Proof.
  unfold env_process, plan. destruct (has_envelope_posting e).
  - apply manual_plan, same_definition_refl.
  - unfold infer. destruct (Nat.ltb _ 1 || Nat.ltb _ 1); [reflexivity|]. cbv zeta.
    destruct (fold_res _ _ _) as [[auto self]| | |]; cbn [bind]; try reflexivity.
    destruct (negb _); [|reflexivity]. cbn [bind apply_all]. unfold apply_all. cbn [fold_res].
    destruct (apply_amount _ _ _ _); reflexivity.
Qed.

(** ** Two days *)
Section Days.
Context (t t' : date) (T : year t < max_year) (T' : year t' < max_year).

Lemma last_either x f : year x < max_year -> freq_last x f = Panic \/ exists o, freq_last x f = Ok o.
Proof.
  intro Y. pose proof (calm_last x Y f) as C. pose proof (ErrorFacts.last_silent x f) as Q.
  destruct (freq_last x f) as [o|e| |]; [right; exists o; reflexivity|destruct (Q e); reflexivity|left; reflexivity|destruct C; reflexivity].
Qed.
Lemma add_either a b : amount_add a b = Panic \/ exists c, amount_add a b = Ok c.
Proof. unfold amount_add. destruct (ostr_eqb _ _); [right; eexists; reflexivity|left; reflexivity]. Qed.
Lemma apply_either x v a d : year x < max_year -> apply_amount x v a d = Panic \/ exists w, apply_amount x v a d = Ok w.
Proof.
  intro Y. unfold apply_amount. destruct (fltb (mag a) fzero).
  - destruct (add_either (v_now v) a) as [->|(c & ->)]; [left|right; eexists]; reflexivity.
  - destruct (fltb fzero (mag a)); [|right; eexists; reflexivity]. destruct (last_either x (v_freq v) Y) as [->|(o & ->)]; [left; reflexivity|]. cbn [bind].
    destruct o as [l|]; [destruct (date_ltb d l)|].
    + destruct (add_either (v_now v) a) as [->|(c & ->)]; [left|right; eexists]; reflexivity.
    + destruct (add_either (v_next v) a) as [->|(c & ->)]; [left|right; eexists]; reflexivity.
    + destruct (add_either (v_next v) a) as [->|(c & ->)]; [left|right; eexists]; reflexivity.
Qed.
Lemma same_both v w v' w' : same_definition v w -> same_definition v v' -> same_definition w w' -> same_definition v' w'.
Proof. unfold same_definition. intuition congruence. Qed.
Lemma day_apply v w a d : divided v w -> unless_crash divided (apply_amount t v a d) (apply_amount t' w a d).
Proof.
  intros [D _]. destruct (apply_either t v a d T) as [->|(v' & E)]; [left; reflexivity|].
  destruct (apply_either t' w a d T') as [->|(w' & E')]; [right; left; reflexivity|]. rewrite E, E'. apply uc_ok.
  destruct (apply_same _ _ _ _ _ E) as [S L], (apply_same _ _ _ _ _ E') as [S' L']. split; [exact (same_both _ _ _ _ D S S')|congruence].
Qed.
Lemma day_env v w e : divided v w -> unless_crash divided (env_process t v e) (env_process t' w e).
Proof.
  intro D. rewrite !process_plan, (plan_same v w e (proj1 D)).
  apply (uc_bind eq); [apply uc_eq|]. intros ls ? <-. unfold apply_all. apply uc_fold; [|exact D]. intros u x a H. apply day_apply, H.
Qed.
Lemma day_acc a b e : divided_account a b -> unless_crash divided_account (acc_process t a e) (acc_process t' b e).
Proof.
  intros (N & R & E & G). unfold acc_process. rewrite <- N, <- R.
  apply (uc_bind (Forall2 divided)); [apply (uc_map divided _ _ _ _ _ E); intros; apply day_env; assumption|]. intros ex ex' X.
  apply (uc_bind (Forall2 divided)); [apply (uc_map divided _ _ _ _ _ G); intros; apply day_env; assumption|]. intros go go' Y.
  apply (uc_bind eq); [apply uc_eq|]. intros r ? <-. apply uc_ok. split; [reflexivity|]. split; [reflexivity|]. split; assumption.
Qed.
Definition pairs (R : account -> account -> Prop) (x y : str * account) : Prop := fst x = fst y /\ R (snd x) (snd y).
Lemma day_entry l m e : divided_ledger l m -> unless_crash divided_ledger (add_entry t l e) (add_entry t' m e).
Proof.
  intros (P & E & F & C & A). unfold add_entry. apply (uc_bind (Forall2 (pairs divided_account))).
  - apply (uc_map _ _ _ _ _ _ A). intros [k a] [k' b] [K H]. cbn [fst snd] in *. subst k'.
    apply (uc_bind divided_account); [apply day_acc, H|]. intros a' b' H'. apply uc_ok. split; [reflexivity|exact H'].
  - intros x y H. apply uc_ok. unfold divided_ledger. cbn. rewrite P, E, F, C. repeat (split; [reflexivity|]). exact H.
Qed.

(** *** Money *)
Definition money (es : list entry) (a b : account) : Prop :=
  forall zss, entries_sizes es zss -> size (List.concat zss) <= 2 ^ 53 ->
  exists ss, Forall2 (has (size (List.concat zss))) (all_envelopes a) ss /\ Forall2 (has (size (List.concat zss))) (all_envelopes b) ss.
Lemma plan_has x v e w n s zs : year x < max_year -> env_process x v e = Ok w -> has n v s -> amounts e (e_postings e) zs -> n + size zs <= 2 ^ 53 ->
  exists ls ys, plan v e = Ok ls /\ Forall2 (fun a y => is_int (mag a) y) ls ys /\ has (n + size zs) w (s + Zsum ys).
Proof.
  intros Y E H A L. apply env_process_plan in E as (ls & Pl & Ap). apply apply_all_iff in Ap. pose proof (size_nonneg zs).
  assert (0 <= n) by (destruct H as (_ & x0 & y0 & _ & _ & _ & Q); lia).
  destruct (moves_int _ _ _ _ (plan_moves _ _ _ Pl) A) as (ys & F & Ly); [lia|]. exists ls, ys. split; [exact Pl|]. split; [exact F|].
  apply (has_more (n + size ys)); [|lia]. apply (moved_all_has _ _ _ _ _ Ap); [exact F|exact H|lia].
Qed.
Lemma ints_fun ls ys : Forall2 (fun a y => is_int (mag a) y) ls ys -> forall zs, Forall2 (fun a y => is_int (mag a) y) ls zs -> zs = ys.
Proof.
  induction 1 as [|a y ls ys I _ IH]; intros zs H; inversion H as [|? z ? zs' J K]; subst; [reflexivity|]. f_equal; [exact (int_unique _ _ _ J I)|exact (IH _ K)].
Qed.
Lemma day_money es e a b a' b' : divided_account a b -> acc_process t a e = Ok a' -> acc_process t' b e = Ok b' -> money es a b -> money (es ++ [e]) a' b'.
Proof.
  intros (_ & _ & D1 & D2) E E' M zss Z L. apply Forall2_app_inv_l in Z as (z1 & z2 & E1 & E2 & ->).
  inversion E2 as [|? zs ? zss' A E3]; subst. inversion E3; subst.
  rewrite concat_app in *. cbn [List.concat] in *. rewrite app_nil_r in *. rewrite size_app in *. pose proof (size_nonneg zs).
  destruct (M z1 E1) as (ss & S & S'); [lia|].
  assert (Forall2 divided (all_envelopes a) (all_envelopes b)) as D by (apply Forall2_app; assumption).
  pose proof (process_all _ _ _ _ E) as P. pose proof (process_all _ _ _ _ E') as P'. clear -P P' D S S' A L T T'.
  revert D P' S S' . generalize (all_envelopes b) as vs', (all_envelopes b') as ws'. revert ss.
  induction P as [|v w vs ws Pv _ IH]; intros ss vs' ws' D P' S S'; inversion D as [|? v' ? vs2 Dv Dr]; subst; inversion P' as [|? w' ? ws2 Pv' Pr']; subst.
  - exists []. split; constructor.
  - inversion S as [|? s ? ss2 Sv Sr]; subst. inversion S' as [|? s' ? ss3 Sv' Sr']; subst.
    destruct (IH _ _ _ Dr Pr' Sr Sr') as (rs & R & R').
    destruct (plan_has t v e w _ _ zs T Pv Sv A) as (ls & ys & Q & F & H); [lia|].
    destruct (plan_has t' v' e w' _ _ zs T' Pv' Sv' A) as (ls' & ys' & Q' & F' & H'); [lia|].
    rewrite (plan_same v v' e (proj1 Dv)), Q in Q'. injection Q' as <-. rewrite (ints_fun _ _ F _ F') in H'.
    exists (s + Zsum ys :: rs). split; constructor; assumption.
Qed.
Lemma start_money es a : starting a -> money es a a.
Proof.
  intros St zss _ L. destruct (starting_kept a St) as [_ K].
  destruct (choose (has (size (List.concat zss))) (all_envelopes a)) as (ss & S).
  { intros v I. apply saved_has; [exact (proj1 (proj1 St v I))|]. apply (saved_more _ 0); [exact (K v I)|apply size_nonneg]. }
  exists ss. split; exact S.
Qed.

(** *** Loading *)
Definition Day (l m : ledger) : Prop :=
  divided_ledger l m
  /\ exists es, Permutation es (l_entries l) /\ Forall2 (pairs (money es)) (l_accounts l) (l_accounts m).
Lemma Day_entry l m e : Day l m -> unless_crash Day (add_entry t l e) (add_entry t' m e).
Proof.
  intros (D & es & P & M). apply (uc_both divided_ledger); [apply day_entry, D|]. intros l' m' E E' D'. split; [exact D'|].
  exists (es ++ [e]). split.
  - unfold add_entry in E. apply bind_Ok in E as (accs & _ & E). injection E as <-. cbn [l_entries].
    rewrite <- sort_entries_perm. apply Permutation_app_tail, P.
  - pose proof (add_entry_accounts _ _ _ _ E) as Q. pose proof (add_entry_accounts _ _ _ _ E') as Q'. destruct D as (_ & _ & _ & _ & A).
    clear -M A Q Q' T T'. revert Q' A M. generalize (l_accounts m) as ms, (l_accounts m') as ms'.
    induction Q as [|[k a] [k' a'] la la' [K H] _ IH]; intros ms ms' Q' A M; inversion A as [|? [k2 b] ? mb Ab Ar]; subst; inversion M as [|? ? ? ? Mb Mr]; subst;
      inversion Q' as [|? [k3 b'] ? mb' [K' H'] Qr]; subst; constructor.
    + destruct Ab as [Kb Hb], Mb as [_ Hm]. cbn [fst snd] in *. split; [cbn; congruence|]. cbn [snd]. exact (day_money es e a b a' b' Hb H H' Hm).
    + exact (IH _ _ Qr Ar Mr).
Qed.
Lemma Forall2_insert {A B} (R : A -> B -> Prop) (k : str) a b m n : R a b -> Forall2 (fun x y => fst x = fst y /\ R (snd x) (snd y)) m n ->
  Forall2 (fun x y => fst x = fst y /\ R (snd x) (snd y)) (map_insert k a m) (map_insert k b n).
Proof.
  intros H F. induction F as [|[k1 x] [k2 y] m n [K E] F IH]; cbn [map_insert].
  - constructor; [split; [reflexivity|exact H]|constructor].
  - cbn [fst snd] in *. subst k2. destruct (str_eqb k1 k); constructor; try exact F; try exact IH; split; try reflexivity; assumption.
Qed.
Lemma divided_refl a : divided_account a a.
Proof.
  split; [reflexivity|]. split; [reflexivity|]. assert (forall vs, Forall2 divided vs vs) as R.
  { induction vs; constructor; [split; [apply same_definition_refl|reflexivity]|assumption]. }
  split; apply R.
Qed.
Lemma Day_account l m c : Day l m -> unless_crash Day (ledger_parse_account l c) (ledger_parse_account m c).
Proof.
  intros ((P & E & F & C & A) & es & Pe & M). unfold ledger_parse_account. rewrite <- F, <- P, <- E, <- C.
  destruct (parse_account c decimal_symbol (l_format l)) as [a| | |] eqn:Q; cbn [bind]; try (right; right; reflexivity); [|left; reflexivity].
  apply uc_ok. split.
  - unfold divided_ledger. cbn. repeat (split; [reflexivity|]). apply (Forall2_insert divided_account); [apply divided_refl|exact A].
  - exists es. cbn [l_entries l_accounts]. split; [exact Pe|]. apply (Forall2_insert (money es)); [apply start_money, (parsed_starting _ _ _ _ Q)|exact M].
Qed.
Definition State (s u : lw) : Prop := Day (fst s) (fst u) /\ snd s = snd u.
Lemma State_ledger s u r q : State s u -> unless_crash Day r q -> unless_crash State (on_ledger s r) (on_ledger u q).
Proof. intros [_ W] H. unfold on_ledger. apply (uc_bind Day); [exact H|]. intros l m D. apply uc_ok. split; [exact D|exact W]. Qed.
Lemma Day_names l m : Day l m -> account_names l = account_names m.
Proof.
  intros ((_ & _ & _ & _ & A) & _). unfold account_names. induction A as [|x y la ma [K _] _ IH]; cbn [map]; [reflexivity|]. congruence.
Qed.
Lemma Day_chunk inc inc' s u c : (forall f s u, State s u -> unless_crash State (inc f s) (inc' f u)) -> State s u ->
  unless_crash State (parse_chunk t inc s c) (parse_chunk t' inc' u c).
Proof.
  intros I H. pose proof H as [D W]. unfold parse_chunk. destruct (split_ws c) as [|k rest]; [apply uc_ok, H|]. cbv zeta.
  destruct (str_eqb k (lit "account")); [apply State_ledger; [exact H|apply Day_account, D]|].
  destruct (str_eqb k (lit "currency")).
  { apply State_ledger; [exact H|]. unfold set_currency. destruct (hd_error rest); [|right; right; reflexivity]. apply uc_ok.
    destruct D as ((P & E & F & C & A) & es & Pe & M). split; [|exists es; split; [exact Pe|exact M]]. unfold divided_ledger. cbn. auto 10. }
  destruct (str_eqb k (lit "date_format")).
  { apply State_ledger; [exact H|]. unfold set_date_format. destruct (hd_error rest); [|right; right; reflexivity]. apply uc_ok.
    destruct D as ((P & E & F & C & A) & es & Pe & M). split; [|exists es; split; [exact Pe|exact M]]. unfold divided_ledger. cbn. auto 10. }
  destruct (str_eqb k (lit "include")).
  { destruct (hd_error rest); [apply I, H|right; right; reflexivity]. }
  apply State_ledger; [exact H|]. unfold ledger_parse_entry. rewrite <- (Day_names _ _ D). pose proof D as ((_ & _ & <- & _ & _) & _).
  apply (uc_bind eq); [apply uc_eq|]. intros e ? <-. apply Day_entry, D.
Qed.
Lemma Day_str inc inc' text s u : (forall f s u, State s u -> unless_crash State (inc f s) (inc' f u)) -> State s u ->
  unless_crash State (add_from_str t inc text s) (add_from_str t' inc' text u).
Proof.
  intros I H. unfold add_from_str. apply (uc_bind (fun p q => fst p = fst q /\ State (snd p) (snd q))).
  - apply uc_fold; [|split; [reflexivity|exact H]]. intros [c p] [c' q] line [E K]. cbn [fst snd] in *. subst c'. unfold line_step. cbv zeta.
    destruct (remove_comments (trim_end line)) as [|x r]; [apply uc_ok; split; [reflexivity|exact K]|].
    destruct (is_ws x); [apply uc_ok; split; [reflexivity|exact K]|].
    apply (uc_bind State); [apply Day_chunk; assumption|]. intros p' q' K'. apply uc_ok. split; [reflexivity|exact K'].
  - intros [c p] [c' q] [E K]. cbn [fst snd] in *. subst c'. apply Day_chunk; assumption.
Qed.
Lemma Day_file fuel : forall f s u, State s u -> unless_crash State (add_from_file fuel t f s) (add_from_file fuel t' f u).
Proof.
  induction fuel as [|fuel IH]; intros f [l w] [m v] [D W]; [right; right; exact I|]. cbn [fst snd] in W. subst v. cbn [add_from_file fst snd].
  apply (uc_bind eq); [apply uc_eq|]. intros text ? <-. apply (uc_bind eq); [apply uc_eq|]. intros w' ? <-. apply Day_str; [exact IH|]. split; [exact D|reflexivity].
Qed.
Lemma Day_load fuel p w : unless_crash State (from_file fuel t p w) (from_file fuel t' p w).
Proof.
  apply Day_file. split; [|reflexivity]. split.
  - unfold divided_ledger. cbn. auto 10.
  - exists []. split; constructor.
Qed.
End Days.
