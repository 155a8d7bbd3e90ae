(** Facts about journals of whole amounts. *)
From Coq Require Import ZArith NArith List Bool Reals String Lia Lra Permutation.
From Flocq Require Import Core.
From Verif Require Import Base Str F64 Date Amount Posting Entry Envelope Account World Register Ledger
  SpecAmount SpecDate SpecEntry SpecEnvelope SpecHistory SpecLedger SpecOrder SpecWhole StrFacts F64Facts AmountFacts EntryFacts DateFacts
  BarFacts EnvelopeFacts FillFacts AccountFacts LedgerFacts PropertiesHistory OrderFacts PropertiesOrder.
Import ListNotations.
Local Open Scope Z_scope.

(** ** Whole numbers *)
Lemma int_less x y a b : is_int x a -> is_int y b -> fltb x y = (a <? b).
Proof.
  intros [Fx Rx] [Fy Ry]. assert (fltb x y = true <-> a < b) as E.
  { rewrite fltb_R, !fval_fin, Rx, Ry by assumption. split; [intros (_ & _ & H); apply lt_IZR, H|].
    intro H. split; [apply ffin_not_nan, Fx|]. split; [apply ffin_not_nan, Fy|]. apply IZR_lt, H. }
  destruct (Z.ltb_spec a b) as [L|L]; [apply E, L|]. apply not_true_iff_false. rewrite E. lia.
Qed.
Lemma fmin_int x y a b : is_int x a -> is_int y b -> is_int (fmin x y) (Z.min a b).
Proof.
  intros X Y. unfold fmin. rewrite (int_less _ _ _ _ Y X), (ffin_not_nan x (proj1 X)), (ffin_not_nan y (proj1 Y)).
  destruct (Z.ltb_spec b a); [rewrite Z.min_r by lia|rewrite Z.min_l by lia]; assumption.
Qed.
Lemma fmax_int x y a b : is_int x a -> is_int y b -> is_int (fmax x y) (Z.max a b).
Proof.
  intros X Y. unfold fmax. rewrite (int_less _ _ _ _ X Y), (ffin_not_nan x (proj1 X)), (ffin_not_nan y (proj1 Y)).
  destruct (Z.ltb_spec a b); [rewrite Z.max_r by lia|rewrite Z.max_l by lia]; assumption.
Qed.
Lemma fabs_int x a : is_int x a -> is_int (fabs x) (Z.abs a).
Proof. intros [F R]. destruct (fabs_correct x) as [E G]. split; [congruence|]. rewrite E, R, abs_IZR. reflexivity. Qed.
Lemma Zsum_cons z zs : Zsum (z :: zs) = z + Zsum zs.
Proof. reflexivity. Qed.
Lemma Zabs_nonneg zs : 0 <= Zsum (map Z.abs zs).
Proof. induction zs as [|z zs IH]; [easy|]. cbn [map]. rewrite Zsum_cons. lia. Qed.

(** ** Pools *)
Definition holds (p : pool) (sym : option str) (z : Z) : Prop := is_int (mag (pool_only p sym)) z.
Lemma holds_add p a sym z y : holds p sym z -> is_int (mag a) y -> Z.abs (z + y) <= 2 ^ 53 ->
  holds (pool_add p a) sym (if sym_dec (symbol a) sym then z + y else z).
Proof.
  unfold holds, pool_only. intros H A L. pose proof (pool_find_add sym p a) as E. unfold pool_find in E. rewrite E. clear E.
  destruct (sym_dec (symbol a) sym) as [S|S]; [|exact H].
  destruct (List.find _ p) as [b|] eqn:F; cbn [mag].
  - apply fadd_int; assumption.
  - assert (z = 0) as -> by (destruct H as [_ H]; cbn in H; symmetry; apply eq_IZR; exact H). exact A.
Qed.

(** ** Entries *)
Definition size (zs : list Z) : Z := Zsum (map Z.abs zs).
Lemma size_cons z zs : size (z :: zs) = Z.abs z + size zs.
Proof. reflexivity. Qed.
Lemma size_nonneg zs : 0 <= size zs.
Proof. apply Zabs_nonneg. Qed.
Lemma size_app a b : size (a ++ b) = size a + size b.
Proof. induction a as [|z a IH]; [reflexivity|]. cbn [app]. rewrite !size_cons, IH. lia. Qed.
(** [zs] are the amounts of the postings. *)
Definition amounts (e : entry) (ps : list posting) (zs : list Z) : Prop :=
  Forall2 (fun p z => exists a, worth e p a /\ is_int (mag a) z) ps zs.
Lemma sums_int e sym P ps x y : sums e sym P ps x y -> forall zs a, amounts e ps zs -> is_int x a -> Z.abs a + size zs <= 2 ^ 53 ->
  exists b, is_int y b /\ Z.abs b <= Z.abs a + size zs.
Proof.
  induction 1 as [x|p ps w x y _ W _ _ IH|p ps x y _ _ IH]; intros zs a A X L.
  - exists a. pose proof (size_nonneg zs). split; [exact X|lia].
  - inversion A as [|? z ? zs' (w' & W' & Z) A']; subst. rewrite size_cons in L. pose proof (size_nonneg zs').
    rewrite (worth_unique _ _ _ _ W' W) in Z. destruct (IH zs' (a + z) A') as (b & B & Lb).
    + apply fadd_int; [exact X|exact Z|lia].
    + lia.
    + exists b. split; [exact B|]. rewrite size_cons. lia.
  - inversion A as [|? z ? zs' _ A']; subst. rewrite size_cons in L. destruct (IH zs' a A' X) as (b & B & Lb); [lia|].
    exists b. split; [exact B|]. rewrite size_cons. lia.
Qed.
Lemma posted_int v e ps zs : amounts e ps zs -> exists ys, Forall2 (fun a y => is_int (mag a) y) (posted_to v ps) ys /\ size ys <= size zs.
Proof.
  induction 1 as [|p z ps zs (a & W & I) _ (ys & F & L)]; [exists []; split; [constructor|easy]|]. rewrite size_cons.
  unfold posted_to in *. cbn [flat_map]. destruct p as [c|ep]; [exists ys; split; [exact F|lia]|].
  destruct (str_dec _ _); [|exists ys; split; [exact F|lia]]. destruct (str_dec _ _); [|exists ys; split; [exact F|lia]].
  exists (z :: ys). rewrite size_cons. split; [|lia]. constructor; [|exact F].
  destruct W as [W|[W _]]; cbn in W; [injection W as <-; exact I|discriminate].
Qed.
Lemma moves_int v e ls zs : moves_of v e ls -> amounts e (e_postings e) zs -> size zs <= 2 ^ 53 ->
  exists ys, Forall2 (fun a y => is_int (mag a) y) ls ys /\ size ys <= size zs.
Proof.
  intros M A L. destruct M as [_|_ _|f s l _ _ _ Sf Ss ->].
  - apply (posted_int v e), A.
  - exists []. split; [constructor|apply size_nonneg].
  - destruct (sums_int _ _ _ _ _ _ Sf zs 0 A fzero_int) as (f' & If & Lf); [exact L|].
    destruct (sums_int _ _ _ _ _ _ Ss zs 0 A fzero_int) as (s' & Is & Ls); [exact L|].
    destruct (feqb _ _); [exists []; split; [constructor|apply size_nonneg]|].
    pose proof (fmin_int _ _ _ _ If (fabs_int _ _ Is)) as K.
    destruct (fltb s fzero).
    + exists [- Z.min f' (Z.abs s')]. split; [constructor; [cbn [mag]; apply fneg_int, K|constructor]|]. rewrite size_cons. change (size []) with 0. lia.
    + exists [Z.min f' (Z.abs s')]. split; [constructor; [exact K|constructor]|]. rewrite size_cons. change (size []) with 0. lia.
Qed.

(** ** Envelopes *)
Definition saved (v : envelope) (m : Z) : Prop :=
  exists x y, is_int (mag (v_now v)) x /\ is_int (mag (v_next v)) y /\ Z.abs x + Z.abs y <= m.
Lemma saved_more v m n : saved v m -> m <= n -> saved v n.
Proof. intros (x & y & X & Y & L) H. exists x, y. split; [exact X|]. split; [exact Y|]. lia. Qed.
Lemma moved_saved today v a d w m z : moved today v a d w -> saved v m -> is_int (mag a) z -> m + Z.abs z <= 2 ^ 53 -> saved w (m + Z.abs z).
Proof.
  intros (_ & _ & [(_ & (_ & E) & K)|[(_ & _ & (_ & E) & K)|[(_ & _ & (_ & E) & K)|(_ & _ & E & K)]]]) (x & y & X & Y & L) Z B.
  - exists (x + z), y. rewrite E, K. cbn [mag]. split; [apply fadd_int; [exact X|exact Z|lia]|]. split; [exact Y|lia].
  - exists (x + z), y. rewrite E, K. cbn [mag]. split; [apply fadd_int; [exact X|exact Z|lia]|]. split; [exact Y|lia].
  - exists x, (y + z). rewrite E, K. cbn [mag]. split; [exact X|]. split; [apply fadd_int; [exact Y|exact Z|lia]|lia].
  - exists x, y. rewrite E, K. split; [exact X|]. split; [exact Y|lia].
Qed.
Lemma moved_all_saved today d v ls w : moved_all today d v ls w -> forall ys m, Forall2 (fun a y => is_int (mag a) y) ls ys ->
  saved v m -> m + size ys <= 2 ^ 53 -> saved w (m + size ys).
Proof.
  induction 1 as [v|v a u l w M _ IH]; intros ys m F S L; inversion F as [|? y ? ys' Y F']; subst.
  - apply (saved_more _ m); [exact S|]. unfold size. cbn. lia.
  - rewrite size_cons in *. pose proof (size_nonneg ys'). rewrite Z.add_assoc. apply IH; [exact F'| |lia].
    apply (moved_saved _ _ _ _ _ _ _ M); [exact S|exact Y|lia].
Qed.
Lemma process_saved today v e w zs m : env_process today v e = Ok w -> amounts e (e_postings e) zs -> saved v m -> m + size zs <= 2 ^ 53 ->
  saved w (m + size zs).
Proof.
  intros P A S L. apply env_process_plan in P as (ls & Pl & Ap). apply plan_moves in Pl. apply apply_all_iff in Ap.
  assert (0 <= m) by (destruct S as (x & y & _ & _ & K); lia).
  destruct (moves_int _ _ _ _ Pl A) as (ys & F & Ly); [lia|].
  apply (saved_more _ (m + size ys)); [|lia]. apply (moved_all_saved _ _ _ _ _ Ap); [exact F|exact S|lia].
Qed.

(** ** Accounts *)
Definition kept (a : account) (m : Z) : Prop :=
  (forall sym, exists z, holds (a_real a) sym z /\ Z.abs z <= m)
  /\ forall v, In v (all_envelopes a) -> saved v m.
Lemma adds_hold e q ps : forall xs zs r, amounts e ps zs -> worths (filter q (map (pair e) ps)) xs ->
  forall sym z, holds r sym z -> Z.abs z + size zs <= 2 ^ 53 ->
  exists y, holds (fold_left pool_add xs r) sym y /\ Z.abs y <= Z.abs z + size zs.
Proof.
  induction ps as [|p ps IH]; intros xs zs r A W sym z H L; inversion A as [|? x ? zs' (a & Wa & Ia) A']; subst.
  - inversion W; subst. exists z. split; [exact H|]. unfold size. cbn. lia.
  - rewrite size_cons in *. pose proof (size_nonneg zs'). cbn [map filter] in W. destruct (q (e, p)).
    + inversion W as [|? b ? xs' Wb W']; subst. cbn [fst snd] in Wb. rewrite (worth_unique _ _ _ _ Wa Wb) in Ia.
      cbn [fold_left]. destruct (IH xs' zs' (pool_add r b) A' W' sym _ (holds_add r b sym z x H Ia ltac:(lia))) as (y & Y & Ly).
      * destruct (sym_dec _ _); lia.
      * exists y. split; [exact Y|]. destruct (sym_dec _ _); lia.
    + destruct (IH xs zs' r A' W sym z H) as (y & Y & Ly); [lia|]. exists y. split; [exact Y|lia].
Qed.
Lemma process_kept today a e b zs m : acc_process today a e = Ok b -> amounts e (e_postings e) zs -> kept a m -> m + size zs <= 2 ^ 53 ->
  kept b (m + size zs).
Proof.
  intros P A [R S] L. split.
  - intro sym. destruct (acc_process_real _ _ _ _ P) as (xs & W & ->). destruct (R sym) as (z & H & Lz).
    destruct (adds_hold e _ _ _ _ _ A W sym z H) as (y & Y & Ly); [lia|]. exists y. split; [exact Y|lia].
  - intros v I. destruct (acc_process_envelopes _ _ _ _ _ P I) as (u & Iu & Pu). exact (process_saved _ _ _ _ _ _ Pu A (S u Iu) L).
Qed.
Lemma kept_more a m n : kept a m -> m <= n -> kept a n.
Proof.
  intros [R S] L. split; [|intros v I; exact (saved_more _ _ _ (S v I) L)].
  intro sym. destruct (R sym) as (z & H & Lz). exists z. split; [exact H|lia].
Qed.
Lemma starting_kept a : starting a -> kept a 0.
Proof.
  intros [S R]. split.
  - intro sym. exists 0. rewrite R. split; [exact fzero_int|easy].
  - intros v I. destruct (S v I) as [_ [N X]]. exists 0, 0. rewrite N, X. split; [exact fzero_int|]. split; [exact fzero_int|easy].
Qed.

(** ** Ledgers *)
Lemma amounts_of e : forall ps xs zs, worths (map (pair e) ps) xs -> Forall2 (fun x z => f64_is x (IZR z)) (map mag xs) zs -> amounts e ps zs.
Proof.
  induction ps as [|p ps IH]; intros xs zs W F; inversion W as [|? a ? xs' Wa W']; subst; cbn [map] in F;
    inversion F as [|? z ? zs' Z F']; subst; constructor; [|exact (IH _ _ W' F')].
  exists a. split; [exact Wa|]. apply f64_is_int, Z.
Qed.
Definition entries_sizes (es : list entry) (zss : list (list Z)) : Prop := Forall2 (fun e zs => amounts e (e_postings e) zs) es zss.
Lemma sizes_of es : forall xs zs, worths (postings es) xs -> Forall2 (fun x z => f64_is x (IZR z)) (map mag xs) zs ->
  exists zss, entries_sizes es zss /\ List.concat zss = zs.
Proof.
  induction es as [|e es IH]; intros xs zs W F.
  - inversion W; subst. inversion F; subst. exists []. split; [constructor|reflexivity].
  - cbn [postings flat_map] in W. apply Forall2_app_inv_l in W as (x1 & x2 & W1 & W2 & ->). rewrite map_app in F.
    apply Forall2_app_inv_l in F as (z1 & z2 & F1 & F2 & ->). destruct (IH _ _ W2 F2) as (zss & E & <-).
    exists (z1 :: zss). split; [constructor; [exact (amounts_of _ _ _ _ W1 F1)|exact E]|reflexivity].
Qed.
Lemma built_kept today l es : built today l es -> forall zss, entries_sizes es zss -> size (List.concat zss) <= 2 ^ 53 ->
  forall k a, In (k, a) (l_accounts l) -> kept a (size (List.concat zss)).
Proof.
  induction 1 as [p|l es e l' _ IH H|l es chunk l' _ IH H|l es v l' _ IH H|l es v l' _ IH H]; intros zss E L k a I.
  - destruct I.
  - apply Forall2_app_inv_l in E as (z1 & z2 & E1 & E2 & ->). inversion E2 as [|? zs ? zss' A E3]; subst. inversion E3; subst.
    rewrite concat_app in *. cbn [List.concat] in *. rewrite app_nil_r in *. rewrite size_app in *. pose proof (size_nonneg zs).
    destruct (Forall2_In_r _ _ _ _ (add_entry_accounts _ _ _ _ H) I) as ([k' a'] & I' & _ & P). cbn [snd] in P.
    apply (process_kept _ _ _ _ _ _ P A); [|exact L]. apply (IH z1 E1) with (k := k'); [lia|exact I'].
  - unfold ledger_parse_account in H. apply bind_Ok in H as (b & P & H). injection H as <-. cbn [l_accounts] in I.
    assert (In (k, a) (l_accounts l) \/ a = b) as [K| ->].
    { clear - I. induction (l_accounts l) as [|[k' a'] m IHm]; cbn [map_insert] in I.
      - destruct I as [I|[]]. right. congruence.
      - destruct (str_eqb k' (a_name b)); destruct I as [I|I].
        + right. congruence.
        + left. right. exact I.
        + left. left. exact I.
        + destruct (IHm I) as [K|K]; [left; right; exact K|right; exact K]. }
    + exact (IH zss E L k a K).
    + apply (kept_more _ 0); [apply starting_kept, (parsed_starting _ _ _ _ P)|apply size_nonneg].
  - unfold set_currency in H. destruct v; [|discriminate]. injection H as <-. exact (IH zss E L k a I).
  - unfold set_date_format in H. destruct v; [|discriminate]. injection H as <-. exact (IH zss E L k a I).
Qed.
Lemma whole_perm_entries m es es' : Permutation es es' -> whole_entries m es -> whole_entries m es'.
Proof.
  intros P (xs & W & zs & F & L). destruct (Forall2_perm _ _ _ (postings_perm _ _ P) _ W) as (xs' & Px & W').
  destruct (Forall2_perm _ _ _ (Permutation_map mag Px) _ F) as (zs' & Pz & F').
  exists xs'. split; [exact W'|]. exists zs'. split; [exact F'|]. rewrite <- (Zsum_perm _ _ (Permutation_map Z.abs Pz)). exact L.
Qed.
Lemma whole_kept today l es m : built today l es -> whole_entries m (l_entries l) -> m <= 2 ^ 53 ->
  forall k a, In (k, a) (l_accounts l) -> kept a m.
Proof.
  intros B W L k a I. destruct (built_entries _ _ _ B) as (P & _ & _).
  apply (whole_perm_entries m _ _ (Permutation_sym P)) in W as (xs & W & zs & F & Lz).
  destruct (sizes_of _ _ _ W F) as (zss & E & <-). fold (size (List.concat zss)) in Lz.
  apply (kept_more _ (size (List.concat zss))); [|exact Lz]. apply (built_kept _ _ _ B zss E) with (k := k); [lia|exact I].
Qed.

(** ** Filling *)
Lemma fill_int today v av a x t m : filling_amount today v av = Ok a -> v_funding v <> Conservative -> saved v m ->
  is_int (mag av) x -> is_int (mag (v_amount v)) t -> Z.abs t + m <= 2 ^ 53 ->
  exists z, is_int (mag a) z /\ 0 <= z <= Z.abs t + m.
Proof.
  intros H C (n & y & N & Y & L) X T B. unfold filling_amount in H. destruct (negb _); [discriminate|].
  apply bind_Ok in H as (due & _ & H).
  assert (exists z, is_int fzero z /\ 0 <= z <= Z.abs t + m) as Zero by (exists 0; split; [exact fzero_int|lia]).
  destruct due as [due|]; [|injection H as <-; exact Zero]. apply bind_Ok in H as (rem & R & H).
  destruct (date_eqb _ _); [injection H as <-; exact Zero|].
  unfold remaining_next, amount_sub, amount_add in R. destruct (ostr_eqb _ _) in R; [|discriminate]. injection R as <-.
  destruct (v_funding v); [injection H as <-; exact Zero|congruence|]. injection H as <-. cbn [mag] in *.
  eexists. split.
  - apply fmax_int; [|exact fzero_int]. apply fmax_int; [|apply fneg_int; unfold total_mag; apply fadd_int; [exact N|exact Y|lia]].
    apply fmin_int; [apply fmin_int; [exact T|exact X]|]. apply fadd_int; [exact T|apply fneg_int, Y|lia].
  - lia.
Qed.
Lemma holds_sub p a sym z y : holds p sym z -> is_int (mag a) y -> Z.abs (z - y) <= 2 ^ 53 ->
  holds (pool_sub p a) sym (if sym_dec (symbol a) sym then z - y else z).
Proof.
  intros H A L. rewrite pool_sub_add. apply (holds_add p (amount_neg a) sym z (- y) H); [apply fneg_int, A|exact L].
Qed.
(** Postings of whole amounts that are not negative. *)
Definition fills (ps : list posting) (zs : list Z) : Prop :=
  Forall2 (fun p z => exists ep, p = EnvPosting ep /\ is_int (mag (ep_amount ep)) z /\ 0 <= z) ps zs.
Lemma fillings_int today p vs ps q : fillings today p vs ps q -> forall n m ts,
  (forall v, In v vs -> v_funding v <> Conservative /\ saved v n) ->
  Forall2 (fun v t => is_int (mag (v_amount v)) t) vs ts ->
  (forall sym, exists z, holds p sym z /\ Z.abs z <= m) -> 0 <= n -> m + size ts + n * Z.of_nat (List.length vs) <= 2 ^ 53 -> 0 <= m ->
  exists zs, fills ps zs /\ size zs <= size ts + n * Z.of_nat (List.length vs).
Proof.
  induction 1 as [p|p v a vs ps q E _ IH]; intros n m ts C T H N B M.
  { exists []. split; [constructor|]. pose proof (size_nonneg ts). cbn. lia. }
  inversion T as [|? t ? ts' Tv T']; subst. rewrite size_cons in *. pose proof (size_nonneg ts').
  cbn [List.length] in *. rewrite Nat2Z.inj_succ in *. assert (0 <= n * Z.of_nat (List.length vs)) by nia.
  destruct (C v (or_introl eq_refl)) as [Cv Sv]. destruct (H (symbol (v_amount v))) as (x & X & Lx).
  destruct (fill_int _ _ _ _ _ _ _ E Cv Sv X Tv) as (z & Z & Lz); [nia|].
  destruct (IH n (m + Z.abs t + n) ts') as (zs & F & L); try assumption.
  - intros u Iu. apply C. right. exact Iu.
  - intro sym. destruct (H sym) as (x' & X' & Lx'). eexists. split; [apply (holds_sub p a sym x' z X' Z); nia|]. destruct (sym_dec _ _); lia.
  - nia.
  - lia.
  - exists (z :: zs). rewrite size_cons. split; [|nia]. constructor; [|exact F]. eexists. split; [reflexivity|]. split; [exact Z|lia].
Qed.
Lemma holds_minus p a sym z y m : holds p sym z -> is_int (mag a) y -> Z.abs z <= m -> m + Z.abs y <= 2 ^ 53 ->
  exists x, holds (pool_minus p a) sym x /\ Z.abs x <= m + Z.abs y.
Proof.
  intros H A L B. eexists. split; [apply (holds_add p (amount_neg a) sym z (- y) H); [apply fneg_int, A|lia]|]. destruct (sym_dec _ _); lia.
Qed.
Lemma available_int n vs : 0 <= n -> forall p m, (forall v, In v vs -> saved v n) ->
  (forall sym, exists z, holds p sym z /\ Z.abs z <= m) -> m + n * Z.of_nat (List.length vs) <= 2 ^ 53 ->
  forall sym, exists z, holds (fold_left (fun p v => pool_minus (pool_minus p (v_next v)) (v_now v)) vs p) sym z
    /\ Z.abs z <= m + n * Z.of_nat (List.length vs).
Proof.
  intro N. induction vs as [|v vs IH]; intros p m S H B sym.
  - cbn. destruct (H sym) as (z & Z & L). exists z. split; [exact Z|lia].
  - cbn [List.length fold_left] in *. rewrite Nat2Z.inj_succ in *. assert (0 <= n * Z.of_nat (List.length vs)) by nia.
    destruct (IH (pool_minus (pool_minus p (v_next v)) (v_now v)) (m + n)) with (sym := sym) as (z & Z & L).
    + intros u Iu. apply S. right. exact Iu.
    + intro s. destruct (S v (or_introl eq_refl)) as (x & y & X & Y & K). destruct (H s) as (z & Z & L).
      destruct (holds_minus _ _ _ _ _ m Z Y L) as (z1 & Z1 & L1); [nia|].
      destruct (holds_minus _ _ _ _ _ _ Z1 X L1) as (z2 & Z2 & L2); [nia|]. exists z2. split; [exact Z2|lia].
    + nia.
    + exists z. split; [exact Z|nia].
Qed.
Lemma size_rev zs : size (rev zs) = size zs.
Proof. induction zs as [|z zs IH]; [reflexivity|]. cbn [rev]. rewrite size_app, IH, !size_cons. change (size []) with 0. lia. Qed.
Lemma Forall2_rev {A C} (R : A -> C -> Prop) l m : Forall2 R l m -> Forall2 R (rev l) (rev m).
Proof. induction 1; cbn; [constructor|]. apply Forall2_app; [assumption|]. constructor; [assumption|constructor]. Qed.


(** The envelopes of an account, and those of the other accounts. *)
Lemma size_part (m : list (str * account)) : forall ts key a, Forall2 (fun v t => is_int (mag (v_amount v)) t) (flat_map (fun ka => all_envelopes (snd ka)) m) ts ->
  In (key, a) m -> exists us, Forall2 (fun v t => is_int (mag (v_amount v)) t) (all_envelopes a) us /\ size us <= size ts.
Proof.
  induction m as [|ka m IH]; intros ts key a F I; [destruct I|]. cbn [flat_map] in F. apply Forall2_app_inv_l in F as (t1 & t2 & F1 & F2 & ->).
  rewrite size_app. pose proof (size_nonneg t1). pose proof (size_nonneg t2). destruct I as [->|I].
  - exists t1. split; [exact F1|lia].
  - destruct (IH _ _ _ F2 I) as (us & U & L). exists us. split; [exact U|lia].
Qed.
Lemma length_part (m : list (str * account)) key a : In (key, a) m ->
  (List.length (all_envelopes a) <= List.length (flat_map (fun ka => all_envelopes (snd ka)) m))%nat.
Proof.
  induction m as [|ka m IH]; intro I; [destruct I|]. cbn [flat_map]. rewrite app_length. destruct I as [->|I]; [cbn [snd]; lia|]. specialize (IH I). lia.
Qed.

(** All that is moved. *)
Definition spare (n k m : Z) (l : ledger) (ts : list Z) : Prop :=
  0 <= n /\ k = Z.of_nat (List.length (envelopes_of l)) /\ Forall2 (fun v t => is_int (mag (v_amount v)) t) (envelopes_of l) ts
  /\ size ts + (1 + n) * (1 + k) <= m
  /\ (forall v, In v (envelopes_of l) -> v_funding v <> Conservative)
  /\ (forall key a, In (key, a) (l_accounts l) -> kept a n).
Lemma ledger_spare today l es m : built today l es -> whole_ledger m l -> m <= 2 ^ 52 -> exists n k ts, spare n k m l ts.
Proof.
  intros B (n & k & W & (ts & T & Lt) & L & C) M. fold (size ts) in Lt. pose proof (size_nonneg ts).
  assert (0 <= n) as Nn by (destruct W as (xs & _ & zs & _ & Lz); pose proof (Zabs_nonneg zs); lia).
  exists n, (Z.of_nat (List.length (envelopes_of l))), ts. split; [exact Nn|]. split; [reflexivity|]. split.
  - clear - T. remember (map (fun v => mag (v_amount v)) (envelopes_of l)) as xs eqn:E. revert E. generalize (envelopes_of l).
    induction T as [|x z xs zs X _ IH]; intros [|v vs] E; try discriminate; [constructor|]. injection E as -> E.
    constructor; [apply f64_is_int, X|apply IH, E].
  - split; [lia|]. split; [exact C|]. intros key a I. apply (whole_kept _ _ _ _ B W) with (k := key); [nia|exact I].
Qed.
Lemma filled_account today l n k m ts key a ps : spare n k m l ts -> m <= 2 ^ 52 -> In (key, a) (l_accounts l) ->
  filling_postings today a = Ok ps ->
  forall us, Forall2 (fun v t => is_int (mag (v_amount v)) t) (all_envelopes a) us -> size us <= size ts ->
  exists zs, fills ps zs /\ size zs <= size us + n * Z.of_nat (List.length (all_envelopes a)).
Proof.
  intros (N & K & T & L & C & Kp) M I E us U Lu. apply filling_postings_iff in E as (q & Fi).
  assert (Z.of_nat (List.length (all_envelopes a)) <= k) as Lk by (rewrite K; apply inj_le, (length_part _ key), I).
  pose proof (size_nonneg us). pose proof (Zle_0_nat (List.length (all_envelopes a))).
  destruct (Kp key a I) as [Re Sa].
  assert (forall sym, exists z, holds (available_value a) sym z /\ Z.abs z <= n + n * Z.of_nat (List.length (all_envelopes a))) as Av.
  { apply available_int; [exact N|exact Sa|exact Re|nia]. }
  destruct (fillings_int _ _ _ _ _ Fi n (n + n * Z.of_nat (List.length (all_envelopes a))) (rev us)) as (zs & F & Lz).
  - intros v Iv. apply in_rev in Iv. split; [|apply Sa, Iv]. apply C. unfold envelopes_of. apply in_flat_map. exists (key, a). split; assumption.
  - apply Forall2_rev, U.
  - exact Av.
  - exact N.
  - rewrite size_rev, rev_length. nia.
  - nia.
  - rewrite size_rev, rev_length in Lz. exists zs. split; assumption.
Qed.
Lemma fills_app a b x y : fills a x -> fills b y -> fills (a ++ b) (x ++ y).
Proof. apply Forall2_app. Qed.
Lemma fills_kept ps : forall zs, fills ps zs -> exists ys, fills (filter keep_posting ps) ys /\ Forall (fun y => 0 < y) ys /\ size ys = size zs.
Proof.
  induction ps as [|p ps IH]; intros zs F; inversion F as [|? z ? zs' P F']; subst; [exists []; split; [constructor|split; [constructor|reflexivity]]|].
  destruct (IH zs' F') as (ys & G & Y & L). cbn [filter]. destruct P as (ep & -> & Z & Nn). cbn [keep_posting get_amount].
  assert (feqb (mag (ep_amount ep)) fzero = true <-> z = 0) as E.
  { destruct Z as [Fz Rz]. rewrite feqb_R, fval_zero, (fval_fin _ Fz), Rz. split; [intros (_ & _ & H); apply eq_IZR, H|].
    intros ->. split; [apply ffin_not_nan, Fz|]. split; reflexivity. }
  rewrite size_cons. destruct (feqb (mag (ep_amount ep)) fzero); cbn [negb].
  - exists ys. split; [exact G|]. split; [exact Y|]. assert (z = 0) by (apply E; reflexivity). lia.
  - exists (z :: ys). rewrite size_cons. split; [constructor; [eauto|exact G]|]. split; [constructor; [|exact Y]|lia].
    destruct (Z.eq_dec z 0) as [Q|]; [apply E in Q; discriminate|lia].
Qed.
Lemma filled_all today l n k m ts ps : spare n k m l ts -> m <= 2 ^ 52 -> fill_postings today l = Ok ps ->
  exists ys, fills ps ys /\ Forall (fun y => 0 < y) ys /\ size ys <= size ts + n * k.
Proof.
  intros S M F. unfold fill_postings in F. apply bind_Ok in F as (pss & G & F). injection F as <-. apply map_res_Ok in G.
  assert (exists zs, fills (List.concat pss) zs /\ size zs <= size ts + n * k) as (zs & Fz & L).
  2: { destruct (fills_kept _ _ Fz) as (ys & A & P & E). exists ys. split; [exact A|]. split; [exact P|]. lia. }
  pose proof S as (N & K & T & _).
  assert (forall mm ts', incl mm (l_accounts l) -> forall pss, Forall2 (fun ka b => filling_postings today (snd ka) = Ok b) mm pss ->
    Forall2 (fun v t => is_int (mag (v_amount v)) t) (flat_map (fun ka => all_envelopes (snd ka)) mm) ts' -> size ts' <= size ts ->
    exists zs, fills (List.concat pss) zs /\ size zs <= size ts' + n * Z.of_nat (List.length (flat_map (fun ka => all_envelopes (snd ka)) mm))) as Q.
  { clear K T. induction mm as [|[key a] mm IH]; intros ts' Ic qss H T' Lt; inversion H as [|? b ? bs Hb Hs]; subst; cbn [flat_map snd] in *.
    - exists []. split; [constructor|]. pose proof (size_nonneg ts'). cbn. lia.
    - apply Forall2_app_inv_l in T' as (u1 & u2 & U1 & U2 & ->). rewrite size_app in *. pose proof (size_nonneg u1). pose proof (size_nonneg u2).
      destruct (IH u2) with (pss := bs) as (zs & Z & Lz); [intros x Ix; apply Ic; right; exact Ix|exact Hs|exact U2|lia|].
      destruct (filled_account today l n k m ts key a b S M (Ic _ (or_introl eq_refl)) Hb u1 U1) as (xs & X & Lx); [lia|].
      exists (xs ++ zs). split; [cbn [List.concat]; apply fills_app; assumption|]. rewrite size_app, app_length, Nat2Z.inj_add. nia. }
  destruct (Q (l_accounts l) ts (incl_refl _) pss G T ltac:(lia)) as (zs & Z & Lz). exists zs. split; [exact Z|]. rewrite K. exact Lz.
Qed.

(** Everything that is moved is whole. *)
Lemma moves_whole today l es m ps : built today l es -> whole_ledger m l -> m <= 2 ^ 52 -> fill_postings today l = Ok ps ->
  exists zs, Forall2 (fun p z => exists ep, p = EnvPosting ep /\ is_int (mag (ep_amount ep)) z) ps zs /\ Forall (fun z => 0 < z) zs /\ size zs <= m.
Proof.
  intros B W M F. destruct (ledger_spare _ _ _ _ B W M) as (n & k & ts & S). destruct (filled_all _ _ _ _ _ _ _ S M F) as (ys & Y & P & L).
  exists ys. split; [|split; [exact P|]].
  - clear - Y. induction Y as [|p z ps zs (ep & E & Z & _) _ IH]; constructor; [eauto|exact IH].
  - destruct S as (N & K & _ & L' & _). nia.
Qed.
