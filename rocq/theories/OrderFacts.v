(** Facts about entries in another order. *)
From Coq Require Import ZArith NArith List Bool Reals String Lia Lra Sorted Permutation.
From Flocq Require Import Core IEEE754.BinarySingleNaN.
From Verif Require Import Base Str F64 Date Amount Posting Entry Envelope Account World Register Ledger
  SpecAmount SpecDate SpecEntry SpecEnvelope SpecHistory SpecLedger SpecOrder StrFacts F64Facts AmountFacts EntryFacts DateFacts
  BarFacts EnvelopeFacts AccountFacts LedgerFacts PropertiesHistory.
Import ListNotations.
Local Open Scope Z_scope.

(** ** Sums of whole numbers *)
(** Not [-0]. *)
Definition unsigned_zero (x : f64) : Prop := fR x = 0%R -> fsign x = false.
Lemma fadd_zero x y a b : is_int x a -> is_int y b -> Z.abs (a + b) <= 2 ^ 53 ->
  unsigned_zero x -> unsigned_zero (fadd x y).
Proof.
  intros [Fx Rx] [Fy Ry] H U Z. destruct (fadd_int x y a b) as [F R]; [split; assumption|split; assumption|exact H|].
  rewrite R in Z. apply eq_IZR in Z. unfold fsign. rewrite B_fadd.
  generalize (Bplus_correct prec emax F64Facts.Hprec F64Facts.Hmax mode_NE (B x) (B y) Fx Fy).
  rewrite Rlt_bool_true.
  2:{ fold (fR x) (fR y). change (round radix2 (SpecFloat.fexp prec emax) (round_mode mode_NE) (fR x + fR y)) with (rnd (fR x + fR y)).
      rewrite Rx, Ry, <- plus_IZR, rnd_Z by exact H. apply Rabs_Z_small, H. }
  intros (_ & _ & S). rewrite S. fold (fR x) (fR y). rewrite Rx, Ry, <- plus_IZR, Z.
  rewrite Rcompare_Eq by reflexivity. fold (fsign x) (fsign y).
  destruct (Z.eq_dec a 0) as [->|N].
  - rewrite U by exact Rx. reflexivity.
  - destruct (fsign x) eqn:Sx; [|reflexivity]. destruct (fsign y) eqn:Sy; [|reflexivity].
    assert (fR x <= 0)%R by (apply (sign_R x Fx); exact Sx).
    assert (fR y <= 0)%R by (apply (sign_R y Fy); exact Sy).
    rewrite Rx in *. rewrite Ry in *. apply le_IZR in H0. apply le_IZR in H1. lia.
Qed.
Lemma fold_unsigned l : forall zs x a, Forall2 (fun y z => f64_is y (IZR z)) l zs -> is_int x a ->
  Forall (fun s => Z.abs s <= 2 ^ 53) (partial_sums a zs) -> unsigned_zero x -> unsigned_zero (fold_left fadd l x).
Proof.
  induction l as [|y l IH]; intros zs x a F I P U; [exact U|]. inversion F as [|? z ? zs' Fy F']; subst.
  cbn [partial_sums] in P. inversion P as [|? ? P1 P']; subst. apply f64_is_int in Fy. cbn [fold_left].
  apply (IH zs' _ (a + z) F'); [apply fadd_int; assumption|exact P'|]. apply (fadd_zero x y a z); assumption.
Qed.
Lemma partial_bound zs : forall a m, Z.abs a + Zsum (map Z.abs zs) <= m -> Forall (fun s => Z.abs s <= m) (partial_sums a zs).
Proof.
  induction zs as [|z zs IH]; intros a m H; [constructor|]. cbn [partial_sums map Zsum fold_right] in *. fold (Zsum (map Z.abs zs)) in H.
  assert (0 <= Zsum (map Z.abs zs)) by (clear; induction zs; cbn; unfold Zsum in *; lia).
  constructor; [lia|]. apply IH. lia.
Qed.
Lemma Zsum_perm l l' : Permutation l l' -> Zsum l = Zsum l'.
Proof. unfold Zsum. induction 1; cbn; lia. Qed.
Lemma Forall2_perm {A C} (R : A -> C -> Prop) l l' : Permutation l l' -> forall m, Forall2 R l m ->
  exists m', Permutation m m' /\ Forall2 R l' m'.
Proof.
  induction 1 as [|x l l' _ IH|x y l|l l' l'' _ IH _ IH']; intros m F.
  - inversion F; subst. exists []. split; constructor.
  - inversion F as [|? z ? m1 Rz F1]; subst. destruct (IH _ F1) as (m' & P & F'). exists (z :: m'). split; [constructor; exact P|constructor; assumption].
  - inversion F as [|? z ? m1 Rz F1]; subst. inversion F1 as [|? u ? m2 Ru F2]; subst. exists (u :: z :: m2).
    split; [apply perm_swap|]. repeat constructor; assumption.
  - destruct (IH _ F) as (m' & P & F'). destruct (IH' _ F') as (m'' & P' & F''). exists m''. split; [exact (perm_trans P P')|exact F''].
Qed.
Lemma whole_sum xs ys : Permutation xs ys -> whole xs -> fold_left fadd xs fzero = fold_left fadd ys fzero.
Proof.
  intros P (zs & F & S). destruct (Forall2_perm _ _ _ P _ F) as (zs' & Pz & F').
  assert (Forall (fun s => Z.abs s <= 2 ^ 53) (partial_sums 0 zs)) as B1 by (apply partial_bound; lia).
  assert (Forall (fun s => Z.abs s <= 2 ^ 53) (partial_sums 0 zs')) as B2
    by (apply partial_bound; rewrite <- (Zsum_perm _ _ (Permutation_map Z.abs Pz)); lia).
  destruct (fold_fadd_int xs zs fzero 0 F fzero_int B1) as [F1 R1]. destruct (fold_fadd_int ys zs' fzero 0 F' fzero_int B2) as [F2 R2].
  assert (U1 := fold_unsigned xs zs fzero 0 F fzero_int B1 (fun _ => eq_refl)).
  assert (U2 := fold_unsigned ys zs' fzero 0 F' fzero_int B2 (fun _ => eq_refl)).
  assert (fR (fold_left fadd xs fzero) = fR (fold_left fadd ys fzero)) as E by (rewrite R1, R2, (Zsum_perm _ _ Pz); reflexivity).
  destruct (Req_dec (fR (fold_left fadd xs fzero)) 0) as [Z|N].
  - apply f64_ext; try assumption. rewrite U1 by exact Z. rewrite U2 by congruence. reflexivity.
  - apply f64_ext_R; assumption.
Qed.
Lemma whole_filter {A} (g : A -> f64) (p : A -> bool) l : whole (map g l) -> whole (map g (filter p l)).
Proof.
  unfold whole. generalize (2 ^ 53) as m. induction l as [|x l IH]; intros m (zs & F & S).
  - exists []. inversion F; subst. split; [constructor|]. exact S.
  - inversion F as [|? z ? zs' Fx F']; subst. cbn [map Zsum fold_right] in S. fold (Zsum (map Z.abs zs')) in S. cbn [filter].
    destruct (p x).
    + destruct (IH (m - Z.abs z)) as (zs'' & G & S'); [exists zs'; split; [exact F'|lia]|]. exists (z :: zs''). split; [constructor; assumption|].
      cbn [map Zsum fold_right]. fold (Zsum (map Z.abs zs'')). lia.
    + destruct (IH m) as (zs'' & G & S'); [exists zs'; split; [exact F'|lia]|]. exists zs''. auto.
Qed.

(** ** The moves of an entry do not depend on the state of the envelope *)
Definition plan (v : envelope) (e : entry) : res (list amount) :=
  if has_envelope_posting e then Ok (posted_to v (e_postings e))
  else if Nat.ltb (count_self v (e_postings e)) 1 || Nat.ltb (count_auto v (e_postings e)) 1 then Ok []
  else
    let zero := mkAmount fzero (symbol (v_amount v)) in
    let! (auto, self) := fold_res (infer_step v e) (e_postings e) (zero, zero) in
    let m := fmin (mag auto) (fabs (mag self)) in
    if negb (feqb m fzero)
    then Ok [mkAmount (if fltb (mag self) fzero then fneg m else m) (symbol (v_amount v))]
    else Ok [].
Definition apply_all (today d : date) (ls : list amount) (v : envelope) : res envelope :=
  fold_res (fun u a => apply_amount today u a d) ls v.
Lemma apply_all_iff today d ls : forall v w, apply_all today d ls v = Ok w <-> moved_all today d v ls w.
Proof.
  unfold apply_all. induction ls as [|a ls IH]; intros v w; cbn [fold_res]; split; intro H.
  - injection H as <-. constructor.
  - inversion H; subst. reflexivity.
  - apply bind_Ok in H as (u & E & H). apply moved_more with u; [apply apply_amount_iff, E|apply IH, H].
  - inversion H as [|? ? u ? ? M R]; subst. rewrite (proj2 (apply_amount_iff _ _ _ _ _) M). cbn [bind]. apply IH, R.
Qed.
Lemma env_process_plan today v e w : env_process today v e = Ok w <->
  exists ls, plan v e = Ok ls /\ apply_all today (e_date e) ls v = Ok w.
Proof.
  destruct (has_envelope_posting e) eqn:M.
  - unfold plan. rewrite M. rewrite (env_process_manual today v e w (proj1 (has_envelope_posting_iff e) M)). split.
    + intro H. eexists. split; [reflexivity|]. apply apply_all_iff, H.
    + intros (ls & E & H). injection E as <-. apply apply_all_iff, H.
  - unfold plan, env_process, infer. rewrite M. destruct (Nat.ltb _ 1 || Nat.ltb _ 1).
    + split; [intro H; exists []; auto|intros (ls & E & H); injection E as <-; exact H].
    + cbv zeta. destruct (fold_res _ _ _) as [[auto self]| | |]; cbn [bind]; try (split; [discriminate|intros (ls & E & _); discriminate]).
      destruct (negb _).
      * split; [intro H; eexists; split; [reflexivity|]; unfold apply_all; cbn [fold_res]; rewrite H; reflexivity|].
        intros (ls & E & H). injection E as <-. unfold apply_all in H. cbn [fold_res] in H.
        destruct (apply_amount _ _ _ _); try discriminate. exact H.
      * split; [intro H; exists []; auto|intros (ls & E & H); injection E as <-; exact H].
Qed.
Lemma plan_same v w e : same_definition v w -> plan w e = plan v e.
Proof.
  intro S. assert (S' := S). destruct S' as (Nm & A & _ & Au & _ & _ & _ & Ac). unfold plan, count_self, count_auto.
  rewrite (posted_to_same v w) by exact S. rewrite A, Au, Ac.
  replace (fold_res (infer_step w e)) with (fold_res (infer_step v e)); [reflexivity|].
  assert (infer_step w e = infer_step v e) as ->; [|reflexivity].
  unfold infer_step, infer_amount. rewrite A, Au, Ac, Nm. reflexivity.
Qed.
Lemma plan_moves v e ls : plan v e = Ok ls -> moves_of v e ls.
Proof.
  intro P. destruct (has_envelope_posting e) eqn:M; unfold plan in P; rewrite M in P.
  - injection P as <-. apply by_hand, has_envelope_posting_iff, M.
  - assert (~ manual e) as N by (intro K; apply has_envelope_posting_iff in K; congruence).
    destruct (Nat.ltb (count_self v (e_postings e)) 1) eqn:CS.
    { injection P as <-. apply not_concerned; [exact N|]. left. intros p I O. apply own_iff in O.
      unfold count_self in CS. rewrite filter_count in CS. rewrite (CS p I) in O. discriminate. }
    destruct (Nat.ltb (count_auto v (e_postings e)) 1) eqn:CA.
    { injection P as <-. apply not_concerned; [exact N|]. right. intros p I O. apply linked_iff in O.
      unfold count_auto in CA. rewrite filter_count in CA. rewrite (CA p I) in O. discriminate. }
    cbn [orb] in P. cbv zeta in P. apply bind_Ok in P as ((auto & self) & Fo & P).
    apply infer_fold in Fo; [|reflexivity..]. cbn [mag] in Fo. destruct Fo as [Sf Ss].
    apply automatic with (mag auto) (mag self); try assumption.
    + unfold count_self in CS. destruct (filter _ (e_postings e)) as [|p r] eqn:X; [discriminate|].
      exists p. assert (In p (p :: r)) as I by (left; reflexivity). rewrite <- X in I. apply filter_In in I as [I K]. split; [exact I|]. apply own_iff, K.
    + unfold count_auto in CA. destruct (filter _ (e_postings e)) as [|p r] eqn:X; [discriminate|].
      exists p. assert (In p (p :: r)) as I by (left; reflexivity). rewrite <- X in I. apply filter_In in I as [I K]. split; [exact I|]. apply linked_iff, K.
    + destruct (feqb _ fzero); cbn [negb] in P; injection P as <-; reflexivity.
Qed.

(** ** When a move succeeds *)
Definition movable (today : date) (v : envelope) (a : amount) : Prop :=
  (negative a -> symbol a = symbol (v_amount v))
  /\ (positive a -> symbol a = symbol (v_amount v) /\ exists o, freq_last today (v_freq v) = Ok o).
Lemma movable_same today v w a : same_definition v w -> movable today v a -> movable today w a.
Proof. intros (_ & A & _ & _ & F & _). unfold movable. rewrite A, F. tauto. Qed.
Lemma moved_movable today v a d w : in_currency v -> moved today v a d w -> movable today v a.
Proof.
  intros [C1 C2] (_ & _ & Q). unfold movable, positive, negative in *. destruct Q as [(N & (A & _) & _)|[(P & (l & F & _) & (A & _) & _)|[(P & Q & (A & _) & _)|(N & P & _)]]].
  - split; [congruence|]. intro P. rewrite (fltb_zero_asym _ N) in P. discriminate.
  - split; [intro N; rewrite (fltb_zero_asym _ N) in P; discriminate|]. split; [congruence|eauto].
  - split; [intro N; rewrite (fltb_zero_asym _ N) in P; discriminate|]. split; [congruence|]. destruct Q as [Q|(l & Q & _)]; eauto.
  - split; intro K; contradiction.
Qed.
Lemma movable_moved today v a d : in_currency v -> movable today v a -> exists w, moved today v a d w.
Proof.
  intros [C1 C2] [N P]. unfold negative, positive in *. assert (exists w, apply_amount today v a d = Ok w) as (w & E); [|exists w; apply apply_amount_iff, E].
  unfold apply_amount. destruct (fltb (mag a) fzero).
  - rewrite (proj1 (amount_add_spec _ _)) by (rewrite N by reflexivity; exact C2). cbn [bind]. eauto.
  - destruct (fltb fzero (mag a)); [|cbn [bind]; eauto]. destruct (P eq_refl) as (Sy & o & F). rewrite F. cbn [bind].
    destruct o as [l|]; [destruct (date_ltb d l)|];
      rewrite (proj1 (amount_add_spec _ _)) by congruence; cbn [bind]; eauto.
Qed.

(** A history as a list of moves. *)
Inductive walked (today : date) : envelope -> list (date * amount) -> envelope -> Prop :=
  | walked_end v : walked today v [] v
  | walked_on v d a u h w : moved today v a d u -> walked today u h w -> walked today v ((d, a) :: h) w.
Lemma walked_app today v h u h' w : walked today v h u -> walked today u h' w -> walked today v (h ++ h') w.
Proof. induction 1 as [|v d a u h x M _ IH]; intro W; [exact W|]. cbn [app]. apply walked_on with u; [exact M|apply IH, W]. Qed.
Lemma walked_app_inv today h h' : forall v w, walked today v (h ++ h') w -> exists u, walked today v h u /\ walked today u h' w.
Proof.
  induction h as [|[d a] h IH]; intros v w W; [exists v; split; [constructor|exact W]|]. cbn [app] in W. inversion W as [|? ? ? u ? ? M W']; subst.
  destruct (IH _ _ W') as (x & A & C). exists x. split; [apply walked_on with u; assumption|exact C].
Qed.
Lemma moved_all_walked today d v ls w : moved_all today d v ls w <-> walked today v (map (pair d) ls) w.
Proof.
  split.
  - induction 1 as [v|v a u ls w M _ IH]; [constructor|]. cbn [map]. apply walked_on with u; assumption.
  - revert v. induction ls as [|a ls IH]; intros v W; cbn [map] in W; inversion W as [|? ? ? u ? ? M W']; subst; [constructor|].
    apply moved_more with u; [exact M|apply IH, W'].
Qed.
Lemma walked_same today v h w : walked today v h w -> same_definition v w.
Proof. induction 1 as [v|v d a u h w M _ IH]; [apply same_definition_refl|]. exact (same_definition_trans _ _ _ (moved_same _ _ _ _ _ M) IH). Qed.
Lemma walked_currency today v h w : walked today v h w -> in_currency v -> in_currency w.
Proof. induction 1 as [v|v d a u h w M _ IH]; [tauto|]. intro I. exact (IH (moved_currency _ _ _ _ _ M I)). Qed.
Lemma walked_movable today h : forall v, in_currency v ->
  ((exists w, walked today v h w) <-> Forall (fun x => movable today v (snd x)) h).
Proof.
  induction h as [|[d a] h IH]; intros v C; split; intro H.
  - constructor.
  - exists v. constructor.
  - destruct H as (w & W). inversion W as [|? ? ? u ? ? M W']; subst. assert (S := moved_same _ _ _ _ _ M). constructor.
    + exact (moved_movable _ _ _ _ _ C M).
    + apply (Forall_impl (P := fun x => movable today u (snd x))).
      * intros x K. destruct S as (? & ? & ? & ? & ? & ? & ? & ?). apply (movable_same today u v); [repeat split; congruence|exact K].
      * apply IH; [exact (moved_currency _ _ _ _ _ M C)|eauto].
  - inversion H as [|? ? Ma F]; subst. destruct (movable_moved today v a d C Ma) as (u & M). assert (S := moved_same _ _ _ _ _ M).
    destruct (proj2 (IH u (moved_currency _ _ _ _ _ M C))) as (w & W).
    + revert F. apply Forall_impl. intros x K. apply (movable_same today v u); assumption.
    + exists w. apply walked_on with u; assumption.
Qed.

(** The plans of all entries, with dates. *)
Definition plans (v : envelope) (es : list entry) (h : list (date * amount)) : Prop :=
  exists lss, Forall2 (fun e ls => plan v e = Ok ls) es lss
    /\ h = List.concat (map (fun x => map (pair (e_date (fst x))) (snd x)) (combine es lss)).
Lemma plans_nil v : plans v [] [].
Proof. exists []. split; [constructor|reflexivity]. Qed.
Lemma plans_cons v e es h : plans v (e :: es) h <-> exists ls h', plan v e = Ok ls /\ plans v es h' /\ h = map (pair (e_date e)) ls ++ h'.
Proof.
  split.
  - intros (lss & F & ->). inversion F as [|? ls ? lss' E F']; subst. exists ls. eexists. split; [exact E|]. split; [exists lss'; split; [exact F'|reflexivity]|reflexivity].
  - intros (ls & h' & E & (lss & F & ->) & ->). exists (ls :: lss). split; [constructor; assumption|reflexivity].
Qed.
Lemma plans_same v w es h : same_definition v w -> plans v es h -> plans w es h.
Proof.
  intros S (lss & F & E). exists lss. split; [|exact E]. clear E. induction F as [|e ls es lss P _ IH]; constructor; [|exact IH].
  rewrite (plan_same v w e S). exact P.
Qed.
Lemma plans_perm v es es' : Permutation es es' -> forall h, plans v es h -> exists h', Permutation h h' /\ plans v es' h'.
Proof.
  induction 1 as [|e es es' _ IH|e f es|es es' es'' _ IH _ IH']; intros h P.
  - exists h. split; [apply Permutation_refl|exact P].
  - apply plans_cons in P as (ls & h1 & E & P & ->). destruct (IH _ P) as (h' & Pe & P'). exists (map (pair (e_date e)) ls ++ h').
    split; [apply Permutation_app_head, Pe|]. apply plans_cons. eauto.
  - apply plans_cons in P as (ls & h1 & E & P & ->). apply plans_cons in P as (ls' & h2 & E' & P & ->).
    exists (map (pair (e_date e)) ls' ++ map (pair (e_date f)) ls ++ h2). split; [|apply plans_cons; exists ls'; eexists; split; [exact E'|]; split; [apply plans_cons; eauto|reflexivity]].
    rewrite !app_assoc. apply Permutation_app_tail, Permutation_app_comm.
  - destruct (IH _ P) as (h' & A & P'). destruct (IH' _ P') as (h'' & A' & P''). exists h''. split; [exact (perm_trans A A')|exact P''].
Qed.
Lemma plans_moves v es h : plans v es h -> moves_of_all v es h.
Proof.
  revert h. induction es as [|e es IH]; intros h P.
  - destruct P as (lss & F & ->). inversion F; subst. constructor.
  - apply plans_cons in P as (ls & h' & E & P & ->). constructor; [apply plan_moves, E|apply IH, P].
Qed.
Lemma history_walked today es : forall v w, fold_res (env_process today) es v = Ok w <->
  exists h, plans v es h /\ walked today v h w.
Proof.
  induction es as [|e es IH]; intros v w; cbn [fold_res]; split.
  - intro H. injection H as <-. exists []. split; [apply plans_nil|constructor].
  - intros (h & (lss & F & ->) & W). inversion F; subst. inversion W; subst. reflexivity.
  - intro H. apply bind_Ok in H as (u & E & H). assert (S := proj1 (env_process_inv _ _ _ _ E)).
    apply env_process_plan in E as (ls & P & A). apply apply_all_iff, moved_all_walked in A.
    apply IH in H as (h & P' & W). exists (map (pair (e_date e)) ls ++ h). split; [|exact (walked_app _ _ _ _ _ _ A W)].
    apply plans_cons. exists ls, h. split; [exact P|]. split; [|reflexivity].
    destruct S as (? & ? & ? & ? & ? & ? & ? & ?). apply (plans_same u v); [repeat split; congruence|exact P'].
  - intros (h & P & W). apply plans_cons in P as (ls & h' & E & P & ->). apply walked_app_inv in W as (u & W1 & W2).
    assert (S := walked_same _ _ _ _ W1). apply moved_all_walked, apply_all_iff in W1.
    rewrite (proj2 (env_process_plan today v e u)) by eauto. cbn [bind]. apply IH. exists h'. split; [exact (plans_same v u _ _ S P)|exact W2].
Qed.

(** ** What is in an envelope *)
Definition to_now (l : option date) (x : date * amount) : bool :=
  fltb (mag (snd x)) fzero
  || (fltb fzero (mag (snd x)) && match l with Some d => date_ltb (fst x) d | None => false end).
Definition to_next (l : option date) (x : date * amount) : bool :=
  fltb fzero (mag (snd x)) && negb match l with Some d => date_ltb (fst x) d | None => false end.
Definition sum_of (p : date * amount -> bool) (h : list (date * amount)) (x : f64) : f64 :=
  fold_left fadd (map (fun x => mag (snd x)) (filter p h)) x.
Lemma walked_sums today l v h w : walked today v h w -> freq_last today (v_freq v) = Ok l ->
  mag (v_now w) = sum_of (to_now l) h (mag (v_now v)) /\ mag (v_next w) = sum_of (to_next l) h (mag (v_next v)).
Proof.
  induction 1 as [v|v d a u h w M _ IH]; intro F; [split; reflexivity|].
  destruct IH as [A C]; [rewrite (same_freq _ _ (moved_same _ _ _ _ _ M)); exact F|]. rewrite A, C. unfold sum_of. cbn [filter].
  assert (apply_amount today v a d = Ok u) as E by (apply apply_amount_iff, M). unfold apply_amount in E.
  unfold to_now at 2, to_next at 2. cbn [fst snd].
  destruct (fltb (mag a) fzero) eqn:Neg.
  - rewrite (fltb_zero_asym _ Neg). cbn [orb andb map fold_left snd]. apply bind_Ok in E as (x & E & K). injection K as <-.
    apply bind_Ok in E as (n & E & K). injection K as <-. apply added_iff in E as (_ & ->). split; reflexivity.
  - cbn [orb]. destruct (fltb fzero (mag a)) eqn:Pos; cbn [andb].
    + rewrite F in E. cbn [bind] in E. destruct l as [l|]; [destruct (date_ltb d l)|]; cbn [negb map fold_left snd];
        apply bind_Ok in E as (x & E & K); injection K as <-;
        apply bind_Ok in E as (n & E & K); injection K as <-; apply added_iff in E as (_ & ->); split; reflexivity.
    + cbn [bind] in E. injection E as <-. split; reflexivity.
Qed.
Lemma whole_sum_of p h h' : Permutation h h' -> whole (map (fun x => mag (snd x)) h) -> sum_of p h fzero = sum_of p h' fzero.
Proof.
  intros P W. unfold sum_of. apply whole_sum; [apply Permutation_map|apply whole_filter, W].
  clear W. induction P as [|x l l' _ IH|x y l|l l' l'' _ IH _ IH']; cbn [filter].
  - constructor.
  - destruct (p x); [constructor; exact IH|exact IH].
  - destruct (p x), (p y); try apply Permutation_refl. apply perm_swap.
  - exact (perm_trans IH IH').
Qed.
(** Nothing is ever put into an envelope whose last due date cannot be found. *)
Lemma walked_stuck today v h w : walked today v h w -> (forall l, freq_last today (v_freq v) <> Ok l) ->
  mag (v_now w) = sum_of (fun x => fltb (mag (snd x)) fzero) h (mag (v_now v)) /\ v_next w = v_next v.
Proof.
  induction 1 as [v|v d a u h w M _ IH]; intro F; [split; reflexivity|].
  destruct IH as [A C]; [rewrite (same_freq _ _ (moved_same _ _ _ _ _ M)); exact F|]. rewrite A, C. unfold sum_of. cbn [filter snd].
  destruct M as (_ & _ & [(N & (_ & An) & En)|[(P & (l & K & _) & _)|[(P & [K|(l & K & _)] & _)|(N & P & En & Ex)]]]);
    try (exfalso; exact (F _ K)).
  - unfold negative in N. rewrite N, En, An. split; reflexivity.
  - unfold negative in N. apply not_true_is_false in N. rewrite N, En, Ex. split; reflexivity.
Qed.
Lemma same_sym v w : same_definition v w -> same_definition w v.
Proof. intros (? & ? & ? & ? & ? & ? & ? & ?). repeat split; congruence. Qed.

(** ** One envelope *)
Lemma moves_fun v es h : moves_of_all v es h -> forall h', plans v es h' -> h' = h.
Proof.
  intros M h' P. apply plans_moves in P. revert h' P. induction M as [|e es l h Me _ IH]; intros h' P; inversion P as [|? ? l' h'' Me' P']; subst; [reflexivity|].
  rewrite (IH _ P'). f_equal. f_equal. clear - Me Me'. destruct Me as [M|M C|f s l0 M O L F G E]; destruct Me' as [M'|M' C'|f' s' l1 M' O' L' F' G' E']; try contradiction; try reflexivity.
  - exfalso. destruct O' as (p & I & K), L' as (q & J & Q). destruct C as [C|C]; [exact (C p I K)|exact (C q J Q)].
  - exfalso. destruct O as (p & I & K), L as (q & J & Q). destruct C' as [C|C]; [exact (C p I K)|exact (C q J Q)].
  - rewrite (sums_unique _ _ _ _ _ _ _ F' F) in E'. rewrite (sums_unique _ _ _ _ _ _ _ G' G) in E'. congruence.
Qed.
Lemma plans_whole v es h : plans v es h -> whole_moves v es -> whole (map (fun x => mag (snd x)) h).
Proof. intros P (h' & M & W). rewrite (moves_fun v es h' M h P). exact W. Qed.
Lemma envelope_order today v es es' w : in_currency v -> empty v -> Permutation es es' ->
  fold_res (env_process today) es v = Ok w ->
  exists w', fold_res (env_process today) es' v = Ok w'
    /\ same_definition w w' /\ (whole_moves w es -> v_now w' = v_now w /\ v_next w' = v_next w).
Proof.
  intros C [En Ex] Pe H. apply history_walked in H as (h & P & W). destruct (plans_perm _ _ _ Pe _ P) as (h' & Ph & P').
  assert (Forall (fun x => movable today v (snd x)) h') as F.
  { rewrite Forall_forall. intros x I. assert (Forall (fun x => movable today v (snd x)) h) as K by (apply walked_movable; eauto).
    rewrite Forall_forall in K. apply K. apply (Permutation_in _ (Permutation_sym Ph)), I. }
  apply walked_movable in F as (w' & W'); [|exact C]. exists w'.
  assert (S := walked_same _ _ _ _ W). assert (S' := walked_same _ _ _ _ W').
  split; [apply history_walked; eauto|]. split; [exact (same_definition_trans _ _ _ (same_sym _ _ S) S')|].
  intro Wh. apply (plans_whole w es h) in Wh; [|exact (plans_same v w _ _ S P)].
  destruct (walked_currency _ _ _ _ W C) as [C1 C2]. destruct (walked_currency _ _ _ _ W' C) as [C1' C2'].
  assert (v_amount w = v_amount v /\ v_amount w' = v_amount v) as [A A'] by (split; [apply S|apply S']).
  assert (mag (v_now w') = mag (v_now w) /\ mag (v_next w') = mag (v_next w)) as [M1 M2].
  { destruct (freq_last today (v_freq v)) as [l| | |] eqn:Fr;
      [|destruct (walked_stuck _ _ _ _ W) as [X Y]; [congruence|]; destruct (walked_stuck _ _ _ _ W') as [X' Y']; [congruence|];
        rewrite X, X', Y, Y', En; split; [symmetry; apply whole_sum_of; assumption|reflexivity]..].
    destruct (walked_sums _ _ _ _ _ W Fr) as [X Y]. destruct (walked_sums _ _ _ _ _ W' Fr) as [X' Y'].
    rewrite X, X', Y, Y', En, Ex. split; symmetry; apply whole_sum_of; assumption. }
  destruct (v_now w), (v_next w), (v_now w'), (v_next w'). cbn in *. split; congruence.
Qed.

(** ** The real value *)
Lemma real_steps_iff name e ps : forall r r', (forall p, In p ps -> In p (e_postings e)) ->
  (fold_res (real_step name e) ps r = Ok r' <->
   exists xs, worths (filter (to_classic name) (map (pair e) ps)) xs /\ r' = fold_left pool_add xs r).
Proof.
  intros r r' I. split; [apply real_steps, I|]. revert r r'. induction ps as [|p ps IH]; intros r r' (xs & W & E).
  - cbn in W. inversion W; subst. reflexivity.
  - cbn [fold_res]. cbn [map filter] in W. unfold real_step at 1.
    assert (to_classic name (e, p) = str_eqb (get_account p) name && negb (is_envelope p)) as T.
    { unfold to_classic. cbn [snd]. destruct p as [c|ep]; cbn [get_account is_envelope].
      - destruct (str_eqb_spec (c_account c) name), (str_dec (c_account c) name); try congruence; reflexivity.
      - rewrite andb_false_r. reflexivity. }
    rewrite T in W. assert (forall q, In q ps -> In q (e_postings e)) as I' by (intros; apply I; right; auto).
    destruct (_ && _); [|cbn [bind]; apply (IH I'); eauto].
    inversion W as [|? x ? xs' Wx W']; subst. cbn [fst snd] in Wx. destruct Wx as [Wx|[Wx Bl]]; rewrite Wx.
    + cbn [bind]. apply (IH I'). eauto.
    + rewrite Bl. cbn [bind]. apply (IH I'). eauto.
Qed.
Definition real_fold (name : str) (es : list entry) (r : pool) : res pool :=
  fold_res (fun r e => fold_res (real_step name e) (e_postings e) r) es r.
Lemma real_fold_iff name es : forall r r', real_fold name es r = Ok r' <->
  exists xs, worths (filter (to_classic name) (postings es)) xs /\ r' = fold_left pool_add xs r.
Proof.
  unfold real_fold. induction es as [|e es IH]; intros r r'; cbn [fold_res]; split.
  - intro H. injection H as <-. exists []. split; [constructor|reflexivity].
  - intros (xs & W & ->). inversion W; subst. reflexivity.
  - intro H. apply bind_Ok in H as (u & E & H). apply real_steps_iff in E as (xs & W & ->); [|auto]. apply IH in H as (ys & W' & ->).
    exists (xs ++ ys). cbn [postings flat_map]. rewrite filter_app. split; [apply Forall2_app; assumption|]. rewrite fold_left_app. reflexivity.
  - intros (xs & W & ->). cbn [postings flat_map] in W. rewrite filter_app in W. apply Forall2_app_inv_l in W as (x1 & x2 & W1 & W2 & ->).
    rewrite (proj2 (real_steps_iff name e (e_postings e) r (fold_left pool_add x1 r) (fun _ i => i))) by eauto. cbn [bind].
    apply IH. exists x2. split; [exact W2|]. apply fold_left_app.
Qed.
Lemma postings_perm es es' : Permutation es es' -> Permutation (postings es) (postings es').
Proof. intro P. unfold postings. apply Permutation_flat_map, P. Qed.
Lemma filter_perm {A} (p : A -> bool) l l' : Permutation l l' -> Permutation (filter p l) (filter p l').
Proof.
  induction 1 as [|x l l' _ IH|x y l|l l' l'' _ IH _ IH']; cbn [filter].
  - constructor.
  - destruct (p x); [constructor; exact IH|exact IH].
  - destruct (p x), (p y); try apply Permutation_refl. apply perm_swap.
  - exact (perm_trans IH IH').
Qed.
Lemma contributions_filter sym xs :
  contributions sym (map PAdd xs) = map mag (filter (fun a => if sym_dec (symbol a) sym then true else false) xs).
Proof.
  induction xs as [|a xs IH]; [reflexivity|]. unfold contributions in *. cbn [map flat_map contribution filter]. rewrite IH.
  destruct (sym_dec (symbol a) sym); reflexivity.
Qed.
Lemma real_order name es es' r : Permutation es es' -> real_fold name es [] = Ok r ->
  exists r', real_fold name es' [] = Ok r'
    /\ forall sym, whole_postings name sym es ->
         exists n, f64_is (mag (pool_only r sym)) (IZR n) /\ f64_is (mag (pool_only r' sym)) (IZR n).
Proof.
  intros P H. apply real_fold_iff in H as (xs & W & ->).
  destruct (Forall2_perm _ _ _ (filter_perm (to_classic name) _ _ (postings_perm _ _ P)) _ W) as (ys & Pa & W').
  exists (fold_left pool_add ys []). split; [apply real_fold_iff; eauto|].
  intros sym (xs' & V & Wh). rewrite (worths_unique _ _ _ V W) in Wh.
  assert (P2 := Permutation_map mag (filter_perm (fun a => if sym_dec (symbol a) sym then true else false) _ _ Pa)).
  rewrite <- !sum_up_fold. unfold sum_up. rewrite !pool_only_mag, !contributions_filter.
  destruct Wh as (zs & F & S). destruct (Forall2_perm _ _ _ P2 _ F) as (zs' & Pz & F'). exists (Zsum zs). split.
  - apply left_sum_int; [exact F|]. apply partial_bound. cbn. lia.
  - rewrite (Zsum_perm _ _ Pz). apply left_sum_int; [exact F'|]. apply partial_bound. rewrite <- (Zsum_perm _ _ (Permutation_map Z.abs Pz)). cbn. lia.
Qed.

(** ** Accounts *)
Lemma acc_fold_iff today es : forall a b, fold_res (acc_process today) es a = Ok b <->
  a_name b = a_name a
  /\ Forall2 (fun v w => fold_res (env_process today) es v = Ok w) (a_expenses a) (a_expenses b)
  /\ Forall2 (fun v w => fold_res (env_process today) es v = Ok w) (a_goals a) (a_goals b)
  /\ real_fold (a_name a) es (a_real a) = Ok (a_real b).
Proof.
  assert (forall vs : list envelope, Forall2 (fun v w => Ok v = Ok w) vs vs) as Rf by (induction vs; constructor; auto).
  assert (forall vs ws : list envelope, Forall2 (fun v w => Ok v = Ok w) vs ws -> ws = vs) as Un.
  { induction 1 as [|v w vs ws E _ IH]; [reflexivity|]. injection E as ->. rewrite IH. reflexivity. }
  assert (forall e es vs ws, Forall2 (fun v w => fold_res (env_process today) (e :: es) v = Ok w) vs ws <->
    exists us, Forall2 (fun v u => env_process today v e = Ok u) vs us /\ Forall2 (fun v w => fold_res (env_process today) es v = Ok w) us ws) as St.
  { intros e es0 vs. induction vs as [|v vs IH]; intro ws; split.
    - intro H. inversion H; subst. exists []. split; constructor.
    - intros (us & F & G). inversion F; subst. inversion G; subst. constructor.
    - intro H. inversion H as [|? w ? ws' Hv H']; subst. cbn [fold_res] in Hv. apply bind_Ok in Hv as (u & E & Hu).
      apply IH in H' as (us & F & G). exists (u :: us). split; constructor; assumption.
    - intros (us & F & G). inversion F as [|? u ? us' Hu F']; subst. inversion G as [|? w ? ws' Hw G']; subst.
      constructor; [cbn [fold_res]; rewrite Hu; exact Hw|apply IH; eauto]. }
  induction es as [|e es IH]; intros a b.
  - split.
    + intro H. injection H as <-. repeat split; try apply Rf.
    + intros (N & E & G & R). cbn [fold_res] in *. apply Un in E, G. unfold real_fold in R. injection R as R.
      destruct a, b. cbn in *. congruence.
  - rewrite !St. cbn [fold_res]. split.
    + intro H. apply bind_Ok in H as (c & E & H). apply IH in H as (N & Ex & Go & Re).
      unfold acc_process in E. apply bind_Ok in E as (ex & E1 & E). apply bind_Ok in E as (go & E2 & E).
      apply bind_Ok in E as (r & E3 & E). injection E as <-. cbn [a_name a_expenses a_goals a_real] in *.
      apply map_res_Ok in E1, E2. split; [exact N|]. split; [eauto|]. split; [eauto|].
      unfold real_fold. cbn [fold_res]. rewrite E3. exact Re.
    + intros (N & (ex & E1 & Ex) & (go & E2 & Go) & Re). unfold real_fold in Re. cbn [fold_res] in Re. apply bind_Ok in Re as (r & E3 & Re).
      unfold acc_process at 1. rewrite (proj2 (map_res_Ok _ _ _) E1). cbn [bind]. rewrite (proj2 (map_res_Ok _ _ _) E2). cbn [bind].
      rewrite E3. cbn [bind]. apply IH. cbn [a_name a_expenses a_goals a_real]. auto.
Qed.
Definition starting (a : account) : Prop :=
  (forall v, In v (all_envelopes a) -> in_currency v /\ empty v) /\ a_real a = [].
Lemma parsed_starting chunk dsym fmt a : parse_account chunk dsym fmt = Ok a -> starting a.
Proof.
  intro H. split; [|exact (fresh_real _ _ _ _ H)]. intros v I. split; [|exact (parsed_empty _ _ _ _ _ H I)].
  assert (G : grown (mkDate 2000 1 1 eq_refl) a) by (eapply grown_parsed, H). destruct (grown_sound _ _ G) as (Fr & _). apply Fr, I.
Qed.
Lemma account_order today es es' a b : starting a -> Permutation es es' -> fold_res (acc_process today) es a = Ok b ->
  exists b', fold_res (acc_process today) es' a = Ok b' /\ same_money es b b'.
Proof.
  intros [St Re] P H. apply acc_fold_iff in H as (N & Ex & Go & R). rewrite Re in R.
  assert (forall vs ws, (forall v, In v vs -> In v (all_envelopes a)) -> Forall2 (fun v w => fold_res (env_process today) es v = Ok w) vs ws ->
    exists ws', Forall2 (fun v w => fold_res (env_process today) es' v = Ok w) vs ws'
      /\ Forall2 (fun v w => same_definition v w /\ (whole_moves v es -> v_now w = v_now v /\ v_next w = v_next v)) ws ws') as K.
  { intros vs ws I F. induction F as [|v w vs ws E F IH]; [exists []; split; constructor|].
    destruct IH as (ws' & F1 & F2); [intros; apply I; right; assumption|]. destruct (St v (I v (or_introl eq_refl))) as [C Em].
    destruct (envelope_order today v es es' w C Em P E) as (w' & E' & S & M). exists (w' :: ws'). split; constructor; auto. }
  destruct (K _ _ (fun v i => in_or_app _ _ _ (or_introl i)) Ex) as (ex' & Ex' & Mx).
  destruct (K _ _ (fun v i => in_or_app _ _ _ (or_intror i)) Go) as (go' & Go' & Mg).
  destruct (real_order _ _ _ _ P R) as (r' & R' & V).
  exists (mkAccount (a_name a) ex' go' r'). split.
  - apply acc_fold_iff. cbn [a_name a_expenses a_goals a_real]. rewrite Re. auto.
  - split; [symmetry; exact N|]. split; [unfold all_envelopes; cbn [a_expenses a_goals]; apply Forall2_app; assumption|].
    cbn [a_real]. rewrite N. exact V.
Qed.
