(** Property C127: entries with all signs turned. *)
From Coq Require Import ZArith NArith List Bool String Lia Reals Floats.SpecFloat.
From Verif Require Import Base Str F64 Date World Amount Posting Entry Envelope Account Register Ledger
  SpecAmount SpecDate SpecEntry SpecEnvelope SpecLedger SpecConserve SpecTurn StrFacts F64Facts AmountFacts LedgerFacts PropertiesLedger PropertiesCli.
Import ListNotations.
Local Open Scope Z_scope.
Local Notation turned := SpecTurn.turned.

(** ** Numbers *)
Lemma valid_opp s : valid_binary prec emax (SFopp s) = valid_binary prec emax s.
Proof. destruct s; reflexivity. Qed.
Lemma sf_inj x y : sf x = sf y -> x = y.
Proof. destruct x as [s H], y as [t K]. cbn. intros <-. f_equal. apply Eqdep_dec.UIP_dec, bool_dec. Qed.
Lemma fmk_valid s : valid_binary prec emax s = true -> sf (fmk s) = s.
Proof. intro H. unfold fmk. destruct (bool_dec _ true) as [K|K]; [reflexivity|contradiction]. Qed.
Lemma sf_neg x : sf (fneg x) = SFopp (sf x).
Proof. unfold fneg. apply fmk_valid. rewrite valid_opp. apply sf_ok. Qed.
Lemma fmk_opp s : fmk (SFopp s) = fneg (fmk s).
Proof.
  apply sf_inj. rewrite sf_neg. unfold fmk. destruct (bool_dec (valid_binary prec emax (SFopp s)) true) as [K|K], (bool_dec (valid_binary prec emax s) true) as [L|L];
    try reflexivity; exfalso; pose proof (valid_opp s); congruence.
Qed.
Definition zero_sf (s : spec_float) : Prop := exists b, s = S754_zero b.
Definition opp_sf (s t : spec_float) : Prop := t = SFopp s \/ zero_sf s /\ zero_sf t.
Lemma opposed_sf x y : opposed x y <-> opp_sf (sf x) (sf y).
Proof.
  unfold opposed, opp_sf. split; (intros [H|H]; [left|right; exact H]).
  - rewrite H. apply sf_neg.
  - apply sf_inj. rewrite sf_neg. exact H.
Qed.
Lemma opp_fmk s t : opp_sf s t -> opposed (fmk s) (fmk t).
Proof. intros [->|((b & ->) & (b' & ->))]; [left; apply fmk_opp|]. right. split; eexists; apply fmk_valid; reflexivity. Qed.
Lemma round_aux_opp s m e l : SpecFloat.binary_round_aux prec emax (negb s) m e l = SFopp (SpecFloat.binary_round_aux prec emax s m e l).
Proof.
  unfold SpecFloat.binary_round_aux. destruct (shr_fexp prec emax m e l) as [r e']. destruct (shr_fexp prec emax _ e' loc_Exact) as [r' e''].
  destruct (shr_m r'); try reflexivity. destruct (_ <=? _); reflexivity.
Qed.
Lemma round_opp s m e : SpecFloat.binary_round prec emax (negb s) m e = SFopp (SpecFloat.binary_round prec emax s m e).
Proof. unfold SpecFloat.binary_round. destruct (shl_align _ _ _). apply round_aux_opp. Qed.
Lemma normalize_opp m e : opp_sf (SpecFloat.binary_normalize prec emax m e false) (SpecFloat.binary_normalize prec emax (- m) e false).
Proof.
  destruct m as [|m|m]; [right; split; exists false; reflexivity|left; apply (round_opp false)|left; apply (round_opp true)].
Qed.
Lemma cond_negb s z : cond_Zopp (negb s) z = - cond_Zopp s z.
Proof. destruct s; cbn; lia. Qed.
Ltac zeros := right; split; eexists; reflexivity.
Lemma sf_add s s' t t' : opp_sf s s' -> opp_sf t t' -> opp_sf (SFadd prec emax s t) (SFadd prec emax s' t').
Proof.
  intros [->|((b & ->) & (b' & ->))] [->|((c & ->) & (c' & ->))].
  - destruct s as [x|x| |x m e], t as [y|y| |y n f]; try (left; reflexivity); try (destruct x, y; (left; reflexivity) || zeros).
    cbn [SFopp SFadd]. rewrite !cond_negb, <- Z.opp_add_distr. apply normalize_opp.
  - destruct s as [x|x| |x m e]; try (left; reflexivity). cbn. destruct (Bool.eqb _ _), (Bool.eqb _ _); zeros.
  - destruct t as [x|x| |x m e]; try (left; reflexivity). cbn. destruct (Bool.eqb _ _), (Bool.eqb _ _); zeros.
  - cbn. destruct (Bool.eqb _ _), (Bool.eqb _ _); zeros.
Qed.
Lemma sf_sub s s' t t' : opp_sf s s' -> opp_sf t t' -> opp_sf (SFsub prec emax s t) (SFsub prec emax s' t').
Proof.
  intros [->|((b & ->) & (b' & ->))] [->|((c & ->) & (c' & ->))].
  - destruct s as [x|x| |x m e], t as [y|y| |y n f]; try (left; reflexivity); try (destruct x, y; (left; reflexivity) || zeros).
    cbn [SFopp SFsub]. rewrite !cond_negb.
    match goal with |- opp_sf (SpecFloat.binary_normalize _ _ (?u - ?v) _ _) _ => replace (- u - - v) with (- (u - v)) by lia end. apply normalize_opp.
  - destruct s as [x|x| |x m e]; try (left; reflexivity). cbn. destruct (Bool.eqb _ _), (Bool.eqb _ _); zeros.
  - destruct t as [x|x| |x m e]; try (left; reflexivity). cbn. destruct (Bool.eqb _ _), (Bool.eqb _ _); zeros.
  - cbn. destruct (Bool.eqb _ _), (Bool.eqb _ _); zeros.
Qed.
Lemma opposed_add x x' y y' : opposed x x' -> opposed y y' -> opposed (fadd x y) (fadd x' y').
Proof. rewrite !opposed_sf. intros H K. rewrite <- opposed_sf. apply opp_fmk, sf_add; assumption. Qed.
Lemma opposed_sub x x' y y' : opposed x x' -> opposed y y' -> opposed (fsub x y) (fsub x' y').
Proof. rewrite !opposed_sf. intros H K. rewrite <- opposed_sf. apply opp_fmk, sf_sub; assumption. Qed.
Lemma opposed_neg x y : opposed x y -> opposed (fneg x) (fneg y).
Proof.
  intros [->|((b & H) & (b' & H'))]; [left; reflexivity|]. right. split; [exists (negb b)|exists (negb b')]; rewrite sf_neg; [rewrite H|rewrite H']; reflexivity.
Qed.
Lemma opposed_mul x x' y : opposed x x' -> opposed (fmul x y) (fmul x' y).
Proof.
  rewrite !opposed_sf. intro H. rewrite <- opposed_sf. apply opp_fmk. destruct H as [->|((b & ->) & (b' & ->))].
  - destruct (sf x) as [b|b| |b m e], (sf y) as [c|c| |c n f]; try (left; reflexivity); left; cbn [SFopp SFmul]; rewrite ?negb_xorb_l; try reflexivity.
    rewrite <- negb_xorb_l. apply round_aux_opp.
  - destruct (sf y); try zeros; left; reflexivity.
Qed.
Lemma opposed_zero : opposed fzero fzero.
Proof. right. split; exists false; reflexivity. Qed.
Lemma opposed_sym x y : opposed x y -> opposed y x.
Proof.
  rewrite !opposed_sf. intros [->|[H K]]; [|right; split; assumption]. left. destruct (sf x) as [b|b| |b m e]; cbn; rewrite ?negb_involutive; reflexivity.
Qed.
Lemma opposed_pos x y : opposed x y -> fltb fzero x = fltb y fzero.
Proof.
  rewrite opposed_sf. unfold fltb. intros [->|((b & ->) & (b' & ->))]; [|reflexivity]. destruct (sf x) as [b|b| |b m e]; try reflexivity; destruct b; reflexivity.
Qed.
Lemma opposed_iszero x y : opposed x y -> feqb x fzero = feqb y fzero.
Proof.
  rewrite opposed_sf. unfold feqb. intros [->|((b & ->) & (b' & ->))]; [|reflexivity]. destruct (sf x) as [b|b| |b m e]; try reflexivity; destruct b; reflexivity.
Qed.

(** ** Outcomes *)
Lemma matched_bind {A B C D} (R : A -> B -> Prop) (Q : C -> D -> Prop) r r' k k' : matched R r r' ->
  (forall a b, R a b -> matched Q (k a) (k' b)) -> matched Q (bind r k) (bind r' k').
Proof. destruct r, r'; cbn; try contradiction; trivial. intros H K. apply K, H. Qed.
Lemma matched_fold {A B C D} (P : A -> B -> Prop) (R : C -> D -> Prop) s s' :
  (forall c d a b, R c d -> P a b -> matched R (s c a) (s' d b)) ->
  forall l l', Forall2 P l l' -> forall c d, R c d -> matched R (fold_res s l c) (fold_res s' l' d).
Proof.
  intro H. induction 1 as [|a b l l' E _ IH]; intros c d Rc; [exact Rc|]. cbn [fold_res]. eapply matched_bind; [apply H; eassumption|exact IH].
Qed.

(** ** Amounts *)
Lemma turned_neg a b : turned a b -> turned (amount_neg a) (amount_neg b).
Proof. intros [S O]. split; [exact S|]. cbn. apply opposed_neg, O. Qed.
Lemma turned_sub_assign a a' b b' : turned a a' -> turned b b' -> matched turned (amount_sub_assign a b) (amount_sub_assign a' b').
Proof.
  intros [S O] [T Q]. unfold amount_sub_assign. rewrite S, T. destruct (ostr_eqb _ _); [|exact Logic.I]. split; [reflexivity|]. cbn. apply opposed_sub; assumption.
Qed.
Lemma turned_update s f g a b : (forall x y, opposed x y -> opposed (f x) (g y)) -> turned a b ->
  forall p q, turned_pool p q -> turned_pool (pool_update s f a p) (pool_update s g b q).
Proof.
  intros F T. induction 1 as [|x y p q [S O] H IH]; [constructor; [exact T|constructor]|]. cbn [pool_update]. rewrite S.
  destruct (ostr_eqb _ _); constructor; try assumption; split; [reflexivity|cbn; apply F, O|exact S|exact O].
Qed.
Lemma turned_add p q a b : turned_pool p q -> turned a b -> turned_pool (pool_add p a) (pool_add q b).
Proof.
  intros H T. unfold pool_add. rewrite (proj1 T). apply turned_update; [|exact T|exact H]. intros x y O. apply opposed_add; [exact O|apply T].
Qed.
Lemma turned_is_zero p q : turned_pool p q -> pool_is_zero q = pool_is_zero p.
Proof. induction 1 as [|x y p q [_ O] _ IH]; [reflexivity|]. cbn. unfold pool_is_zero in IH. rewrite IH, (opposed_iszero _ _ O). reflexivity. Qed.

(** ** Entries *)
Lemma turned_amount p q : turned_posting p q -> maybe turned (get_amount p) (get_amount q).
Proof. destruct 1; cbn; [assumption|constructor; assumption]. Qed.
Lemma turned_account p q : turned_posting p q -> get_account q = get_account p.
Proof. destruct 1; reflexivity. Qed.
Lemma turned_kind p q : turned_posting p q -> is_envelope q = is_envelope p.
Proof. destruct 1; reflexivity. Qed.
Lemma turned_native p q : turned_posting p q -> maybe opposed (native_value p) (native_value q).
Proof.
  destruct 1 as [a b name k k' bal bal' T K|name v a b T]; [|constructor]. cbn. unfold classic_native. cbn. destruct T as [|a b [S O]]; [constructor|].
  rewrite S. destruct (symbol a); [|constructor; exact O]. destruct K as [|k k' [x y [Sx Ox]|x]]; [constructor| |].
  - rewrite Sx. destruct (symbol x); constructor. exact Ox.
  - destruct (symbol x); constructor. apply opposed_mul, O.
Qed.
Lemma turned_has_blank ps qs : Forall2 turned_posting ps qs ->
  existsb (fun p => match get_amount p with None => true | Some _ => false end) qs = existsb (fun p => match get_amount p with None => true | Some _ => false end) ps.
Proof. induction 1 as [|p q ps qs T _ IH]; [reflexivity|]. cbn. rewrite IH. f_equal. destruct (turned_amount _ _ T); reflexivity. Qed.
Lemma turned_find ps qs : Forall2 turned_posting ps qs ->
  maybe (fun x y => turned (fst x) (fst y) /\ Forall2 turned_posting (snd x) (snd y)) (find_amount ps) (find_amount qs).
Proof.
  induction 1 as [|p q ps qs T F IH]; [constructor|]. cbn [find_amount]. destruct (turned_amount _ _ T); [exact IH|]. constructor. split; assumption.
Qed.
Lemma turned_mixed e e' : turned_entry e e' -> has_mixed_currencies e' = has_mixed_currencies e.
Proof.
  intros (_ & _ & _ & _ & F). unfold has_mixed_currencies. destruct (turned_find _ _ F) as [|[a rest] [b rest'] [T G]]; [reflexivity|]. cbn [fst snd] in *.
  induction G as [|p q ps qs U _ IH]; [reflexivity|]. cbn [existsb]. rewrite IH. f_equal. destruct (turned_amount _ _ U) as [|x y [S _]]; [reflexivity|].
  rewrite S, (proj1 T). reflexivity.
Qed.
Lemma turned_blank_native e e' : forall ps qs, Forall2 turned_posting ps qs -> forall x y, opposed x y ->
  matched opposed (blank_native e ps x) (blank_native e' qs y).
Proof.
  induction 1 as [|p q ps qs T _ IH]; intros x y O; [exact O|]. cbn [blank_native]. destruct (turned_native _ _ T) as [|v w V].
  - destruct (turned_amount _ _ T); [apply IH, O|exact Logic.I].
  - apply IH, opposed_sub; assumption.
Qed.
Lemma turned_blank_rest : forall ps qs, Forall2 turned_posting ps qs -> forall a b, turned a b ->
  matched turned (blank_rest ps a) (blank_rest qs b).
Proof.
  induction 1 as [|p q ps qs T _ IH]; intros a b U; [exact U|]. cbn [blank_rest]. destruct (turned_amount _ _ T); [apply IH, U|].
  eapply matched_bind; [apply turned_sub_assign; eassumption|exact IH].
Qed.
Theorem C127_blank : forall e e', turned_entry e e' -> matched (maybe turned) (get_blank_amount e) (get_blank_amount e').
Proof.
  intros e e' T. unfold get_blank_amount. rewrite (turned_mixed _ _ T). destruct T as (_ & _ & _ & _ & F). unfold has_blank_posting.
  rewrite (turned_has_blank _ _ F). destruct (existsb _ _); [|constructor]. destruct (has_mixed_currencies e).
  - eapply matched_bind; [apply (turned_blank_native e e' _ _ F); apply opposed_zero|]. intros x y O. constructor. split; [reflexivity|exact O].
  - destruct (turned_find _ _ F) as [|[a rest] [b rest'] [U G]]; [exact Logic.I|]. eapply matched_bind; [apply (turned_blank_rest _ _ G), turned_neg, U|].
    intros x y V. constructor. exact V.
Qed.
Print Assumptions C127_blank.
Lemma turned_real name e e' : turned_entry e e' -> forall p q x y, turned_pool p q -> turned_posting x y ->
  matched turned_pool (real_step name e p x) (real_step name e' q y).
Proof.
  intros T p q x y P X. unfold real_step. rewrite (turned_account _ _ X), (turned_kind _ _ X). destruct (_ && _); [|exact P].
  destruct (turned_amount _ _ X) as [|a b U].
  - eapply matched_bind; [apply C127_blank, T|]. intros o o' [|a b U]; [exact P|]. apply turned_add; assumption.
  - apply turned_add; assumption.
Qed.

(** ** Ledgers *)
Lemma map_res_Forall2 {A B} (f : A -> res B) : forall l l', map_res f l = Ok l' -> Forall2 (fun a b => f a = Ok b) l l'.
Proof.
  induction l as [|a l IH]; intros l' H; cbn in H; [injection H as <-; constructor|]. destruct (f a) eqn:E; cbn in H; try discriminate.
  destruct (map_res f l); cbn in H; try discriminate. injection H as <-. constructor; [exact E|]. apply IH. reflexivity.
Qed.
Lemma turned_add_entry today l l' e e' m m' : turned_accounts l l' -> turned_entry e e' ->
  add_entry today l e = Ok m -> add_entry today l' e' = Ok m' -> turned_accounts m m'.
Proof.
  intros A T H H'. unfold add_entry in H, H'.
  destruct (map_res _ (l_accounts l)) as [x| | |] eqn:E; try discriminate H. destruct (map_res _ (l_accounts l')) as [x'| | |] eqn:E'; try discriminate H'.
  injection H as <-. injection H' as <-. unfold turned_accounts in *. cbn. apply map_res_Forall2 in E. apply map_res_Forall2 in E'.
  revert x x' E E'. induction A as [|[k a] [k' a'] la la' (Ek & En & Er) _ IH]; intros x x' E E'; inversion E as [|? [j b] ? ? Eb Es]; inversion E' as [|? [j' b'] ? ? Eb' Es']; subst; [constructor|].
  constructor; [|apply IH; assumption]. cbn [fst snd] in *. subst k'. clear IH Es Es'.
  destruct (acc_process today a e) as [c| | |] eqn:P; try discriminate Eb. destruct (acc_process today a' e') as [c'| | |] eqn:P'; try discriminate Eb'.
  cbn in Eb, Eb'. injection Eb as <- <-. injection Eb' as <- <-. split; [reflexivity|]. unfold acc_process in P, P'.
  destruct (map_res _ (a_expenses a)); try discriminate P. destruct (map_res _ (a_goals a)); try discriminate P.
  destruct (map_res _ (a_expenses a')); try discriminate P'. destruct (map_res _ (a_goals a')); try discriminate P'. cbn [bind] in P, P'.
  pose proof (matched_fold turned_posting turned_pool _ _ (fun c d x y => turned_real (a_name a) e e' T c d x y)
    _ _ (proj2 (proj2 (proj2 (proj2 T)))) _ _ Er) as M. rewrite En in M at 2.
  destruct (fold_res _ _ (a_real a)); try discriminate P. destruct (fold_res _ _ (a_real a')); try discriminate P'. cbn in P, P'.
  injection P as <-. injection P' as <-. split; [exact En|exact M].
Qed.
Theorem C127_real : forall today l l' es es' m m', turned_accounts l l' -> Forall2 turned_entry es es' ->
  fold_res (add_entry today) es l = Ok m -> fold_res (add_entry today) es' l' = Ok m' -> turned_accounts m m'.
Proof.
  intros today l l' es es' m m' A F. revert l l' m m' A. induction F as [|e e' es es' T _ IH]; intros l l' m m' A H H'.
  - injection H as <-. injection H' as <-. exact A.
  - cbn [fold_res] in H, H'. destruct (add_entry today l e) as [x| | |] eqn:E; try discriminate H. destruct (add_entry today l' e') as [x'| | |] eqn:E'; try discriminate H'.
    cbn [bind] in *. eapply IH; [eapply turned_add_entry; eassumption|exact H|exact H'].
Qed.
Print Assumptions C127_real.

Lemma turned_get k m m' : turned_totals m m' -> maybe turned_pool (map_get k m) (map_get k m').
Proof. induction 1 as [|[a p] [b q] m m' [E T] _ IH]; [constructor|]. cbn in *. subst b. destruct (str_eqb a k); [constructor; exact T|exact IH]. Qed.
Lemma turned_insert k p q m m' : turned_pool p q -> turned_totals m m' -> turned_totals (map_insert k p m) (map_insert k q m').
Proof.
  intro P. induction 1 as [|[a x] [b y] m m' [E T] F IH]; [constructor; [split; [reflexivity|exact P]|constructor]|]. cbn in *. subst b.
  destruct (str_eqb a k); constructor; try assumption; split; try reflexivity; assumption.
Qed.
Theorem C127_totals : forall l l', Forall2 turned_entry (l_entries l) (l_entries l') -> matched turned_totals (get_totals l) (get_totals l').
Proof.
  intros l l' F. unfold get_totals. eapply matched_fold; [|exact F|constructor]. intros m m' e e' M T.
  eapply matched_fold; [|exact (proj2 (proj2 (proj2 (proj2 T))))|exact M]. clear m m' M. intros m m' p q M P.
  unfold totals_step. rewrite (turned_account _ _ P). destruct (turned_get (get_account p) _ _ M) as [|x y X].
  - cbn. apply turned_insert; [|exact M]. constructor; [|constructor]. destruct (turned_amount _ _ P); [split; [reflexivity|apply opposed_zero]|assumption].
  - destruct (turned_amount _ _ P) as [|a b U].
    + eapply matched_bind; [apply C127_blank, T|]. intros o o' [|a b U]; [exact M|]. apply turned_insert; [apply turned_add; assumption|exact M].
    + cbn. apply turned_insert; [apply turned_add; assumption|exact M].
Qed.
Print Assumptions C127_totals.

Lemma turned_register_loop m e e' : turned_entry e e' -> forall ps qs, Forall2 turned_posting ps qs -> forall pos neg foc foc', turned_pool foc foc' ->
  matched (fun x y => fst (fst y) = snd (fst x) /\ snd (fst y) = fst (fst x) /\ turned_pool (snd x) (snd y))
    (register_loop e m ps pos neg foc) (register_loop e' m qs neg pos foc').
Proof.
  intros T. induction 1 as [|p q ps qs P _ IH]; intros pos neg foc foc' F; [cbn; auto|]. cbn [register_loop].
  eapply (matched_bind turned).
  - destruct (turned_amount _ _ P) as [|a b U]; [|exact U]. eapply matched_bind; [apply C127_blank, T|]. intros o o' [|a b U]; [exact Logic.I|exact U].
  - intros a b U. rewrite (turned_account _ _ P). pose proof (opposed_pos _ _ (proj2 U)) as E1. pose proof (opposed_pos _ _ (opposed_sym _ _ (proj2 U))) as E2.
    rewrite <- E1, E2. assert (fltb fzero (mag a) = true -> fltb (mag a) fzero = false) as Ex.
    { clear. unfold fltb. destruct (sf (mag a)) as [s|s| |s k f]; try destruct s; cbn; intro; congruence. }
    assert (turned_pool (if is_focused m (get_account p) then pool_add foc a else foc) (if is_focused m (get_account p) then pool_add foc' b else foc')) as F'
      by (destruct (is_focused _ _); [apply turned_add; assumption|exact F]).
    destruct (fltb fzero (mag a)); [rewrite (Ex eq_refl); apply IH, F'|]. destruct (fltb (mag a) fzero); apply IH, F'.
Qed.
Theorem C127_register : forall fmt m e e', turned_entry e e' ->
  matched (maybe turned_row) (as_register_data e fmt m) (as_register_data e' fmt m).
Proof.
  intros fmt m e e' T. unfold as_register_data. eapply matched_bind; [apply (turned_register_loop m e e' T _ _ (proj2 (proj2 (proj2 (proj2 T)))) [] [] [] []); constructor|].
  intros [[pos neg] foc] [[pos' neg'] foc'] (E1 & E2 & F). cbn [fst snd] in *. subst pos' neg'. rewrite (turned_is_zero _ _ F). destruct (pool_is_zero foc); [constructor|].
  destruct (printable fmt); [|exact Logic.I]. destruct T as (D & S & De & Pa & _). constructor. unfold turned_row. cbn. rewrite D, S, De, Pa. repeat split. exact F.
Qed.
Print Assumptions C127_register.

(** ** An entry and its opposite *)
Lemma opposed_is x y z : opposed x y -> f64_is x (IZR z) -> f64_is y (IZR (- z)).
Proof.
  intros O H. apply f64_is_int in H. apply f64_is_int. destruct O as [->|((b & Ex) & (b' & Ey))]; [apply fneg_int, H|].
  destruct H as [_ H]. rewrite fR_SF, Ex in H. cbn in H. apply (eq_IZR 0) in H. subst z. split; [rewrite ffin_SF, Ey; reflexivity|]. rewrite fR_SF, Ey. reflexivity.
Qed.
Lemma only_add sym r a n z : f64_is (mag (pool_only r sym)) (IZR n) -> symbol a = sym -> f64_is (mag a) (IZR z) -> Z.abs (n + z) <= 2 ^ 53 ->
  f64_is (mag (pool_only (pool_add r a) sym)) (IZR (n + z)).
Proof.
  intros H S A B. unfold pool_add. rewrite S. revert H. unfold pool_only. induction r as [|x r IH]; intro H.
  - cbn [pool_update find]. rewrite S, (proj2 (ostr_eqb_eq sym sym) eq_refl). cbn in H. assert (n = 0) as ->; [|exact A].
    apply f64_is_int in H. destruct H as [_ H]. symmetry in H. exact (eq_IZR _ 0 H).
  - cbn [pool_update find] in *. destruct (ostr_eqb (symbol x) sym) eqn:E; cbn [find symbol]; rewrite E; [|exact (IH H)]. cbn [mag].
    apply f64_is_int. apply fadd_int; [apply f64_is_int, H|apply f64_is_int, A|exact B].
Qed.
Lemma only_other sym r a : symbol a <> sym -> pool_only (pool_add r a) sym = pool_only r sym.
Proof.
  intro N. unfold pool_add, pool_only. induction r as [|x r IH]; cbn [pool_update find].
  - destruct (ostr_eqb (symbol a) sym) eqn:E; [apply ostr_eqb_eq in E; contradiction|reflexivity].
  - destruct (ostr_eqb (symbol x) (symbol a)) eqn:E; cbn [find symbol].
    + apply ostr_eqb_eq in E. rewrite E. destruct (ostr_eqb (symbol a) sym) eqn:K; [apply ostr_eqb_eq in K; contradiction|reflexivity].
    + destruct (ostr_eqb (symbol x) sym); [reflexivity|exact IH].
Qed.
Lemma only_sum sym : forall xs r n zs, f64_is (mag (pool_only r sym)) (IZR n) ->
  Forall2 (fun a z => f64_is (mag a) (IZR z)) (filter (in_sym sym) xs) zs -> Z.abs n + Zsum (map Z.abs zs) <= 2 ^ 53 ->
  f64_is (mag (pool_only (fold_left pool_add xs r) sym)) (IZR (n + Zsum zs)).
Proof.
  induction xs as [|a xs IH]; intros r n zs H F B; cbn [filter fold_left] in *.
  - inversion F; subst. cbn. rewrite Z.add_0_r. exact H.
  - unfold in_sym at 1 in F. destruct (sym_dec (symbol a) sym) as [E|E].
    + inversion F as [|? z ? zs' Ha F']; subst. unfold Zsum in *. cbn [map fold_right] in *.
      assert (0 <= fold_right Z.add 0 (map Z.abs zs')) by (clear; induction zs' as [|x l IH]; cbn [map fold_right]; lia).
      rewrite Z.add_assoc. apply IH; [apply only_add; [exact H|reflexivity|exact Ha|lia]|exact F'|lia].
    + apply IH; [rewrite only_other by exact E; exact H|exact F|exact B].
Qed.
Lemma turned_worth e e' p q a b : turned_entry e e' -> turned_posting p q -> worth e p a -> worth e' q b -> turned a b.
Proof.
  intros T P [A|[N A]] [B|[N' B]]; pose proof (turned_amount _ _ P) as M.
  - rewrite A, B in M. inversion M. assumption.
  - rewrite A, N' in M. inversion M.
  - rewrite N, B in M. inversion M.
  - pose proof (C127_blank _ _ T) as K. rewrite A, B in K. cbn in K. inversion K. assumption.
Qed.
Lemma turned_worths name e e' : turned_entry e e' -> forall xs ys,
  worths (filter (to_classic name) (postings [e])) xs -> worths (filter (to_classic name) (postings [e'])) ys -> Forall2 turned xs ys.
Proof.
  intros T xs ys. unfold postings. cbn [flat_map]. rewrite !app_nil_r. pose proof (proj2 (proj2 (proj2 (proj2 T)))) as F. revert xs ys.
  induction F as [|p q ps qs P _ IH]; intros xs ys W W'; cbn [map filter] in *; [inversion W; inversion W'; constructor|].
  assert (to_classic name (e', q) = to_classic name (e, p)) as E by (destruct P; reflexivity). rewrite E in W'. destruct (to_classic name (e, p)).
  - inversion W as [|? a ? xs' Wa W1]; inversion W' as [|? b ? ys' Wb W2]; subst. constructor; [eapply turned_worth; eassumption|apply IH; assumption].
  - apply IH; assumption.
Qed.
Lemma turned_in_sym sym xs ys : Forall2 turned xs ys -> Forall2 turned (filter (in_sym sym) xs) (filter (in_sym sym) ys).
Proof.
  induction 1 as [|a b xs ys T _ IH]; [constructor|]. cbn [filter]. assert (in_sym sym b = in_sym sym a) as -> by (unfold in_sym; rewrite (proj1 T); reflexivity).
  destruct (in_sym sym a); [constructor; [exact T|exact IH]|exact IH].
Qed.
Theorem C127_cancel : forall today l e e' m m' name a sym n xs zs,
  map_get name (l_accounts l) = Some a -> a_name a = name -> turned_entry e e' ->
  add_entry today l e = Ok m -> add_entry today m e' = Ok m' ->
  f64_is (mag (pool_only (a_real a) sym)) (IZR n) ->
  worths (filter (to_classic name) (postings [e])) xs -> Forall2 (fun x z => f64_is (mag x) (IZR z)) (filter (in_sym sym) xs) zs ->
  Z.abs n + 2 * Zsum (map Z.abs zs) <= 2 ^ 53 ->
  exists a', map_get name (l_accounts m') = Some a' /\ f64_is (mag (pool_only (a_real a') sym)) (IZR n).
Proof.
  intros today l e e' m m' name a sym n xs zs G N T H H' V W F B.
  destruct (real_after today [e] l m name a) as (a1 & xs1 & G1 & N1 & W1 & R1); [cbn; rewrite H; reflexivity|exact G|exact N|].
  destruct (real_after today [e'] m m' name a1) as (a2 & ys & G2 & _ & W2 & R2); [cbn; rewrite H'; reflexivity|exact G1|exact N1|].
  exists a2. split; [exact G2|]. rewrite R2, R1.
  assert (xs1 = xs) as ->.
  { clear - W W1. revert xs1 W1. induction W as [|p x ps xs Hp _ IH]; intros ys W1; inversion W1 as [|? y ? ys' Hy W2]; subst; [reflexivity|]. f_equal; [|apply IH, W2].
    destruct Hp as [A|[A A']], Hy as [B|[B B']]; congruence. }
  assert (Forall2 (fun x z => f64_is (mag x) (IZR z)) (filter (in_sym sym) ys) (map Z.opp zs)) as F'.
  { pose proof (turned_in_sym sym _ _ (turned_worths _ _ _ T _ _ W W2)) as K. clear - K F. revert zs F. induction K as [|x y l l' [_ O] _ IH]; intros zs F; inversion F as [|? z ? zs' Hz F1]; subst; constructor.
    - eapply opposed_is; eassumption.
    - apply IH, F1. }
  assert (Zsum (map Z.opp zs) = - Zsum zs) as E1 by (unfold Zsum; clear; induction zs as [|z zs IH]; cbn [map fold_right]; lia).
  assert (map Z.abs (map Z.opp zs) = map Z.abs zs) as E2 by (rewrite map_map; apply map_ext; intro; apply Z.abs_opp).
  assert (Z.abs (Zsum zs) <= Zsum (map Z.abs zs)) as E3 by (unfold Zsum; clear; induction zs as [|z zs IH]; cbn [map fold_right]; lia).
  replace n with (n + Zsum zs + Zsum (map Z.opp zs)) at 1 by lia. apply only_sum; [|exact F'|rewrite E2; lia]. apply only_sum; [exact V|exact F|lia].
Qed.
Print Assumptions C127_cancel.

(** What was in an envelope does not come back. *)
Definition bread (a : string) : list string := ["2024/03/02 * bread"; ("  assets:bank  " ++ a)%string; "  expenses:food"]%string.
Definition pantry (es : list string) : ledger :=
  loaded (["account assets:bank"; "  expense food due every friday"; "    for expenses:food"; "    amount 70"; "account expenses:food"]%string ++ es).
Definition in_envelopes (l : ledger) : list (list (Z * Z)) :=
  map (fun ka => map (fun v => (fto_usize (fneg (mag (v_now v))), fto_usize (mag (v_next v)))) (all_envelopes (snd ka))) (l_accounts l).
Theorem C127_envelopes : exists l e e' m m', turned_entry e e'
  /\ add_entry today l e = Ok m /\ add_entry today m e' = Ok m'
  /\ in_envelopes l = [[(0, 0)]; []] /\ in_envelopes m = [[(4, 0)]; []] /\ in_envelopes m' = [[(8, 0)]; []].
Proof.
  destruct (l_entries (pantry (bread "-4"))) as [|e [|]] eqn:E; try (vm_compute in E; discriminate).
  destruct (l_entries (pantry (bread "4"))) as [|e' [|]] eqn:E'; try (vm_compute in E'; discriminate).
  exists (pantry []), e, e'. vm_compute in E, E'. injection E as <-. injection E' as <-.
  do 2 eexists. split; [|split; [vm_compute; reflexivity|]; split; [vm_compute; reflexivity|]; split; [|split]; vm_compute; reflexivity].
  unfold turned_entry. cbn [e_date e_status e_desc e_payee e_postings]. repeat (split; [reflexivity|]). constructor; [|constructor; [|constructor]]; constructor; constructor.
  split; [reflexivity|]. left. apply sf_inj. vm_compute. reflexivity.
Qed.
Print Assumptions C127_envelopes.

(** Two journals with opposite amounts. *)
Example C127_case :
  let shown l := match get_totals l with Ok m => map (fun kp => fst kp ++ show_pool (snd kp)) m | _ => [] end in
  shown (pantry (bread "-4" ++ bread "-2.5")) = map lit ["assets:bank-6.5"; "expenses:food 2.5"]%string
  /\ shown (pantry (bread "4" ++ bread "2.5")) = map lit ["assets:bank 6.5"; "expenses:food-2.5"]%string.
Proof. vm_compute. split; reflexivity. Qed.
