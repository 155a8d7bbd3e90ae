(** Claims about prices: a price per unit and the total cost say the same
    (C116), and a price that is not written is inferred (C117). *)
From Coq Require Import ZArith NArith List Bool String Floats.SpecFloat.
From Verif Require Import Base Str F64 Date World Amount Posting Entry Envelope Account Register Ledger SpecEntry SpecEnvelope SpecCost
  StrFacts F64Facts EntryFacts EnvelopeFacts PropertiesLedger.
Import ListNotations.

(** ** C116 *)
Lemma round_aux_opp s m e l : binary_round_aux prec emax (negb s) m e l = SFopp (binary_round_aux prec emax s m e l).
Proof.
  unfold binary_round_aux. destruct (shr_fexp prec emax m e l) as [r e1]. destruct (shr_fexp prec emax _ e1 loc_Exact) as [r2 e2].
  destruct (shr_m r2); try reflexivity. destruct (Z.leb e2 (emax - prec)); reflexivity.
Qed.
Lemma SFmul_opp x y : SFmul prec emax (SFopp x) y = SFopp (SFmul prec emax x y).
Proof.
  destruct x as [s|s| |s m e], y as [t|t| |t n f]; cbn [SFopp SFmul]; try reflexivity; try (destruct s, t; reflexivity).
  rewrite <- round_aux_opp. f_equal. destruct s, t; reflexivity.
Qed.
Lemma sf_inj x y : sf x = sf y -> x = y.
Proof. destruct x as [a p], y as [b q]. cbn. intros <-. f_equal. apply Eqdep_dec.UIP_dec, bool_dec. Qed.
Lemma fmk_opp s : fmk (SFopp s) = fneg (fmk s).
Proof.
  apply sf_inj. rewrite sf_fneg. unfold fmk. assert (V : valid_binary prec emax (SFopp s) = valid_binary prec emax s) by (destruct s; reflexivity).
  destruct (bool_dec (valid_binary prec emax (SFopp s)) true), (bool_dec (valid_binary prec emax s) true); try reflexivity; congruence.
Qed.
Lemma fmul_fneg x y : fmul (fneg x) y = fneg (fmul x y).
Proof. unfold fmul. rewrite sf_fneg, SFmul_opp. apply fmk_opp. Qed.
Lemma fabs_positive x : fltb fzero x = true -> fabs x = x.
Proof. intro H. apply sf_inj. rewrite sf_fabs. unfold fltb in H. destruct (sf x) as [[]|[]| |[] m e]; try discriminate; reflexivity. Qed.
Lemma fabs_negative x : fltb x fzero = true -> fabs x = fneg x.
Proof. intro H. apply sf_inj. rewrite sf_fabs, sf_fneg. unfold fltb in H. destruct (sf x) as [[]|[]| |[] m e]; try discriminate; reflexivity. Qed.

(** Bought: the same.  Sold: the total cost counts with the wrong sign. *)
Theorem C116_exact : forall c a s u t v v', c_amount c = Some a -> symbol a = Some s -> same_price a u t ->
  native (priced c (UnitCost u)) v -> native (priced c (TotalCost t)) v' ->
  (fltb fzero (mag a) = true -> v' = v) /\ (fltb (mag a) fzero = true -> v' = fneg v).
Proof.
  intros c a s u t v v' A S (U & T & M) V V'. unfold priced in *.
  assert (v = fmul (mag a) (mag u)) as ->.
  { inversion V as [c0 a0 A0 S0 E0|c0 a0 s0 b0 A0 S0 C0 B0 E0|c0 a0 s0 b0 A0 S0 C0 B0 E0]; cbn in *; try congruence.
    all: assert (a0 = a) by congruence; assert (b0 = u) by congruence; congruence. }
  assert (v' = mag t) as ->.
  { inversion V' as [c0 a0 A0 S0 E0|c0 a0 s0 b0 A0 S0 C0 B0 E0|c0 a0 s0 b0 A0 S0 C0 B0 E0]; cbn in *; try congruence.
    all: assert (a0 = a) by congruence; congruence. }
  rewrite M. split; intro Z.
  - rewrite (fabs_positive _ Z). reflexivity.
  - rewrite (fabs_negative _ Z). apply fmul_fneg.
Qed.
Print Assumptions C116_exact.

Definition sale (price : string) : list string :=
  ["account assets:btc"; "account assets:cash"; "account expenses:fees";
   "2019/08/01 * start"; "  assets:cash 0"; "  expenses:fees 0";
   "2019/08/02 * Sold crypto"; "  assets:btc  -2 BTC " ++ price; "  expenses:fees  1"; "  assets:cash"]%string.
(** Two units are sold for 50 each, for a fee of 1: 99 are received; with the
    total of 100 written instead, 101 are paid. *)
Theorem C116_refuted : exists l m u v,
  loading (sale "@ 50") = Ok (l, u) /\ loading (sale "= 100") = Ok (m, v)
  /\ show_balance l = Ok (pad_right 35 (lit "assets:btc") ++ lit "    -2 BTC" ++ [10%N]
       ++ pad_right 35 (lit "assets:cash") ++ lit "     99" ++ [10%N] ++ pad_right 35 (lit "expenses:fees") ++ lit "     1" ++ [10%N])
  /\ show_balance m = Ok (pad_right 35 (lit "assets:btc") ++ lit "    -2 BTC" ++ [10%N]
       ++ pad_right 35 (lit "assets:cash") ++ lit "    -101" ++ [10%N] ++ pad_right 35 (lit "expenses:fees") ++ lit "     1" ++ [10%N]).
Proof.
  destruct (loading (sale "@ 50")) as [[l u]| | |] eqn:E1; [|vm_compute in E1; discriminate..].
  destruct (loading (sale "= 100")) as [[m v]| | |] eqn:E2; [|vm_compute in E2; discriminate..].
  exists l, m, u, v. split; [reflexivity|]. split; [reflexivity|].
  assert (l = loaded (sale "@ 50")) as -> by (unfold loaded; rewrite E1; reflexivity).
  assert (m = loaded (sale "= 100")) as -> by (unfold loaded; rewrite E2; reflexivity).
  clear. split; vm_compute; reflexivity.
Qed.
Print Assumptions C116_refuted.

Example C116_case : same_price (mkAmount (fofZ 2) (Some (lit "BTC"))) (mkAmount (fofZ 50) None) (mkAmount (fofZ 100) None)
  /\ exists p q, parse_posting (lit "a 2 BTC @ 50") 46%N [lit "a"] = Ok p /\ parse_posting (lit "a 2 BTC = 100") 46%N [lit "a"] = Ok q
     /\ native p (fofZ 100) /\ native q (fofZ 100).
Proof.
  split; [repeat split; vm_compute; reflexivity|]. do 2 eexists. split; [vm_compute; reflexivity|]. split; [vm_compute; reflexivity|].
  split; apply native_iff; vm_compute; reflexivity.
Qed.

(** ** C117 *)
(** A worth is known only for amounts without symbol and for those with a
    written price without symbol. *)
Theorem C117_written : forall p v, native p v -> exists c a, p = Classic c /\ c_amount c = Some a
  /\ (symbol a = None \/ exists b, (c_cost c = Some (UnitCost b) \/ c_cost c = Some (TotalCost b)) /\ symbol b = None).
Proof. intros p v H. inversion H; subst; eauto 10. Qed.
Print Assumptions C117_written.

Lemma concerns_infer today v e : concerns e v -> env_process today v e =
  (let zero := mkAmount fzero (symbol (v_amount v)) in
    let! (auto, self) := fold_res (infer_step v e) (e_postings e) (zero, zero) in
    let m := fmin (mag auto) (fabs (mag self)) in
    if negb (feqb m fzero) then
      apply_amount today v (mkAmount (if fltb (mag self) fzero then fneg m else m) (symbol (v_amount v))) (e_date e)
    else Ok v).
Proof.
  intros (M & (p & Ip & Op) & (q & Iq & Lq)). unfold env_process.
  destruct (has_envelope_posting e) eqn:H; [apply has_envelope_posting_iff in H; contradiction|]. unfold infer.
  destruct (Nat.ltb (count_self v (e_postings e)) 1) eqn:C1.
  { unfold count_self in C1. rewrite filter_count in C1. apply own_iff in Op. rewrite C1 in Op by exact Ip. discriminate. }
  destruct (Nat.ltb (count_auto v (e_postings e)) 1) eqn:C2; [|reflexivity].
  unfold count_auto in C2. rewrite filter_count in C2. apply linked_iff in Lq. rewrite C2 in Lq by exact Iq. discriminate.
Qed.
Lemma infer_step_symbols v e s p r : symbol (fst s) = symbol (v_amount v) -> symbol (snd s) = symbol (v_amount v) ->
  infer_step v e s p = Ok r -> symbol (fst r) = symbol (v_amount v) /\ symbol (snd r) = symbol (v_amount v)
   /\ forall a, get_amount p = Some a ->
       (symbol a = symbol (v_amount v)) \/ (symbol (v_amount v) = None /\ (exists x, native p x) /\ ~ own v p /\ ~ linked v p).
Proof.
  destruct s as [auto self]. cbn [fst snd]. intros A S H. unfold infer_step in H. apply bind_Ok in H as (a & I & H).
  assert (G : symbol (fst r) = symbol (v_amount v) /\ symbol (snd r) = symbol (v_amount v)
    /\ (symbol a = symbol (v_amount v) \/ (~ own v p /\ ~ linked v p))).
  { destruct (str_eqb (get_account p) (v_account v)) eqn:O.
    - apply bind_Ok in H as (s' & H & E). injection E as <-. cbn. apply added_iff in H. destruct H as (H1 & ->). cbn [symbol].
      split; [exact A|]. split; [exact S|]. left. congruence.
    - assert (NO : ~ own v p) by (intro X; apply own_iff in X; congruence).
      destruct (mem (get_account p) (v_auto v)) eqn:L.
      + apply bind_Ok in H as (s' & H & E). injection E as <-. cbn. apply added_iff in H. destruct H as (H1 & ->). cbn [symbol].
        split; [exact A|]. split; [exact S|]. left. congruence.
      + injection H as <-. cbn. split; [exact A|]. split; [exact S|]. right. split; [exact NO|].
        intro X. apply linked_iff in X. rewrite O, L in X. discriminate. }
  destruct G as (G1 & G2 & G3). split; [exact G1|]. split; [exact G2|]. intros b B.
  unfold infer_amount in I. rewrite B in I. cbn [bind] in I.
  destruct (ostr_eqb (symbol b) (symbol (v_amount v))) eqn:E; [apply ostr_eqb_eq in E; left; exact E|].
  destruct (symbol (v_amount v)) eqn:SV; [discriminate|]. destruct (native_value p) as [x|] eqn:N; [|discriminate]. injection I as <-. cbn in G3.
  right. split; [reflexivity|]. split; [exists x; apply native_iff, N|].
  destruct G3 as [X|X]; [|exact X]. rewrite X in E. discriminate.
Qed.
(** An envelope without symbol: every amount with a symbol needs a written price
    (also in postings that have nothing to do with the envelope), and there must
    be none in the accounts of the envelope.  An envelope with a symbol: all
    amounts must have it. *)
Theorem C117_exact : forall today v e w, concerns e v -> env_process today v e = Ok w ->
  forall p a, In p (e_postings e) -> get_amount p = Some a ->
    symbol a = symbol (v_amount v) \/ (symbol (v_amount v) = None /\ (exists x, native p x) /\ ~ own v p /\ ~ linked v p).
Proof.
  intros today v e w C H. rewrite (concerns_infer _ _ _ C) in H. cbv zeta in H. apply bind_Ok in H as ([auto self] & H & _).
  assert (G : forall ps s r, symbol (fst s) = symbol (v_amount v) -> symbol (snd s) = symbol (v_amount v) -> fold_res (infer_step v e) ps s = Ok r ->
    forall p a, In p ps -> get_amount p = Some a ->
    symbol a = symbol (v_amount v) \/ (symbol (v_amount v) = None /\ (exists x, native p x) /\ ~ own v p /\ ~ linked v p)).
  { clear. induction ps as [|q ps IH]; intros s r A S H p a I E; [destruct I|]. cbn [fold_res] in H. apply bind_Ok in H as (s' & H & K).
    destruct (infer_step_symbols _ _ _ _ _ A S H) as (A' & S' & Q). destruct I as [->|I]; [apply Q, E|]. exact (IH _ _ A' S' K _ _ I E). }
  intros p a. eapply G; [| |exact H]; reflexivity.
Qed.
Print Assumptions C117_exact.

(** Postings with a written price in other accounts do not count for the
    envelope: the entry is the same for it without them. *)
Theorem C117_beside : forall today v e f, concerns e v -> symbol (v_amount v) = None ->
  (forall p, In p (e_postings e) -> get_amount p <> None) ->
  (forall p, In p (e_postings e) -> foreign p -> (exists x, native p x) /\ ~ own v p /\ ~ linked v p) ->
  e_date f = e_date e -> e_postings f = filter (fun p => match get_amount p with Some a => match symbol a with None => true | _ => false end | None => false end) (e_postings e) ->
  env_process today v e = env_process today v f.
Proof.
  intros today v e f C SV NB F D P.
  assert (Cf : concerns f v).
  { destruct C as (M & (p & Ip & Op) & (q & Iq & Lq)). rewrite <- has_envelope_posting_iff in M.
    assert (K : forall p, In p (e_postings e) -> own v p \/ linked v p -> In p (e_postings f)).
    { intros x I X. rewrite P. apply filter_In. split; [exact I|]. destruct (get_amount x) as [a|] eqn:E; [|destruct (NB _ I E)].
      destruct (symbol a) eqn:S; [|reflexivity]. destruct (F x I) as (_ & N1 & N2); [exists a, s; auto|]. tauto. }
    split; [|split; [exists p|exists q]; auto].
    rewrite <- has_envelope_posting_iff. intro X. apply M. unfold has_envelope_posting in *. apply existsb_exists in X as (x & X & Y).
    rewrite P in X. apply filter_In in X as [X _]. apply existsb_exists. eauto. }
  rewrite (concerns_infer _ _ _ C), (concerns_infer _ _ _ Cf). cbv zeta. rewrite D. f_equal. rewrite P.
  clear C Cf P D. revert NB F. generalize (mkAmount fzero (symbol (v_amount v)), mkAmount fzero (symbol (v_amount v))).
  induction (e_postings e) as [|p ps IH]; intros s NB F; [reflexivity|]. cbn [filter].
  assert (IH' : forall s, fold_res (infer_step v e) ps s = fold_res (infer_step v f) (filter (fun p => match get_amount p with Some a => match symbol a with None => true | _ => false end | None => false end) ps) s).
  { intro s'. apply IH; intros; [apply NB|apply F]; try right; assumption. }
  destruct (get_amount p) as [a|] eqn:E; [|destruct (NB p (or_introl eq_refl) E)].
  assert (I : forall e, infer_amount v e p = if ostr_eqb (symbol a) None then Ok a else match native_value p with Some m => Ok (mkAmount m (symbol a)) | None => Err (EProcessing (NoEnvelopeValue (full_string e))) end).
  { intro e'. unfold infer_amount. rewrite E. cbn [bind]. rewrite SV. reflexivity. }
  destruct (symbol a) as [y|] eqn:S.
  - destruct (F p (or_introl eq_refl)) as ((x & X) & N1 & N2); [exists a, y; auto|]. apply native_iff in X.
    cbn [fold_res]. unfold infer_step at 1. rewrite I, X. cbn [ostr_eqb bind]. destruct s as [auto self].
    destruct (str_eqb (get_account p) (v_account v)) eqn:O; [apply own_iff in O; contradiction|].
    destruct (mem (get_account p) (v_auto v)) eqn:L; [|cbn [bind]; apply IH'].
    destruct N2. apply linked_iff. rewrite O, L. reflexivity.
  - cbn [fold_res]. unfold infer_step at 1 3. rewrite !I. cbn [ostr_eqb].
    destruct (let! a0 := Ok a in let (auto, self) := s in _) as [s'| | |]; [|reflexivity..]. cbn [bind]. apply IH'.
Qed.
Print Assumptions C117_beside.

Definition purchase (price : string) : list string :=
  ["account assets:checking"; "  expense fees due every 1st"; "    amount 5"; "    for expenses:fees";
   "account assets:crypto:btc"; "account expenses:fees";
   "2019/08/02 * Bought crypto"; "  assets:checking  -101"; "  assets:crypto:btc  0.012345 BTC" ++ price; "  expenses:fees  1"]%string.
(** The cost of the bitcoins can only be 100.  Without it the journal is refused,
    with it everything is in order. *)
Theorem C117_refuted : exists t l w,
  loading (purchase "") = Err (EProcessing (NoEnvelopeValue t)) /\ loading (purchase " = 100") = Ok (l, w).
Proof.
  destruct (loading (purchase "")) as [s|x| |] eqn:E1; [vm_compute in E1; discriminate| |vm_compute in E1; discriminate..].
  destruct (loading (purchase " = 100")) as [[l w]| | |] eqn:E2; [|vm_compute in E2; discriminate..].
  do 3 eexists. split; [vm_compute in E1; injection E1 as <-|]; reflexivity.
Qed.
Print Assumptions C117_refuted.

Definition fees : envelope :=
  mkEnvelope (lit "fees") (mkAmount (fofZ 5) None) Expense [lit "e:f"] (Monthly 1) Manual None
    (mkAmount fzero None) (mkAmount fzero None) (lit "a:c") today.
Example C117_case :
  let posting n m s k := Classic (mkClassic (Some (mkAmount (fofZ m) s)) (lit n) k None) in
  let e k := mkEntry today Cleared [] None None [posting "a:c"%string (-101)%Z None None; posting "a:b"%string 2%Z (Some (lit "BTC")) k; posting "e:f"%string 1%Z None None] in
  concerns (e None) fees
  /\ (forall w, env_process today fees (e None) <> Ok w)
  /\ exists w, env_process today fees (e (Some (TotalCost (mkAmount (fofZ 100) None)))) = Ok w /\ mag (v_now w) = fneg (fofZ 1).
Proof.
  cbv zeta. split; [|split].
  - split; [rewrite <- has_envelope_posting_iff; vm_compute; discriminate|]. split.
    + eexists. split; [left; reflexivity|reflexivity].
    + eexists. split; [right; right; left; reflexivity|]. split; [vm_compute; discriminate|left; reflexivity].
  - intros w H. vm_compute in H. discriminate.
  - eexists. split; vm_compute; reflexivity.
Qed.
