(** C137: the balances depend only on the totals. *)
From Coq Require Import ZArith NArith List Bool Ascii String Reals Lia Lra Permutation Sorted.
From Verif Require Import Base Str F64 Date World Amount Posting Entry Envelope Account Register Ledger Importer Cli
  SpecDate SpecEntry SpecEnvelope SpecLedger SpecReport SpecAmount SpecTotals SpecCli SpecRun SpecTyped SpecZero SpecSame
  StrFacts LedgerFacts OrderFacts TypedFacts PropertiesLedger PropertiesTotals PropertiesCli PropertiesRun PropertiesFrame PropertiesReport PropertiesTyped PropertiesZero.
Import ListNotations.
Local Open Scope Z_scope.

(** ** Decimals are written in one way *)

Lemma number_bound s : Forall digit_char s -> 0 <= number_of s < 10 ^ Z.of_nat (List.length s).
Proof.
  induction 1 as [|c s D F IH]; [cbn; lia|]. cbn [number_of List.length]. rewrite Nat2Z.inj_succ, Z.pow_succ_r by lia.
  destruct D as [D1 D2]. assert (0 <= Z.of_N c - 48 <= 9) by lia. nia.
Qed.
Lemma number_app s t : number_of (s ++ t) = number_of s * 10 ^ Z.of_nat (List.length t) + number_of t.
Proof.
  induction s as [|c s IH]; [reflexivity|]. cbn [app number_of]. rewrite IH, app_length, Nat2Z.inj_add, Z.pow_add_r by lia. ring.
Qed.
Lemma number_inj s : Forall digit_char s -> forall t, Forall digit_char t -> List.length s = List.length t -> number_of s = number_of t -> s = t.
Proof.
  induction 1 as [|c s D F IH]; intros [|d t] T L E; try discriminate L; [reflexivity|]. inversion T as [|? ? D' T']; subst.
  injection L as L. cbn [number_of] in E. rewrite L in E. pose proof (number_bound s F). pose proof (number_bound t T'). rewrite L in H.
  destruct D, D'. assert (Z.of_N c = Z.of_N d) as Ec by nia. apply N2Z.inj in Ec. subst d. f_equal. apply IH; [exact T'|exact L|lia].
Qed.
Lemma leading c r : digit_char c -> Forall digit_char r -> c <> 48%N -> 10 ^ Z.of_nat (List.length r) <= number_of (c :: r).
Proof. intros [A B] F N. cbn [number_of]. pose proof (number_bound r F). assert (1 <= Z.of_N c - 48) by lia. nia. Qed.
Definition lead (ip : str) : Prop := ip = [48%N] \/ exists c r, ip = c :: r /\ c <> 48%N.
Lemma lead_length s t : Forall digit_char s -> Forall digit_char t -> lead s -> lead t -> number_of s = number_of t -> (List.length t <= List.length s)%nat.
Proof.
  intros S T A B E. destruct (Nat.le_gt_cases (List.length t) (List.length s)) as [|L]; [assumption|exfalso].
  assert (1 <= List.length s)%nat as L1 by (destruct A as [->|(c & r & -> & _)]; cbn; lia).
  destruct B as [->|(c & r & -> & N)]; [cbn in L; lia|]. inversion T; subst. pose proof (leading c r H1 H2 N). pose proof (number_bound s S).
  cbn [List.length] in L. assert (10 ^ Z.of_nat (List.length s) <= 10 ^ Z.of_nat (List.length r)) by (apply Z.pow_le_mono_r; lia). lia.
Qed.
Lemma lead_eq s t : Forall digit_char s -> Forall digit_char t -> lead s -> lead t -> number_of s = number_of t -> s = t.
Proof.
  intros S T A B E. apply number_inj; try assumption. pose proof (lead_length s t S T A B E). pose proof (lead_length t s T S B A (eq_sym E)). lia.
Qed.

Definition trail (fp : str) : Prop := fp = [] \/ last fp 48%N <> 48%N.
Lemma trail_mod fp : Forall digit_char fp -> trail fp -> fp <> [] -> number_of fp mod 10 <> 0.
Proof.
  intros F [->|L] N; [contradiction|]. destruct (exists_last N) as (r & c & ->). rewrite last_last in L. rewrite number_app.
  apply Forall_app in F as [_ F]. inversion F as [|? ? [A B] _]; subst. cbn [number_of List.length]. change (10 ^ Z.of_nat 1) with 10. change (10 ^ Z.of_nat 0) with 1.
  rewrite Z.add_comm, Z.mod_add by lia. rewrite Z.mod_small by lia. lia.
Qed.
Lemma decimals_length ip fp ip' fp' : Forall digit_char fp' -> trail fp' ->
  number_of (ip ++ fp) * 10 ^ Z.of_nat (List.length fp') = number_of (ip' ++ fp') * 10 ^ Z.of_nat (List.length fp) ->
  (List.length fp' <= List.length fp)%nat.
Proof.
  intros F T E. destruct (Nat.le_gt_cases (List.length fp') (List.length fp)) as [|L]; [assumption|exfalso].
  assert (fp' <> []) as N by (intros ->; cbn in L; lia). apply (trail_mod fp' F T N).
  replace (Z.of_nat (List.length fp')) with (Z.of_nat (List.length fp) + Z.succ (Z.of_nat (List.length fp' - List.length fp - 1))) in E by lia.
  rewrite Z.pow_add_r, Z.pow_succ_r in E by lia. set (k := 10 ^ Z.of_nat (List.length fp' - List.length fp - 1)) in *.
  assert (0 < 10 ^ Z.of_nat (List.length fp)) by (apply Z.pow_pos_nonneg; lia).
  assert (number_of (ip' ++ fp') = number_of (ip ++ fp) * k * 10) as Q by nia.
  rewrite number_app in Q. destruct fp' as [|c f]; [contradiction|]. cbn [List.length] in Q. rewrite Nat2Z.inj_succ, Z.pow_succ_r in Q by lia.
  set (u := 10 ^ Z.of_nat (List.length f)) in *. replace (number_of (c :: f)) with ((number_of (ip ++ fp) * k - number_of ip' * u) * 10) by lia. apply Z.mod_mul. lia.
Qed.
Lemma decimals_once ip fp ip' fp' : Forall digit_char ip -> Forall digit_char fp -> Forall digit_char ip' -> Forall digit_char fp' ->
  lead ip -> lead ip' -> trail fp -> trail fp' ->
  number_of (ip ++ fp) * 10 ^ Z.of_nat (List.length fp') = number_of (ip' ++ fp') * 10 ^ Z.of_nat (List.length fp) -> ip = ip' /\ fp = fp'.
Proof.
  intros I F I' F' L L' T T' E. pose proof (decimals_length _ _ _ _ F' T' E). pose proof (decimals_length _ _ _ _ F T (eq_sym E)).
  assert (List.length fp = List.length fp') as Q by lia. rewrite Q in E. apply Z.mul_reg_r in E; [|pose proof (Z.pow_pos_nonneg 10 (Z.of_nat (List.length fp'))); lia].
  rewrite !number_app, Q in E. pose proof (number_bound fp F). pose proof (number_bound fp' F'). rewrite Q in H1.
  assert (number_of ip = number_of ip') as A by nia. split; [apply lead_eq; assumption|]. apply number_inj; [assumption|assumption|exact Q|]. rewrite A in E. lia.
Qed.

Lemma magnitude ip fp : Forall digit_char ip -> Forall digit_char fp -> (0 <= IZR (number_of (ip ++ fp)) / IZR (10 ^ Z.of_nat (List.length fp)))%R.
Proof.
  intros A B. pose proof (number_bound (ip ++ fp) (proj2 (Forall_app _ _ _) (conj A B))).
  apply Rmult_le_pos; [apply IZR_le; lia|]. apply Rlt_le, Rinv_0_lt_compat, IZR_lt, Z.pow_pos_nonneg; lia.
Qed.
Lemma plain_once n n' v : plain_decimal n v -> plain_decimal n' v -> n = n'.
Proof.
  intros (neg & ip & fp & -> & I & F & L & T & S & V) (neg' & ip' & fp' & -> & I' & F' & L' & T' & S' & V').
  pose proof (magnitude ip fp I F) as P. pose proof (magnitude ip' fp' I' F') as P'. unfold decimal_value in V, V'.
  set (a := (IZR (number_of (ip ++ fp)) / IZR (10 ^ Z.of_nat (List.length fp)))%R) in *.
  set (b := (IZR (number_of (ip' ++ fp')) / IZR (10 ^ Z.of_nat (List.length fp')))%R) in *.
  assert (neg = neg') as <-. { destruct neg, neg'; try reflexivity; exfalso; [specialize (S eq_refl)|specialize (S' eq_refl)]; lra. }
  assert (a = b) as E by (destruct neg; lra). unfold a, b in E.
  assert (forall k, IZR (10 ^ Z.of_nat k) <> 0%R) as Nz by (intro k; apply not_0_IZR; pose proof (Z.pow_pos_nonneg 10 (Z.of_nat k)); lia).
  assert (number_of (ip ++ fp) * 10 ^ Z.of_nat (List.length fp') = number_of (ip' ++ fp') * 10 ^ Z.of_nat (List.length fp)) as Q.
  { apply eq_IZR. rewrite !mult_IZR. pose proof (Nz (List.length fp)) as K. pose proof (Nz (List.length fp')) as K'. clear - E K K'.
    revert E K K'. generalize (IZR (10 ^ Z.of_nat (List.length fp))) (IZR (10 ^ Z.of_nat (List.length fp'))) (IZR (number_of (ip ++ fp))) (IZR (number_of (ip' ++ fp'))).
    intros p q m n E K K'. replace (m * q)%R with (m / p * p * q)%R by (field; exact K). rewrite E. field. exact K'. }
  destruct (decimals_once _ _ _ _ I F I' F' L L' T T' Q) as [-> ->]. reflexivity.
Qed.
(** A total that is not zero is shown in one way. *)
Lemma total_once t t' z sym : z <> 0 -> total_shown t z sym -> total_shown t' z sym -> t = t'.
Proof.
  intros N [(n & D & ->)|[Z _]]; [|contradiction]. intros [(n' & D' & ->)|[Z _]]; [|contradiction]. rewrite (plain_once _ _ _ D D'). reflexivity.
Qed.

(** ** The reports *)

Lemma alphabetical_not s t : alphabetical s t -> alphabetical t s -> False.
Proof. rewrite <- !str_compare_alphabetical. intros A B. rewrite str_compare_sym, A in B. discriminate B. Qed.
Lemma order_once l : in_order l -> forall l', in_order l' -> (forall n : str, In n l <-> In n l') -> l = l'.
Proof.
  induction 1 as [|s ss F O IH]; intros l' O' E.
  - destruct l' as [|s' ss']; [reflexivity|]. destruct (proj2 (E s') (or_introl eq_refl)).
  - pose proof (order_distinct _ O') as D'. assert (NoDup (s :: ss)) as D by (apply order_distinct; constructor; assumption).
    destruct O' as [|s' ss' F' O']; [destruct (proj1 (E s) (or_introl eq_refl))|].
    rewrite Forall_forall in F, F'. assert (s = s') as <-.
    { destruct (proj1 (E s) (or_introl eq_refl)) as [H|H]; [congruence|]. destruct (proj2 (E s') (or_introl eq_refl)) as [K|K]; [congruence|].
      destruct (alphabetical_not _ _ (F _ K) (F' _ H)). }
    f_equal. apply IH; [exact O'|]. inversion D; subst. inversion D'; subst. intro n. specialize (E n). cbn [In] in E.
    split; intro I; [destruct (proj1 E (or_intror I)) as [<-|]|destruct (proj2 E (or_intror I)) as [<-|]]; tauto.
Qed.

Definition right_row (es : list typed_entry) (r : str * list (option str * str)) : Prop :=
  NoDup (map fst (snd r)) /\ (forall sym, In sym (map fst (snd r)) <-> moves es (fst r) sym <> [])
  /\ (forall sym t, In (sym, t) (snd r) -> total_shown t (Zsum (moves es (fst r) sym)) sym).
Lemma rows_same es es' rows rows' : same_totals es es' -> map fst rows = map fst rows' ->
  Forall (right_row es) rows -> Forall (right_row es') rows' -> Forall2 (same_row es) rows rows'.
Proof.
  intros [_ S] E F. revert rows' E. induction F as [|r rows (D & C & T) F IH]; intros [|r' rows'] E F'; try discriminate E; constructor.
  - inversion F' as [|? ? (D' & C' & T') _]; subst. injection E as E _. split; [exact E|]. split; [|split; [exact D|split; [exact D'|]]].
    + intro sym. rewrite C, C', <- E. destruct (S (fst r) sym) as [Q _]. rewrite Q. tauto.
    + intros sym t t' I I' N. specialize (T _ _ I). specialize (T' _ _ I'). rewrite <- E in T'. rewrite <- (proj2 (S (fst r) sym)) in T'. exact (total_once _ _ _ _ N T T').
  - inversion F'; subst. injection E as _ E. apply IH; assumption.
Qed.
Lemma single {A} (l : list A) s : NoDup l -> In s l -> (forall x, In x l -> x = s) -> l = [s].
Proof.
  intros D I H. destruct l as [|a l]; [destruct I|]. rewrite (H a (or_introl eq_refl)) in *. destruct l as [|b l]; [reflexivity|exfalso].
  inversion D; subst. apply H2. left. apply H. right. left. reflexivity.
Qed.
Lemma settled_row es r r' : same_row es r r' -> right_row es r -> (exists sym, Zsum (moves es (fst r) sym) <> 0
  /\ forall sym', moves es (fst r) sym' <> [] -> sym' = sym) -> r = r'.
Proof.
  intros (E & C & D & D' & T) (_ & M & _) (sym & N & U). destruct r as [n ts], r' as [n' ts']. cbn [fst snd] in *. subst n'. f_equal.
  assert (In sym (map fst ts)) as I by (apply M; intro Q; rewrite Q in N; apply N; reflexivity).
  assert (map fst ts = [sym]) as A by (apply single; [exact D|exact I|intros y J; apply U, M, J]).
  assert (map fst ts' = [sym]) as A' by (apply single; [exact D'|apply C, I|intros y J; apply U, M, C, J]).
  destruct ts as [|[s t] [|? ?]]; try discriminate A. destruct ts' as [|[s' t'] [|? ?]]; try discriminate A'. cbn [map fst] in A, A'.
  injection A as ->. injection A' as ->. rewrite (T sym t t' (or_introl eq_refl) (or_introl eq_refl) N). reflexivity.
Qed.

Lemma both_reports x args f w p text es x' args' f' w' p' text' es' :
  parse_args args = Some (Ok f) -> f_cmd f = Balance -> chosen x f p -> (0 < x_fuel x)%nat ->
  components p <> [] -> files w (resolve w p) = Some text ->
  typed_journal text es -> opened es -> modest_sums es ->
  parse_args args' = Some (Ok f') -> f_cmd f' = Balance -> chosen x' f' p' -> (0 < x_fuel x')%nat ->
  components p' <> [] -> files w' (resolve w' p') = Some text' ->
  typed_journal text' es' -> opened es' -> modest_sums es' -> same_totals es es' ->
  exists rows rows', o_out (main x args w) = flat_map row_text rows /\ o_out (main x' args' w') = flat_map row_text rows'
  /\ (forall name, In name (map fst rows) <-> named_in es name) /\ Forall (right_row es) rows /\ Forall2 (same_row es) rows rows'.
Proof.
  intros Pa Fc Ch Fu Np Fi T O M Pa' Fc' Ch' Fu' Np' Fi' T' O' M' S.
  destruct (C133_balances x args f w p text es Pa Fc Ch Fu Np Fi T O M) as (_ & _ & rows & Out & Ord & Nm & Row).
  destruct (C133_balances x' args' f' w' p' text' es' Pa' Fc' Ch' Fu' Np' Fi' T' O' M') as (_ & _ & rows' & Out' & Ord' & Nm' & Row').
  exists rows, rows'. split; [exact Out|]. split; [exact Out'|]. split; [exact Nm|].
  assert (Forall (right_row es) rows) as R by (apply Forall_forall; intros [n ts] I; exact (Row n ts I)).
  assert (Forall (right_row es') rows') as R' by (apply Forall_forall; intros [n ts] I; exact (Row' n ts I)).
  split; [exact R|]. apply rows_same with es'; [exact S| |exact R|exact R']. apply order_once; [exact Ord|exact Ord'|].
  intro n. rewrite Nm, Nm'. apply S.
Qed.

(** Journals with the same totals: the same accounts in the same order, the same
    currencies, the same texts for all totals but zero. *)
Theorem C137_rows : forall x args f w p text es x' args' f' w' p' text' es',
  parse_args args = Some (Ok f) -> f_cmd f = Balance -> chosen x f p -> (0 < x_fuel x)%nat ->
  components p <> [] -> files w (resolve w p) = Some text ->
  typed_journal text es -> opened es -> modest_sums es ->
  parse_args args' = Some (Ok f') -> f_cmd f' = Balance -> chosen x' f' p' -> (0 < x_fuel x')%nat ->
  components p' <> [] -> files w' (resolve w' p') = Some text' ->
  typed_journal text' es' -> opened es' -> modest_sums es' -> same_totals es es' ->
  exists rows rows', o_out (main x args w) = flat_map row_text rows /\ o_out (main x' args' w') = flat_map row_text rows'
  /\ (forall name, In name (map fst rows) <-> named_in es name) /\ Forall2 (same_row es) rows rows'.
Proof.
  intros x args f w p text es x' args' f' w' p' text' es' Pa Fc Ch Fu Np Fi T O M Pa' Fc' Ch' Fu' Np' Fi' T' O' M' S.
  destruct (both_reports x args f w p text es x' args' f' w' p' text' es' Pa Fc Ch Fu Np Fi T O M Pa' Fc' Ch' Fu' Np' Fi' T' O' M' S) as (rows & rows' & A & B & C & _ & D).
  exists rows, rows'. auto.
Qed.
Print Assumptions C137_rows.

(** If every account has one currency and its total is not zero, the reports are
    equal. *)
Theorem C137_partial : forall x args f w p text es x' args' f' w' p' text' es',
  parse_args args = Some (Ok f) -> f_cmd f = Balance -> chosen x f p -> (0 < x_fuel x)%nat ->
  components p <> [] -> files w (resolve w p) = Some text ->
  typed_journal text es -> opened es -> modest_sums es ->
  parse_args args' = Some (Ok f') -> f_cmd f' = Balance -> chosen x' f' p' -> (0 < x_fuel x')%nat ->
  components p' <> [] -> files w' (resolve w' p') = Some text' ->
  typed_journal text' es' -> opened es' -> modest_sums es' -> same_totals es es' -> settled es ->
  o_out (main x args w) = o_out (main x' args' w').
Proof.
  intros x args f w p text es x' args' f' w' p' text' es' Pa Fc Ch Fu Np Fi T O M Pa' Fc' Ch' Fu' Np' Fi' T' O' M' S Se.
  destruct (both_reports x args f w p text es x' args' f' w' p' text' es' Pa Fc Ch Fu Np Fi T O M Pa' Fc' Ch' Fu' Np' Fi' T' O' M' S) as (rows & rows' & -> & -> & Nm & R & F).
  f_equal. assert (forall r, In r rows -> named_in es (fst r)) as N by (intros r I; apply Nm, in_map, I). clear Nm S.
  induction F as [|r r' rows rows' H F IH]; [reflexivity|]. inversion R; subst. f_equal.
  - apply settled_row with es; [exact H|assumption|]. apply Se, N. left. reflexivity.
  - apply IH; [assumption|]. intros q I. apply N. right. exact I.
Qed.
Print Assumptions C137_partial.

(** In particular: the order of the entries does not matter. *)
Lemma permuted_totals es es' : Permutation es es' -> same_totals es es'.
Proof.
  intro P. split.
  - intro n. split; intros (e & q & I & H); exists e, q; (split; [|exact H]); [apply (Permutation_in _ P I)|apply (Permutation_in _ (Permutation_sym P) I)].
  - intros n sym. assert (Permutation (moves es n sym) (moves es' n sym)) as Q by apply Permutation_flat_map, P.
    split; [|apply Zsum_perm, Q]. split; intro E; rewrite E in Q; [apply Permutation_nil, Q|apply Permutation_nil, Permutation_sym, Q].
Qed.
Lemma permuted_opened es es' : Permutation es es' -> opened es -> opened es'.
Proof.
  intros P O e q I J A. destruct (O e q (Permutation_in _ (Permutation_sym P) I) J A) as (e' & p' & I' & H). exists e', p'. split; [apply (Permutation_in _ P I')|exact H].
Qed.
Lemma permuted_modest es es' : Permutation es es' -> modest_sums es -> modest_sums es'.
Proof.
  intros P M n sym. assert (Permutation (behind es n sym) (behind es' n sym)) as Q by apply Permutation_flat_map, P. cbv zeta.
  rewrite <- (Permutation_length Q), <- (Zsum_perm _ _ (Permutation_map Z.abs Q)).
  destruct (M n sym) as [H|[D H]]; [left; exact H|right]. split; [|exact H]. rewrite Forall_forall in *. intros z I. apply D, (Permutation_in _ (Permutation_sym Q) I).
Qed.
Theorem C137_order : forall x args f w w' p text es text' es',
  parse_args args = Some (Ok f) -> f_cmd f = Balance -> chosen x f p -> (0 < x_fuel x)%nat -> components p <> [] ->
  files w (resolve w p) = Some text -> typed_journal text es -> opened es -> modest_sums es -> settled es ->
  files w' (resolve w' p) = Some text' -> typed_journal text' es' -> Permutation es es' ->
  o_out (main x args w) = o_out (main x args w').
Proof.
  intros x args f w w' p text es text' es' Pa Fc Ch Fu Np Fi T O M Se Fi' T' P.
  exact (C137_partial x args f w p text es x args f w' p text' es' Pa Fc Ch Fu Np Fi T O M Pa Fc Ch Fu Np Fi' T'
    (permuted_opened _ _ P O) (permuted_modest _ _ P M) (permuted_totals _ _ P) Se).
Qed.
Print Assumptions C137_order.

Local Notation D y m d := (mkDate y m d eq_refl).
Local Ltac far := let E := fresh in let W := fresh in intros (? & ? & E & W); injection E as <- _; discriminate W.
Local Ltac near := eexists _, _; split; [reflexivity|reflexivity].
Local Ltac digits := repeat (constructor; [vm_compute; split; discriminate|]); constructor.
Local Ltac number n i f way := exists (lit n ++ lit i ++ lit f); exists (match n with EmptyString => false | _ => true end), (lit i), (lit (match f with EmptyString => EmptyString | String _ r => r end));
  split; [split; [digits|split; [digits|split; [discriminate|exists (lit i ++ lit f); split; [reflexivity|cbn; tauto]]]]|
  split; [unfold decimal_value; vm_compute (number_of _); vm_compute (10 ^ _); cbn; lra|split; [reflexivity|way]]].
Local Ltac line way := split; [near|split; [cbn; tauto|split; [discriminate|eexists; split; [vm_compute; reflexivity|way]]]].
Local Ltac dollar := split; [cbn; tauto|exact dollar_plain].
Local Ltac head st := split; [far|split; [split; [discriminate|reflexivity]|exists st; eexists _, _; split; [vm_compute; reflexivity|split; [constructor|]]]];
  repeat (constructor; [let H := fresh in intro H; cbn in H; repeat destruct H as [H|H]; try discriminate H; destruct H|]); constructor.
Local Ltac start t := unfold typed_journal; let c := eval vm_compute in (contents (lines t)) in change (contents (lines t)) with c;
  repeat (eapply typed_account; [far|vm_compute; reflexivity|]).
Local Ltac full := split; [vm_compute; lia|]; let p := fresh in let I := fresh in let N := fresh in intros p I N; cbn in I; repeat destruct I as [<-|I]; try discriminate N; destruct I.

(** The same entries, the later one first. *)
Definition start_entry : typed_entry := (D 2024 2 1, [mkTyped purse (Some (10050000000, None)); mkTyped (lit "equity") (Some (-10050000000, None))]).
Definition market_entry : typed_entry := (D 2024 2 5, [mkTyped (lit "food") (Some (1225000000, None)); mkTyped purse None]).
Definition first_text : str := text ["account assets:cash"; "account equity"; "account food"; "";
  "2024/02/01 * opening"; "  assets:cash  100.5"; "  equity  -100.5"; ""; "2024/02/05 ~ market"; "  food  12.25"; "  assets:cash"]%string.
Definition later_text : str := text ["account food"; "account equity"; "account assets:cash"; "";
  "2024/02/05 ~ bread"; "  food  12.25"; "  assets:cash"; "; older"; "2024/02/01 * opening"; "  assets:cash  100.50"; "  equity  -100.5"]%string.
Example C137_case : typed_journal first_text [start_entry; market_entry] /\ typed_journal later_text [market_entry; start_entry]
  /\ opened [start_entry; market_entry] /\ modest_sums [start_entry; market_entry] /\ settled [start_entry; market_entry]
  /\ shown_by ["b"]%string (world_of [(j, first_text)] [[]] []) = map lit
      ["assets:cash                             88.25"; "equity                                 -100.5"; "food                                    12.25"]%string.
Proof.
  split; [|split; [|split; [|split; [|split]]]].
  - start first_text. eapply (typed_next _ _ _ [_; _]); [head Reconciled| |full|].
    { constructor; [line ltac:(number ""%string "100"%string ".5"%string reflexivity)|]. constructor; [line ltac:(number "-"%string "100"%string ".5"%string reflexivity)|constructor]. }
    eapply (typed_next _ _ _ [_; _]); [head Cleared|constructor; [line ltac:(number ""%string "12"%string ".25"%string reflexivity)|constructor; [line reflexivity|constructor]]| |constructor].
    split; [reflexivity|]. intros p _ _. eexists. split; [left; reflexivity|]. intros y [<-|[]]. reflexivity.
  - start later_text. eapply (typed_next _ _ _ [_; _]); [head Cleared|constructor; [line ltac:(number ""%string "12"%string ".25"%string reflexivity)|constructor; [line reflexivity|constructor]]| |].
    { split; [reflexivity|]. intros p _ _. eexists. split; [left; reflexivity|]. intros y [<-|[]]. reflexivity. }
    eapply (typed_next _ _ _ [_; _]); [head Reconciled| |full|constructor].
    constructor; [line ltac:(number ""%string "100"%string ".50"%string reflexivity)|]. constructor; [line ltac:(number "-"%string "100"%string ".5"%string reflexivity)|constructor].
  - intros e p [<-|[<-|[]]] I N; repeat destruct I as [<-|I]; try discriminate; try destruct I.
    exists start_entry, (mkTyped purse (Some (10050000000, None))). split; [left; reflexivity|]. split; [left; reflexivity|].
    split; [reflexivity|]. split; [discriminate|]. unfold earlier. cbn. lia.
  - apply modest_together. vm_compute. discriminate.
  - intros n (e & p & I & J & <-). exists None. assert (In p (snd start_entry ++ snd market_entry)) as K by (destruct I as [<-|[<-|[]]]; apply in_or_app; tauto).
    split; [destruct K as [<-|[<-|[<-|[<-|[]]]]]; vm_compute; discriminate|].
    intros [s|] H; [exfalso; apply H|reflexivity]. destruct K as [<-|[<-|[<-|[<-|[]]]]]; reflexivity.
  - vm_compute. reflexivity.
Qed.

(** With two currencies their order can differ. *)
Definition coins_entry : typed_entry := (D 2024 2 1, [mkTyped purse (Some (700000000, Some (lit "$"))); mkTyped (lit "equity") (Some (-700000000, Some (lit "$")))]).
Definition notes_entry : typed_entry := (D 2024 2 1, [mkTyped purse (Some (10050000000, None)); mkTyped (lit "equity") (Some (-10050000000, None))]).
Definition coins_text : str := text ["account assets:cash"; "account equity"; "2024/02/01 * coins"; "  assets:cash  $7"; "  equity  $-7";
  "2024/02/01 * notes"; "  assets:cash  100.5"; "  equity  -100.5"]%string.
Definition notes_text : str := text ["account assets:cash"; "account equity"; "2024/02/01 * notes"; "  assets:cash  100.5"; "  equity  -100.5";
  "2024/02/01 * coins"; "  assets:cash  $7"; "  equity  $-7"]%string.
Theorem C137_refuted : exists x args f w w' p text es text' es',
  parse_args args = Some (Ok f) /\ f_cmd f = Balance /\ chosen x f p /\ (0 < x_fuel x)%nat /\ components p <> []
  /\ files w (resolve w p) = Some text /\ typed_journal text es /\ opened es /\ modest_sums es
  /\ files w' (resolve w' p) = Some text' /\ typed_journal text' es' /\ Permutation es es'
  /\ o_out (main x args w) <> o_out (main x args w').
Proof.
  exists (ctx [] (fun _ => [])), (map lit ["b"; "--no-move"; "-f"; "/j"]%string). eexists. exists (world_of [(j, coins_text)] [[]] []), (world_of [(j, notes_text)] [[]] []), (lit "/j"), coins_text, [coins_entry; notes_entry], notes_text, [notes_entry; coins_entry].
  split; [vm_compute; reflexivity|]. split; [reflexivity|]. split; [apply by_flag; reflexivity|]. split; [cbn; lia|]. split; [vm_compute; discriminate|].
  split; [vm_compute; reflexivity|]. split; [|split; [|split; [|split; [|split; [|split]]]]].
  - start coins_text. eapply (typed_next _ _ _ [_; _]); [head Reconciled| |full|].
    { constructor; [line ltac:(number ""%string "7"%string ""%string ltac:(dollar))|]. constructor; [line ltac:(number "-"%string "7"%string ""%string ltac:(dollar))|constructor]. }
    eapply (typed_next _ _ _ [_; _]); [head Reconciled| |full|constructor].
    constructor; [line ltac:(number ""%string "100"%string ".5"%string reflexivity)|]. constructor; [line ltac:(number "-"%string "100"%string ".5"%string reflexivity)|constructor].
  - intros e p [<-|[<-|[]]] I N; repeat destruct I as [<-|I]; try discriminate; destruct I.
  - apply modest_together. vm_compute. discriminate.
  - vm_compute. reflexivity.
  - start notes_text. eapply (typed_next _ _ _ [_; _]); [head Reconciled| |full|].
    { constructor; [line ltac:(number ""%string "100"%string ".5"%string reflexivity)|]. constructor; [line ltac:(number "-"%string "100"%string ".5"%string reflexivity)|constructor]. }
    eapply (typed_next _ _ _ [_; _]); [head Reconciled| |full|constructor].
    constructor; [line ltac:(number ""%string "7"%string ""%string ltac:(dollar))|]. constructor; [line ltac:(number "-"%string "7"%string ""%string ltac:(dollar))|constructor].
  - apply perm_swap.
  - vm_compute. discriminate.
Qed.
Print Assumptions C137_refuted.
