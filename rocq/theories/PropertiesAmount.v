(** C01-C09: amounts, pools, comments.  The vocabulary is in SpecAmount.v. *)
From Coq Require Import ZArith NArith List Bool String Reals.
From Flocq Require Import Core.
From Verif Require Import Base Str F64 Amount SpecAmount AmountFacts AmountParse.
Import ListNotations.
Local Open Scope Z_scope.

(** ** C01 *)
Theorem C01_pool_sum : forall (ops : list pool_op) (sym : option str),
  pool_only (run_ops ops) sym =
  match contributions sym ops with
  | [] => mkAmount fzero None
  | l => mkAmount (left_sum l) sym
  end.
Proof. exact pool_sum. Qed.
Print Assumptions C01_pool_sum.

Definition usd (n : Z) : amount := mkAmount (fofZ n) (Some (lit "$")).
Definition eur (n : Z) : amount := mkAmount (fofZ n) (Some (lit "EUR")).
Example C01_case :
  let ops := [PAdd (usd 5); PAdd (eur 7); PSub (usd 2); PSub (eur 10)] in
  pool_only (run_ops ops) (Some (lit "$")) = usd 3
  /\ pool_only (run_ops ops) (Some (lit "EUR")) = eur (-3)
  /\ pool_only (run_ops ops) None = mkAmount fzero None.
Proof. vm_compute. repeat split. Qed.

(** ** C02 *)
Theorem C02_pool_symbols : forall ops : list pool_op,
  map symbol (run_ops ops) = first_uses (map op_symbol ops)
  /\ NoDup (map symbol (run_ops ops)).
Proof.
  exact (fun ops => conj (run_ops_symbols ops)
    (eq_ind_r (@NoDup _) (first_uses_NoDup (map op_symbol ops)) (run_ops_symbols ops))).
Qed.
Print Assumptions C02_pool_symbols.

Example C02_case :
  map symbol (run_ops [PAdd (eur 7); PSub (usd 2); PAdd (eur 1); PAdd (mkAmount fzero None)])
  = [Some (lit "EUR"); Some (lit "$"); None].
Proof. reflexivity. Qed.

(** ** C03 *)
Theorem C03_currencies_not_mixed : forall a b : amount,
  (symbol a = symbol b ->
     amount_add a b = Ok (mkAmount (fadd (mag a) (mag b)) (symbol a))
     /\ amount_sub a b = Ok (mkAmount (fsub (mag a) (mag b)) (symbol a))
     /\ amount_sub_assign a b = Ok (mkAmount (fsub (mag a) (mag b)) (symbol a))
     /\ amount_cmp a b = Ok (if fltb (mag a) (mag b) then Lt
                             else if fltb (mag b) (mag a) then Gt else Eq))
  /\ (symbol a <> symbol b ->
     amount_add a b = Panic /\ amount_sub a b = Panic
     /\ amount_sub_assign a b = Panic /\ amount_cmp a b = Panic).
Proof.
  exact (fun a b => conj
    (fun E => conj (proj1 (amount_add_spec a b) E) (conj (proj1 (amount_sub_spec a b) E)
       (conj (proj1 (amount_sub_assign_spec a b) E) (proj1 (amount_cmp_spec a b) E))))
    (fun E => conj (proj2 (amount_add_spec a b) E) (conj (proj2 (amount_sub_spec a b) E)
       (conj (proj2 (amount_sub_assign_spec a b) E) (proj2 (amount_cmp_spec a b) E))))).
Qed.
Print Assumptions C03_currencies_not_mixed.

(** Amounts are equal exactly when they are neither less nor more than each
    other, in the same currency. *)
Theorem C03_equal : forall a b : amount,
  amount_eqb a b = true <-> amount_cmp a b = Ok Eq /\ fis_nan (mag a) = false /\ fis_nan (mag b) = false.
Proof.
  intros a b. unfold amount_eqb, amount_cmp. destruct (ostr_eqb (symbol a) (symbol b)); [|rewrite andb_false_r; split; [discriminate|intros [E _]; discriminate]].
  rewrite andb_true_r. unfold feqb, fcompare, fis_nan. destruct (mag a) as [x Hx], (mag b) as [y Hy]. cbn [sf].
  unfold SpecFloat.SFeqb. destruct x, y; cbn; repeat match goal with |- context [if ?c then _ else _] => destruct c | |- context [match ?c with _ => _ end] => destruct c end; split; try discriminate; try (intros (A & B & C); congruence); auto.
Qed.
Print Assumptions C03_equal.

Example C03_case :
  amount_add (usd 2) (usd 3) = Ok (usd 5) /\ amount_add (usd 2) (eur 3) = Panic
  /\ amount_sub (usd 2) (mkAmount fzero None) = Panic /\ amount_cmp (eur 2) (eur 3) = Ok Lt
  /\ amount_eqb (usd 2) (usd 2) = true /\ amount_eqb (usd 2) (eur 2) = false.
Proof. vm_compute. repeat split. Qed.

(** ** C04 *)
Theorem C04_whole_numbers_exact : forall (ops : list pool_op) (sym : option str) (zs : list Z),
  Forall2 (fun x z => f64_is x (IZR z)) (contributions sym ops) zs ->
  Forall (fun s => Z.abs s <= 2 ^ 53) (partial_sums 0 zs) ->
  f64_is (mag (pool_only (run_ops ops) sym)) (IZR (Zsum zs)).
Proof.
  exact (fun ops sym zs H P =>
    eq_ind_r (fun m => f64_is m (IZR (Zsum zs))) (left_sum_int _ zs H P) (pool_only_mag ops sym)).
Qed.
Print Assumptions C04_whole_numbers_exact.

Example C04_case :
  contributions (Some (lit "$")) [PAdd (usd 9007199254740991); PAdd (eur 3); PSub (usd 9007199254740000)]
  = [fofZ 9007199254740991; fofZ (-9007199254740000)]
  /\ Forall (fun s => Z.abs s <= 2 ^ 53) (partial_sums 0 [9007199254740991; -9007199254740000])
  /\ pool_only (run_ops [PAdd (usd 9007199254740991); PAdd (eur 3); PSub (usd 9007199254740000)])
       (Some (lit "$")) = usd 991.
Proof.
  split; [vm_compute; reflexivity|]. split; [|vm_compute; reflexivity].
  repeat constructor; vm_compute; discriminate.
Qed.

(** ** C05 *)
Theorem C05_nearest : forall (dsym : char) (t : str) (neg : bool) (ip fp : str),
  proper_dsym dsym -> spells dsym t neg ip fp ->
  exists m, parse_amount t dsym = Ok (mkAmount m None)
            /\ nearest_f64 m neg (decimal_value neg ip fp).
Proof. exact parse_spelled. Qed.
Print Assumptions C05_nearest.

Example C05_case :
  proper_dsym 44%N /\ spells 44%N (lit "-3,1415") true (lit "3") (lit "1415")
  /\ match parse_amount (lit "-3,1415") 44%N with
     | Ok a => show_amount a = lit "-3.1415"
     | _ => False
     end.
Proof.
  split; [|split].
  - unfold proper_dsym, digit_char, blank_char. repeat split; try discriminate. intros [H _]. now apply H.
  - unfold spells. repeat split; try (repeat constructor; easy); try discriminate.
    exists (lit "3,1415"). split; [reflexivity|]. right. reflexivity.
  - vm_compute. reflexivity.
Qed.

(** ** C06 *)
Theorem C06_accepted_texts : forall (s : str) (dsym : char) (a : amount),
  proper_dsym dsym ->
  (parse_amount s dsym = Ok a <-> amount_text s dsym (mag a) (symbol a)).
Proof. exact parse_amount_iff. Qed.
Print Assumptions C06_accepted_texts.

(** For decimal symbols that are digits, dashes or blanks, too. *)
Theorem C06_any_symbol : forall (s : str) (dsym : char) (a : amount),
  parse_amount s dsym = Ok a <-> amount_text_any s dsym (mag a) (symbol a).
Proof. exact parse_amount_any. Qed.
Print Assumptions C06_any_symbol.

Theorem C06_never_panics : forall (s : str) (dsym : char),
  (exists a, parse_amount s dsym = Ok a)
  \/ parse_amount s dsym = Err (EParse (AmountTokens (without_double_dash s)))
  \/ parse_amount s dsym = Err (EParse (AmountMag (without_double_dash s))).
Proof. exact parse_amount_total. Qed.
Print Assumptions C06_never_panics.

Theorem C06_symbol_clean : forall (s : str) (dsym : char) (m : f64) (sym : str),
  proper_dsym dsym -> parse_amount s dsym = Ok (mkAmount m (Some sym)) ->
  sym <> [] /\ StrFacts.trimmed sym
  /\ Forall (fun c => ~ digit_char c /\ c <> 45%N /\ c <> 46%N /\ c <> 44%N /\ c <> dsym) sym.
Proof.
  exact (fun s d m sym Pd H =>
    amount_symbol_clean s d m sym Pd (proj1 (parse_amount_iff s d (mkAmount m (Some sym)) Pd) H)).
Qed.
Print Assumptions C06_symbol_clean.

Example C06_case :
  parse_amount (lit " $ -1,204.50") 46%N = parse_amount (lit "$-1204.5") 46%N
  /\ is_ok (parse_amount (lit "$-1204.5") 46%N) = true
  /\ parse_amount (lit "12 US $") 46%N = Err (EParse (AmountTokens (lit "12 US $")))
  /\ parse_amount (lit "1-2") 46%N = Err (EParse (AmountMag (lit "1-2")))
  /\ parse_amount (lit "8 USD") 46%N = Ok (mkAmount (fofZ 8) (Some (lit "USD"))).
Proof. vm_compute. repeat split. Qed.

(** ** C07 *)
Theorem C07_print_parse : forall a : amount,
  finite (rounded_mag a) -> plain_symbol (symbol a) ->
  parse_amount (show_amount a) 46%N = Ok (mkAmount (rounded_mag a) (symbol a)).
Proof.
  exact (fun a F P => parse_show_amount a (eq_trans (F64Facts.ffin_SF _) F) P).
Qed.
Print Assumptions C07_print_parse.

Theorem C07_eight_decimals : forall a : amount,
  finite (rounded_mag a) -> eight_decimals (rounded_mag a) (mag a).
Proof. exact (fun a F => rounded_mag_near a (eq_trans (F64Facts.ffin_SF _) F)). Qed.
Print Assumptions C07_eight_decimals.

Example C07_case :
  let third := mkAmount (fdiv (fofZ 1) (fofZ 3)) (Some (lit "EUR")) in
  show_amount third = lit " 0.33333333 EUR"
  /\ finite (rounded_mag third) /\ plain_symbol (symbol third)
  /\ show_amount (usd (-12)) = lit "$-12".
Proof.
  vm_compute. repeat split; try discriminate; repeat constructor; try discriminate; intros [H H'];
    first [now apply H | now apply H'].
Qed.

(** ** C08 *)
Theorem C08_short_decimals_stable : forall (a : amount) (neg : bool) (ip fp : str),
  Forall digit_char ip -> Forall digit_char fp -> (List.length fp <= 8)%nat ->
  number_of (ip ++ fp) * 10 ^ (8 - Z.of_nat (List.length fp)) < 2 ^ 51 ->
  nearest_f64 (mag a) neg (decimal_value neg ip fp) ->
  finite (mag a) /\ rounded_mag a = mag a.
Proof.
  exact (fun a neg ip fp A F L B N =>
    match short_decimal_stable a neg ip fp A F L B N with
    | conj X Y => conj (eq_trans (eq_sym (F64Facts.ffin_SF _)) X) Y
    end).
Qed.
Print Assumptions C08_short_decimals_stable.

Example C08_case :
  number_of (lit "1234567" ++ lit "12345678") * 10 ^ (8 - Z.of_nat (List.length (lit "12345678"))) < 2 ^ 51
  /\ match parse_amount (lit "-1234567.12345678") 46%N with
     | Ok a => rounded_mag a = mag a /\ show_amount a = lit "-1234567.12345678"
     | _ => False
     end.
Proof. vm_compute. repeat split. Qed.

(** ** C09 *)
Theorem C09_remove_comments : forall s r : str,
  remove_comments s = r <->
  exists rest, s = r ++ rest
    /\ (forall i, (i < List.length r)%nat -> ~ mark_at (skipn i s))
    /\ (rest = [] \/ mark_at rest).
Proof. exact remove_comments_iff. Qed.
Print Assumptions C09_remove_comments.

Example C09_case :
  remove_comments (lit "a / b // c ; d") = lit "a / b "
  /\ remove_comments (lit "a ; b // c") = lit "a "
  /\ remove_comments (lit "plain") = lit "plain".
Proof. vm_compute. repeat split. Qed.
