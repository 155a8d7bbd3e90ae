(** Properties C52 and C53: the register. *)
From Coq Require Import ZArith NArith List Bool String Reals Lia.
From Verif Require Import Base Str F64 Date Amount Posting Entry Register Ledger
  SpecAmount SpecDate SpecEntry SpecEnvelope SpecLedger SpecRegister
  AmountFacts DateFormat LedgerFacts RegisterFacts PropertiesLedger.
Import ListNotations.
Local Open Scope Z_scope.
Local Notation D y m d := (mkDate y m d eq_refl).

(** ** C52 *)
Theorem C52_register : forall es fmt b e m text, register_display true es fmt b e m = Ok text ->
  exists rows wd, listed b e m es rows /\ page wd fmt m [] rows text
  /\ forall rows', listed b e m es rows' -> rows' = rows.
Proof.
  intros es fmt b e m text H. destruct (register_Ok es fmt b e m text H) as (rows & wd & L & P).
  exists rows, wd. split; [exact L|]. split; [exact P|]. intros rows' L'. exact (listed_unique _ _ _ _ _ _ L' L).
Qed.
Print Assumptions C52_register.

(** It is shown if the date format is valid and all blank amounts of the chosen entries can be inferred. *)
Theorem C52_shown : forall es fmt b e m, valid_format fmt ->
  (forall x, In x es -> selected b e m x -> forall p, In p (e_postings x) -> exists a, worth x p a) ->
  exists text, register_display true es fmt b e m = Ok text.
Proof. intros es fmt b e m V. apply register_total, printable_iff, V. Qed.
Print Assumptions C52_shown.

(** Exactly these entries. *)
Theorem C52_exactly : forall b e m es rows x, listed b e m es rows ->
  (In x (map fst rows) <->
   In x es /\ selected b e m x /\ exists ws, weighed x ws /\ ~ all_zero (focus m ws)).
Proof.
  intros b e m es rows x L.
  induction L as [|y xs rs N L IH|y xs rs ws Sy W Z L IH|y xs rs ws Sy W Z L IH]; cbn [map In fst].
  - tauto.
  - rewrite IH. split; [tauto|]. intros ([<-|I] & Sx & H); [contradiction|tauto].
  - rewrite IH. split; [tauto|]. intros ([<-|I] & Sx & ws' & W' & Z'); [|eauto 6].
    rewrite (weighed_unique _ _ _ W W') in Z. contradiction.
  - rewrite IH. split.
    + intros [<-|H]; [|tauto]. split; [left; reflexivity|]. eauto.
    + intros ([<-|I] & H); [left; reflexivity|]. right. tauto.
Qed.
Print Assumptions C52_exactly.

Definition spending : list string :=
  ["account assets:bank"; "account assets:cash"; "account expenses:food"; "account income:job";
   "2024/01/05 * pay"; " assets:bank 100"; " income:job";
   "2024/01/06 ~ withdraw"; " assets:bank -20"; " assets:cash 20";
   "2024/01/07 ? lunch"; " expenses:food 7.50"; " assets:cash";
   "2024/01/08 * abroad"; " expenses:food 3 EUR"; " assets:cash -3 EUR"; " assets:bank -1"; " expenses:food 1";
   "2024/02/01 * late"; " assets:bank 5"; " income:job"]%string.
Example C52_case :
  show_register true (loaded spending) (Some (D 2024 1 5)) (Some (D 2024 1 8)) None
  = Ok (text [
    "2024/01/05 * pay      income:job -> assets:bank       100     100";
    "2024/01/07 ? lunch   assets:cash -> expenses:food    -7.5    92.5";
    "2024/01/08 * abroad   (multiple) -> expenses:food  -3 EUR  -3 EUR";
    "                                                       -1    91.5"; ""]%string).
Proof. vm_compute. reflexivity. Qed.
Example C52_focus :
  show_register true (loaded spending) None None (Some (lit ":j"))
  = Ok (text [
    "2024/01/05 * pay   income:job -> assets:bank  -100  -100";
    "2024/02/01 * late  income:job -> assets:bank    -5  -105"; ""]%string).
Proof. vm_compute. reflexivity. Qed.

(** ** C53 *)
(** Every amount shown has a line, with the sum over all rows up to its own. *)
Theorem C53_running_total : forall es fmt b e m text, register_display true es fmt b e m = Ok text ->
  exists rows wd, listed b e m es rows
  /\ forall before x ws after a, rows = before ++ (x, ws) :: after -> In a (focus m ws) ->
     exists pre line post, text = pre ++ line ++ post
     /\ amount_line wd (flat_map (fun r => focus m (snd r)) before ++ focus m ws) a line.
Proof.
  intros es fmt b e m text H. destruct (register_Ok es fmt b e m text H) as (rows & wd & L & P).
  exists rows, wd. split; [exact L|]. intros before x ws after a E I.
  change (flat_map _ before ++ focus m ws) with ([] ++ flat_map (fun r : row => focus m (snd r)) before ++ focus m ws).
  exact (page_line _ _ _ _ _ _ P _ _ _ _ _ E I).
Qed.
Print Assumptions C53_running_total.

Theorem C53_exact : forall sym xs zs,
  Forall2 (fun y z => f64_is y (IZR z)) (contributions sym (map PAdd xs)) zs ->
  Forall (fun s => Z.abs s <= 2 ^ 53) (partial_sums 0 zs) ->
  f64_is (mag (total_in sym xs)) (IZR (Zsum zs)).
Proof. intros. apply left_sum_int; assumption. Qed.
Print Assumptions C53_exact.

Example C53_case :
  let eur := Some (lit "EUR") in
  let rows := [mkAmount (fofZ 5) None; mkAmount (fofZ 7) eur; mkAmount (fofZ 2) None; mkAmount (fofZ (-9)) eur] in
  map show_amount [total_in None rows; total_in eur rows] = map lit [" 7"; "-2 EUR"]%string
  /\ show_register true (loaded
       ["account assets:b"; "account income:a";
        "2024/01/05 * x"; " assets:b 5"; " assets:b 7 EUR"; " income:a -5"; " income:a -7 EUR";
        "2024/01/06 * y"; " assets:b 2"; " income:a -2";
        "2024/01/07 * z"; " assets:b -9 EUR"; " income:a"]%string) None None None
     = Ok (text [
       "2024/01/05 * x  income:a -> assets:b       5       5";
       "                                       7 EUR   7 EUR";
       "2024/01/06 * y  income:a -> assets:b       2       7";
       "2024/01/07 * z  assets:b -> income:a  -9 EUR  -2 EUR"; ""]%string).
Proof. vm_compute. split; reflexivity. Qed.
