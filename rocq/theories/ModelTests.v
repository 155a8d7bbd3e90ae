(** The unit tests of the repository, run on the model.  These are tests only. *)
From Coq Require Import ZArith NArith List Bool String.
From Verif Require Import Base Str F64 Date World Amount Posting Entry Envelope Account Ledger Importer Csv.
Import ListNotations.
Local Open Scope Z_scope.
Local Notation D y m d := (mkDate y m d eq_refl) (only parsing).

Definition text (ls : list string) : str := join [10%N] (map lit ls).
Definition number (s : string) : f64 := match parse_f64 (lit s) with Some f => f | None => fzero end.

(** ** src/entry.rs 545-588 *)
Example entry_parse_test :
  match parse_entry (text ["2019/08/02 * Groceries [Grocery store]"; "            assets:checking    -50"; "            expenses:groceries  50"]%string)
          (lit "%Y/%m/%d") (chr ".") [lit "assets:checking"; lit "expenses:groceries"] with
  | Ok e => e_date e = D 2019 8 2 /\ e_status e = Reconciled /\ e_desc e = lit "Groceries"
      /\ e_payee e = Some (lit "Grocery store") /\ List.length (e_postings e) = 2%nat
  | _ => False
  end.
Proof. vm_compute. repeat split; reflexivity. Qed.

(** ** src/account.rs 236-307 *)
Definition account_str : str := text
  ["account assets:checking"; "             goal yearly_goal due every year starting 2020/2/20";
   "                 amount 1000 CAD"; "             expense groceries due every 5th"; "                 amount 300 USD";
   "                 for expenses:food:groceries"; "                 funding conservative"]%string.
Example account_parse_test :
  match parse_account account_str (chr ".") (lit "%Y/%m/%d") with
  | Ok a => a_name a = lit "assets:checking"
      /\ map (fun v => (v_name v, v_freq v)) (a_expenses a) = [(lit "groceries", Monthly 5)]
      /\ map (fun v => (v_name v, v_freq v)) (a_goals a) = [(lit "yearly_goal", Annually (D 2020 2 20))]
  | _ => False
  end.
Proof. vm_compute. repeat split; reflexivity. Qed.
Example blank_account_test : exists e, parse_account (lit "account ") (chr ".") (lit "%Y/%m/%d") = Err e.
Proof. eexists. vm_compute. reflexivity. Qed.
Example parse_with_spaces_test : exists e, parse_account (lit "account assets bank checking") (chr ".") (lit "%Y/%m/%d") = Err e.
Proof. eexists. vm_compute. reflexivity. Qed.

(** ** src/envelope.rs 914-928 *)
Example subtract_months_test :
  subtract_months (D 2019 8 2) 3 = Ok (D 2019 5 2) /\ subtract_months (D 2020 1 1) 3 = Ok (D 2019 10 1).
Proof. vm_compute. repeat split; reflexivity. Qed.

(** ** src/importer.rs 514-799 *)
Definition rules_str : str := text
  ["fields date, description, amount, currency, native_price, other"; ""; "amount %amount% %currency% @ %native_price%";
   "account assets:test"; ""; "decimal_symbol ."; ""; "date_format %Y.%m.%d"; ""; "comment test comment"; ""; "skip 1"; "";
   "if test0"; "    comment single condition test"; ""; "if test1"; "test2"; "test3"; "    comment multiple condition test";
   "    payee Ferris the Crab"; ""; "if bad decimal"; "test4"; "test5"; "    comment comma decimal_symbol test"; "    decimal_symbol ,"]%string.
Definition csv_str : str := text
  ["date,description,amount,currency,native_price,other"; "2020.10.09,Test CSV Entry One,1.2,BTC,11000,";
   "2020.11.12,Test CSV Entry Two,-3.4,BTC,10000,test0"; "2020.12.13,Test CSV Entry Three,5.6,BTC,9000,test1";
   "2020.01.02,Test CSV Entry Four,-7.8,BTC,8000,test2"; "2020.02.14,Test CSV Entry Five,""9,1"",BTC,12000,bad decimal"]%string.

(** The rules that lines 757-798 build. *)
Definition expected_rules : rules :=
  let r0 := set_skip (set_format (set_comment (set_accounts (set_amounts (set_fields default_rules
    (map lit ["date"; "description"; "amount"; "currency"; "native_price"; "other"]%string))
    [([], lit "%amount% %currency% @ %native_price%")]) [([], lit "assets:test")]) (lit "test comment")) (lit "%Y.%m.%d")) 1 in
  let r1 := push_subrules r0 ([lit "test0"], set_comment r0 (lit "single condition test")) in
  let r2 := push_subrules r1 (map lit ["test1"; "test2"; "test3"]%string,
    set_payee (set_comment r1 (lit "multiple condition test")) (lit "Ferris the Crab")) in
  push_subrules r2 (map lit ["bad decimal"; "test4"; "test5"]%string,
    set_comment (set_decimal r2 (chr ",")) (lit "comma decimal_symbol test")).
Definition empty_world : world := mkWorld (fun _ => None) (fun _ => true) [].
Example parse_rules_test : parse_rules 1 empty_world rules_str = Ok expected_rules.
Proof. vm_compute. reflexivity. Qed.

Definition expected_entry (d : date) (desc : string) (payee : option str) (mag price other comment : string) : entry :=
  new_entry d Cleared (lit desc) payee
    [Classic (mkClassic (Some (mkAmount (number mag) (Some (lit "BTC")))) (lit "assets:test")
       (Some (UnitCost (mkAmount (number price) None))) None);
     Classic (mkClassic None (lit other) None None)] (Some (lit comment)).
(** All tests have lower case letters only where it matters. *)
Definition same (s : str) : str := s.
Example parse_csv_test :
  match parse_rules 1 empty_world rules_str with
  | Ok r =>
      (let! recs := collect_records (skip_records (r_skip r) (csv_reader csv_str)) in
       map_res (import_record same (fun l => l) r [lit "assets:test"]) recs)
      = Ok [expected_entry (D 2020 10 9) "Test CSV Entry One" None "1.2" "11000" "income:unknown" "test comment";
            expected_entry (D 2020 11 12) "Test CSV Entry Two" None "-3.4" "10000" "expenses:unknown" "single condition test";
            expected_entry (D 2020 12 13) "Test CSV Entry Three" (Some (lit "Ferris the Crab")) "5.6" "9000" "income:unknown" "multiple condition test";
            expected_entry (D 2020 1 2) "Test CSV Entry Four" (Some (lit "Ferris the Crab")) "-7.8" "8000" "expenses:unknown" "multiple condition test";
            expected_entry (D 2020 2 14) "Test CSV Entry Five" None "9.1" "12000" "income:unknown" "comma decimal_symbol test"]
  | _ => False
  end.
Proof. vm_compute. reflexivity. Qed.
