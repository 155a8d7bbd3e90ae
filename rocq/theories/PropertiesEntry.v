(** C10-C19, C63: postings, entries, dates.  The vocabulary is in SpecAmount.v,
    SpecEntry.v and SpecDate.v. *)
From Coq Require Import ZArith NArith List Bool String Reals Permutation.
From Verif Require Import Base Str F64 Date Amount Posting Entry SpecAmount SpecDate SpecEntry
  PostingFacts EntryFacts DateFormat EntryText.
Import ListNotations.
Local Open Scope Z_scope.

Definition accts : list str := [lit "assets:cash"; lit "expenses:food"; lit "income:job"].
Definition iso : str := lit "%Y-%m-%d".
Definition nl : str := [10%N].

(** ** C10 *)
Theorem C10_posting_round_trip : forall (accounts : list str) (p : posting),
  writable_posting accounts p ->
  parse_posting (show_posting p) 46%N accounts = Ok (to8_posting p).
Proof. exact parse_show_posting. Qed.
Print Assumptions C10_posting_round_trip.

Example C10_case :
  match parse_amount (lit "BTC 0.5") 46%N, parse_amount (lit "$-20000.25") 46%N with
  | Ok a, Ok b =>
      let p := Classic (mkClassic (Some a) (lit "assets:cash") (Some (UnitCost b)) (Some a)) in
      show_posting p
      = lit "assets:cash                                         0.5 BTC  @ $-20000.25 !  0.5 BTC"
      /\ parse_posting (show_posting p) 46%N accts = Ok p
      /\ to8_posting p = p
  | _, _ => False
  end.
Proof. vm_compute. repeat split. Qed.

(** ** C11 *)
Theorem C11_accounts_defined : forall chunk fmt dsym accounts e c,
  parse_entry chunk fmt dsym accounts = Ok e ->
  In (Classic c) (e_postings e) -> In (c_account c) accounts.
Proof. exact entry_accounts. Qed.
Print Assumptions C11_accounts_defined.

Example C11_case :
  parse_entry (lit "2020-01-02 * a" ++ nl ++ lit " assets:bank 5" ++ nl ++ lit " income:job") iso 46%N accts
  = Err (EValidation (UndefinedAccount (lit "assets:bank")))
  /\ is_ok (parse_entry (lit "2020-01-02 * a" ++ nl ++ lit " assets:cash 5" ++ nl ++ lit " income:job") iso 46%N accts)
     = true.
Proof. vm_compute. split; reflexivity. Qed.

(** ** C12 *)
Theorem C12_clauses : forall line dsym accounts name amt cl c,
  split_ws (remove_comments line) = name :: amt ++ clause_tokens cl ->
  name <> lit "envelope" -> clauses_ok amt cl ->
  (parse_posting line dsym accounts = Ok (Classic c) <->
   c_account c = name /\ In name accounts
   /\ reads dsym (match amt with [] => None | _ => Some amt end) (c_amount c)
   /\ reads dsym (clause_of (lit "!") cl) (c_balance c)
   /\ match clause_of (lit "@") cl with
      | Some ts => exists u, reads dsym (Some ts) (Some u) /\ c_cost c = Some (UnitCost u)
      | None => exists t, reads dsym (clause_of (lit "=") cl) t /\ c_cost c = option_map TotalCost t
      end).
Proof. exact posting_clauses. Qed.
Print Assumptions C12_clauses.

Theorem C12_order : forall line line' dsym accounts name amt cl cl',
  split_ws (remove_comments line) = name :: amt ++ clause_tokens cl ->
  split_ws (remove_comments line') = name :: amt ++ clause_tokens cl' ->
  clauses_ok amt cl -> Permutation cl cl' -> name <> lit "envelope" ->
  parse_posting line dsym accounts = parse_posting line' dsym accounts.
Proof. exact posting_clause_order. Qed.
Print Assumptions C12_order.

Example C12_case :
  parse_posting (lit "assets:cash 3 BTC ! 7 BTC @ $ 20 = $60") 46%N accts
  = parse_posting (lit "  assets:cash 3 BTC = $60 @ $ 20 ! 7 BTC ; x") 46%N accts
  /\ parse_posting (lit "assets:cash 3 BTC ! 7 BTC @ $ 20 = $60") 46%N accts
     = Ok (Classic (mkClassic (Some (mkAmount (fofZ 3) (Some (lit "BTC")))) (lit "assets:cash")
             (Some (UnitCost (mkAmount (fofZ 20) (Some (lit "$")))))
             (Some (mkAmount (fofZ 7) (Some (lit "BTC")))))).
Proof. vm_compute. split; reflexivity. Qed.

(** ** C13 *)
Theorem C13_header : forall chunk fmt dsym accounts e,
  parse_entry chunk fmt dsym accounts = Ok e <->
  exists h ls, lines (trim chunk) = h :: ls
  /\ header_reads fmt h (e_date e) (e_status e) (e_desc e) (e_payee e)
  /\ e_comment e = None
  /\ Forall2 (fun l p => parse_posting l dsym accounts = Ok p)
       (filter (fun l => match trim l with [] => false | _ => true end) ls) (e_postings e)
  /\ acceptable (e_postings e).
Proof. exact parse_entry_Ok. Qed.
Print Assumptions C13_header.

Theorem C13_status_round_trip : forall st : status,
  parse_status [status_char st] = Ok st /\ sign_of st [status_char st].
Proof. exact (fun st => conj (parse_status_sign st) (sign_status st)). Qed.
Print Assumptions C13_status_round_trip.

Example C13_case :
  match parse_entry (lit "2020-02-29 ~  weekly  shop [the market] // note") iso 46%N accts with
  | Ok e => year (e_date e) = 2020 /\ month (e_date e) = 2 /\ day (e_date e) = 29
      /\ e_status e = Cleared /\ e_desc e = lit "weekly shop" /\ e_payee e = Some (lit "the market")
  | _ => False
  end
  /\ parse_entry (lit "2021-02-29 ~ x") iso 46%N accts = Err (EParse (EntryDate (lit "2021-02-29") iso (lit "2021-02-29 ~ x")))
  /\ parse_entry (lit "2020-02-29 ! x") iso 46%N accts = Err (EParse (UnknownStatus (lit "!"))).
Proof. vm_compute. repeat split. Qed.

(** ** C14 *)
Theorem C14_blank_rule : forall (chunk : str) (e : entry),
  (validate_entry chunk e = Ok tt <-> acceptable (e_postings e))
  /\ validate_entry chunk e <> Panic /\ validate_entry chunk e <> Loop.
Proof. exact (fun k e => conj (validate_entry_iff k e) (validate_entry_total k e)). Qed.
Print Assumptions C14_blank_rule.

Definition classic_p (name : string) (o : option amount) : posting :=
  Classic (mkClassic o (lit name) None None).
Definition some_date : date := mkDate 2020 1 2 eq_refl.
Definition entry_of (ps : list posting) : entry := mkEntry some_date Pending [] None None ps.
Definition amt_of (n : Z) (s : string) : amount := mkAmount (fofZ n) (Some (lit s)).
Definition plain (n : Z) : amount := mkAmount (fofZ n) None.
Example C14_case :
  validate_entry (lit "x") (entry_of [classic_p "a" None; classic_p "b" None]) = Err (EValidation (TwoBlanks (lit "x")))
  /\ validate_entry (lit "x") (entry_of [classic_p "a" (Some (amt_of 1 "$")); classic_p "b" (Some (amt_of 1 "EUR")); classic_p "c" None])
     = Err (EValidation (MixedBlank (lit "x")))
  /\ validate_entry (lit "x") (entry_of [classic_p "a" (Some (amt_of 1 "$")); classic_p "b" (Some (plain 1)); classic_p "c" None])
     = Ok tt.
Proof. vm_compute. repeat split. Qed.

(** ** C15 *)
Theorem C15_blank_amount : forall (e : entry) (sym : option str),
  (exists p, In p (e_postings e) /\ blank p) -> written (e_postings e) <> [] ->
  Forall (fun a => symbol a = sym) (written (e_postings e)) ->
  get_blank_amount e
  = Ok (Some (mkAmount (left_sum (map (fun a => fneg (mag a)) (written (e_postings e)))) sym)).
Proof. exact blank_amount_one. Qed.
Print Assumptions C15_blank_amount.

Theorem C15_balances_exactly : forall (e : entry) (sym : option str) (zs : list Z),
  (exists p, In p (e_postings e) /\ blank p) -> written (e_postings e) <> [] ->
  Forall (fun a => symbol a = sym) (written (e_postings e)) ->
  Forall2 (fun a z => f64_is (mag a) (IZR z)) (written (e_postings e)) zs ->
  Forall (fun s => Z.abs s <= 2 ^ 53) (partial_sums 0 zs) ->
  exists b, get_blank_amount e = Ok (Some b) /\ symbol b = sym /\ f64_is (mag b) (IZR (- Zsum zs)).
Proof. exact blank_amount_whole. Qed.
Print Assumptions C15_balances_exactly.

Example C15_case :
  get_blank_amount (entry_of [classic_p "a" (Some (amt_of 7 "$")); classic_p "b" None;
                              classic_p "c" (Some (amt_of (-12) "$"))])
  = Ok (Some (amt_of 5 "$")).
Proof. vm_compute. reflexivity. Qed.

(** ** C16 *)
Theorem C16_mixed_blank : forall e : entry,
  (exists p, In p (e_postings e) /\ blank p) -> mixed (e_postings e) ->
  (forall vs, Forall2 native
                (filter (fun p => match get_amount p with Some _ => true | None => false end) (e_postings e)) vs ->
     get_blank_amount e = Ok (Some (mkAmount (fold_left fsub vs fzero) None)))
  /\ ((exists p, In p (e_postings e) /\ ~ blank p /\ forall v, ~ native p v) ->
     get_blank_amount e = Err (EProcessing (NoNativeValue (full_string e)))).
Proof. exact blank_amount_mixed. Qed.
Print Assumptions C16_mixed_blank.

Example C16_case :
  get_blank_amount (entry_of
    [Classic (mkClassic (Some (amt_of 3 "BTC")) (lit "a") (Some (UnitCost (plain 20))) None);
     classic_p "b" (Some (plain 5)); classic_p "c" None;
     Classic (mkClassic (Some (amt_of 2 "EUR")) (lit "d") (Some (TotalCost (plain 9))) None)])
  = Ok (Some (plain (-74)))
  /\ get_blank_amount (entry_of
    [classic_p "a" (Some (amt_of 3 "BTC")); classic_p "b" (Some (plain 5)); classic_p "c" None])
  = Err (EProcessing (NoNativeValue (lit "2020-01-02 ?  [No payee]"
      ++ 10%N :: 9%N :: pad_right 50 (lit "a") ++ lit "  3 BTC" ++ 10%N :: 9%N :: pad_right 50 (lit "b") ++ lit "  5"
      ++ 10%N :: 9%N :: pad_right 50 (lit "c") ++ lit " "))).
Proof. vm_compute. split; reflexivity. Qed.

(** ** C17: accepted entries need not be balanced. *)
Theorem C17_refuted : exists chunk,
  match parse_entry chunk iso 46%N accts with
  | Ok e => blanks (e_postings e) = 0%nat
      /\ map symbol (written (e_postings e)) = [None; None]
      /\ left_sum (map mag (written (e_postings e))) = fofZ 7
  | _ => False
  end.
Proof.
  exists (lit "2020-01-02 * a" ++ nl ++ lit " assets:cash 5" ++ nl ++ lit " income:job 2").
  vm_compute. repeat split.
Qed.
Print Assumptions C17_refuted.

(** What holds: an accepted entry with a blank posting, whole amounts and one
    currency sums to zero together with the inferred amount. *)
Theorem C17_balanced_partial : forall chunk fmt dsym accounts e sym zs,
  parse_entry chunk fmt dsym accounts = Ok e ->
  (exists p, In p (e_postings e) /\ blank p) -> written (e_postings e) <> [] ->
  Forall (fun a => symbol a = sym) (written (e_postings e)) ->
  Forall2 (fun a z => f64_is (mag a) (IZR z)) (written (e_postings e)) zs ->
  Forall (fun s => Z.abs s <= 2 ^ 53) (partial_sums 0 zs) ->
  exists b n, get_blank_amount e = Ok (Some b) /\ symbol b = sym
  /\ f64_is (mag b) (IZR n) /\ Zsum zs + n = 0.
Proof.
  exact (fun chunk fmt dsym accounts e sym zs _ B N F Z P =>
    match blank_amount_whole e sym zs B N F Z P with
    | ex_intro _ b (conj H (conj Sy M)) =>
        ex_intro _ b (ex_intro _ (- Zsum zs) (conj H (conj Sy (conj M (Z.add_opp_diag_r _)))))
    end).
Qed.
Print Assumptions C17_balanced_partial.

Example C17_case :
  match parse_entry (lit "2020-01-02 * a" ++ nl ++ lit " assets:cash 5" ++ nl ++ lit " income:job") iso 46%N accts with
  | Ok e => get_blank_amount e = Ok (Some (plain (-5)))
  | _ => False
  end.
Proof. vm_compute. reflexivity. Qed.

(** ** C18: the reader panics on some headers; exactly on these. *)
Theorem C18_refuted : exists chunk, parse_entry chunk iso 46%N accts = Panic.
Proof. exists (lit "2020-01-02"). vm_compute. reflexivity. Qed.
Print Assumptions C18_refuted.

Theorem C18_panics_exactly : forall chunk fmt dsym accounts,
  (parse_entry chunk fmt dsym accounts = Panic <->
   exists h ls, lines (trim chunk) = h :: ls /\ header_panics fmt h)
  /\ parse_entry chunk fmt dsym accounts <> Loop.
Proof. exact (fun c f d a => conj (parse_entry_Panic c f d a) (parse_entry_Loop c f d a)). Qed.
Print Assumptions C18_panics_exactly.

Theorem C18_postings_never_panic : forall line dsym accounts,
  parse_posting line dsym accounts <> Panic /\ parse_posting line dsym accounts <> Loop.
Proof. exact parse_posting_total. Qed.
Print Assumptions C18_postings_never_panic.

Example C18_case :
  parse_entry (lit "2020-01-02 * a ]b[") iso 46%N accts = Panic
  /\ parse_entry (lit "2020-01-02 * a [b") iso 46%N accts = Err (EParse (NoClosingBracket (lit "2020-01-02 * a [b")))
  /\ parse_entry (lit "2020-01-02 // *") iso 46%N accts = Panic
  /\ parse_entry (lit "2020-01-x") iso 46%N accts = Err (EParse (EntryDate (lit "2020-01-x") iso (lit "2020-01-x"))).
Proof. vm_compute. repeat split. Qed.

(** ** C19 *)
Theorem C19_entry_round_trip : forall (fmt : str) (accounts : list str) (e : entry),
  journal_date fmt (e_date e) -> writable_entry accounts e ->
  parse_entry (show_entry fmt e) fmt 46%N accounts
  = Ok (mkEntry (e_date e) (e_status e) (e_desc e) (e_payee e) None (map to8_posting (e_postings e))).
Proof. intros fmt accounts e (ps & P & NW & U) W. exact (parse_show_entry fmt ps accounts e P NW U W). Qed.
Print Assumptions C19_entry_round_trip.

Example C19_case :
  let e := mkEntry some_date Reconciled (lit "weekly shop") (Some (lit "the market")) (Some (lit "paid ; late"))
    [classic_p "expenses:food" (Some (amt_of 12 "$")); classic_p "assets:cash" None] in
  show_entry (lit "%Y/%m/%d") e
  = lit "2020/01/02 * weekly shop [the market] // paid ; late" ++ nl
    ++ lit "    expenses:food                                      $ 12" ++ nl
    ++ lit "    assets:cash                                        " ++ nl
  /\ parse_entry (show_entry (lit "%Y/%m/%d") e) (lit "%Y/%m/%d") 46%N accts
     = Ok (mkEntry some_date Reconciled (lit "weekly shop") (Some (lit "the market")) None (e_postings e)).
Proof. vm_compute. split; reflexivity. Qed.

(** ** C63 *)
Theorem C63_date_text : forall (fmt : str) (ps : list piece) (x : date),
  pattern fmt ps x -> 0 <= year x < 10000 ->
  printable fmt = true
  /\ format_date fmt x = date_text ps x
  /\ parse_date (format_date fmt x) fmt = Some x.
Proof.
  intros fmt ps x P Y. split; [apply (printable_written fmt ps), P|].
  exact (conj (format_date_pattern fmt ps x P Y) (parse_format_date fmt ps x P Y)).
Qed.
Print Assumptions C63_date_text.

(** Writing a date succeeds exactly for valid formats. *)
Theorem C63_valid : forall fmt, printable fmt = true <-> valid_format fmt.
Proof. exact printable_iff. Qed.
Print Assumptions C63_valid.

(** A year told by two digits alone is read as one from 1970 to 2069. *)
Theorem C63_short_year : forall (fmt : str) (ps : list piece) (x : date) (y : Z),
  SpecDate.written fmt ps -> apart ps x -> tells_day ps -> has ps NShortYear -> only_short ps ->
  0 <= year x < 10000 -> 1970 <= y < 2070 -> y mod 100 = year x mod 100 ->
  (forall z, year z = y -> month z = month x -> day z = day x ->
   parse_date (format_date fmt x) fmt = Some z)
  /\ ((forall z, ~ (year z = y /\ month z = month x /\ day z = day x)) ->
      parse_date (format_date fmt x) fmt = None).
Proof.
  intros fmt ps x y W A T Hs O Y B E. rewrite (parse_short_year fmt ps x y W A T Hs O Y B E). split.
  - intros z E1 E2 E3. apply from_ymd_Some. auto.
  - intro N. destruct (from_ymd y (month x) (day x)) as [z|] eqn:F; [|reflexivity].
    apply from_ymd_Some in F. exfalso. exact (N z F).
Qed.
Print Assumptions C63_short_year.

Example C63_case :
  pattern (lit "%e %b.%Y") [PNum NDay SpacePad; PText 32%N; PMonthName false; PText 46%N; PNum NYear ZeroPad]
    (mkDate 812 3 9 eq_refl)
  /\ format_date (lit "%e %b.%Y") (mkDate 812 3 9 eq_refl) = lit " 9 Mar.0812"
  /\ parse_date (lit "9 MAR.0812") (lit "%e %b.%Y") = Some (mkDate 812 3 9 eq_refl)
  /\ format_date (lit "%Y-%j %A") (mkDate 2024 12 31 eq_refl) = lit "2024-366 Tuesday"
  /\ parse_date (lit "2024-366 Tuesday") (lit "%Y-%j %A") = Some (mkDate 2024 12 31 eq_refl)
  /\ parse_date (lit "2024-366 Monday") (lit "%Y-%j %A") = None
  /\ format_date (lit "%D") (mkDate 1969 3 9 eq_refl) = lit "03/09/69"
  /\ parse_date (lit "03/09/69") (lit "%D") = Some (mkDate 2069 3 9 eq_refl)
  /\ format_date (lit "%G-W%V-%u") (mkDate 2021 1 3 eq_refl) = lit "2020-W53-7"
  /\ parse_date (lit "2020-W53-7") (lit "%G-W%V-%u") = Some (mkDate 2021 1 3 eq_refl)
  /\ parse_date (lit "2021-W53-7") (lit "%G-W%V-%u") = None
  /\ format_date (lit "%a %U %W %Y Q%q") (mkDate 2024 3 20 eq_refl) = lit "Wed 11 12 2024 Q1"
  /\ parse_date (lit "Wed 11 12 2024 Q1") (lit "%a %U %W %Y Q%q") = Some (mkDate 2024 3 20 eq_refl)
  /\ parse_date (lit "Wed 11 11 2024 Q1") (lit "%a %U %W %Y Q%q") = None
  /\ format_date (lit "%_G") (mkDate 0 1 1 eq_refl) = lit "   -1"
  /\ printable (lit "%Y-%m-%d %H") = false /\ printable (lit "%-d%%") = true.
Proof.
  split; [|vm_compute; repeat split; reflexivity].
  split; [|split; [|left; split]].
  - apply (written_spec "e" [PNum NDay SpacePad]); [cbn; tauto|]. apply written_text; [discriminate|].
    apply (written_spec "b" [PMonthName false]); [cbn; tauto|]. apply written_text; [discriminate|].
    apply (written_spec "Y" [PNum NYear ZeroPad]); [cbn; tauto|]. apply written_nil.
  - cbn [apart]. split; [right; vm_compute; intros (A & B); apply A; reflexivity|].
    split; [exact I|]. split; [left; reflexivity|split; exact I].
  - left. split; [right; exists false; cbn; tauto|exists SpacePad; cbn; tauto].
  - left. exists ZeroPad. cbn; tauto.
Qed.
Example C63_default : forall x, 0 <= year x < 10000 -> journal_date (lit "%Y/%m/%d") x.
Proof.
  intros x Y. exists [PNum NYear ZeroPad; PText 47%N; PNum NMonth ZeroPad; PText 47%N; PNum NDay ZeroPad].
  split; [|apply default_text, Y]. split; [|split; [|left; split]].
  - apply (written_spec "Y" [PNum NYear ZeroPad]); [cbn; tauto|]. apply written_text; [discriminate|].
    apply (written_spec "m" [PNum NMonth ZeroPad]); [cbn; tauto|]. apply written_text; [discriminate|].
    apply (written_spec "d" [PNum NDay ZeroPad]); [cbn; tauto|]. apply written_nil.
  - cbn [apart]. repeat (split; [left; reflexivity|]; split; [exact I|]). exact I.
  - left. split; [left|]; exists ZeroPad; cbn; tauto.
  - left. exists ZeroPad. cbn; tauto.
Qed.
