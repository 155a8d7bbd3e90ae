(** How far C17, C59, C65, C79 and C98 fail. *)
From Coq Require Import ZArith NArith List Bool String Lia.
From Verif Require Import Base Str F64 Date Amount Posting Entry Envelope Account
  SpecAmount SpecDate SpecEntry SpecEnvelope SpecHistory SpecDue SpecDefinition StrFacts EntryFacts DateBasics DateFacts FreqFacts
  DefinitionFacts EnvelopeFacts AccountFacts PropertiesDate PropertiesEntry PropertiesEnvelope PropertiesDefinition PropertiesHistory
  PropertiesOnce PropertiesDue World Ledger Importer SpecLedger SpecImport RunFacts ImportFacts PropertiesImport.
Import ListNotations.
Local Open Scope Z_scope.

Local Notation D y m d := (mkDate y m d eq_refl).

(** ** C17: whether an entry is accepted does not depend on the numbers in it,
    only on which postings are blank and on the currencies. *)
Definition same_currencies (p q : posting) : Prop :=
  match get_amount p, get_amount q with
  | None, None => True
  | Some a, Some b => symbol a = symbol b
  | _, _ => False
  end.
Theorem C17_unchecked : forall chunk e f, Forall2 same_currencies (e_postings e) (e_postings f) ->
  (validate_entry chunk e = Ok tt <-> validate_entry chunk f = Ok tt).
Proof.
  intros chunk e f H. rewrite !(proj1 (C14_blank_rule chunk _)).
  assert (blanks (e_postings e) = blanks (e_postings f) /\ named (e_postings e) = named (e_postings f)) as [B N].
  { induction H as [|p q ps qs S _ [IB IN]]; [split; reflexivity|].
    unfold blanks, named, written in *. cbn [filter flat_map]. unfold same_currencies in S.
    destruct (get_amount p) as [a|], (get_amount q) as [b|]; try contradiction.
    - split; [exact IB|]. cbn [app flat_map]. rewrite S, IN. reflexivity.
    - split; [cbn [List.length]; rewrite IB; reflexivity|exact IN]. }
  unfold acceptable. rewrite B, N. reflexivity.
Qed.
Print Assumptions C17_unchecked.
Example C17_unchecked_case :
  let e n := parse_entry (lit "2024/02/03 * one" ++ nl ++ lit " a $" ++ lit n ++ nl ++ lit " b $-7") default_format 46%N [lit "a"; lit "b"] in
  match e "7"%string, e "8"%string with
  | Ok x, Ok y => Forall2 same_currencies (e_postings x) (e_postings y) /\ x <> y
  | _, _ => False
  end.
Proof. vm_compute. split; [repeat constructor|discriminate]. Qed.

(** ** C65: a posting reaches two envelopes if and only if an expense and a goal
    have the name. *)
Definition reached (ep : envposting) (v : envelope) : Prop :=
  v_account v = ep_account ep /\ v_name v = ep_envelope ep.
Theorem C65_exact : forall today a ep, grown today a -> ep_account ep = a_name a ->
  ((exists v w, In v (all_envelopes a) /\ In w (all_envelopes a) /\ v <> w /\ reached ep v /\ reached ep w)
   <-> exists v w, In v (a_expenses a) /\ In w (a_goals a) /\ v_name v = ep_envelope ep /\ v_name w = ep_envelope ep).
Proof.
  intros today a ep G A. assert (S := grown_sound _ _ G). destruct S as (F & _).
  assert (T : (forall v, In v (a_expenses a) -> v_type v = Expense) /\ forall v, In v (a_goals a) -> v_type v = Goal).
  { clear - G. induction G as [chunk dsym fmt a H|a e b G IH H].
    - destruct (C33_unique _ _ _ _ H) as (_ & _ & X & Y). split; intros v I; [apply X, I|apply Y, I].
    - destruct IH as [X Y]. unfold acc_process in H. apply bind_Ok in H. destruct H as (ex & P & H).
      apply bind_Ok in H. destruct H as (go & Q & H). apply bind_Ok in H. destruct H as (r & _ & H). injection H as <-.
      apply map_res_Ok in P, Q. cbn [a_expenses a_goals].
      assert (K : forall vs ws T, Forall2 (fun v w => env_process today v e = Ok w) vs ws ->
        (forall v, In v vs -> v_type v = T) -> forall w, In w ws -> v_type w = T).
      { intros vs ws T F Hv w I. destruct (Forall2_In_r _ _ _ _ F I) as (v & J & E). rewrite <- (Hv v J).
        destruct (env_process_inv _ _ _ _ E) as [D _]. unfold same_definition in D. tauto. }
      split; eapply K; eassumption. }
  split.
  - intros (v & w & Iv & Iw & N & [Av Nv] & [Aw Nw]). unfold all_envelopes in Iv, Iw.
    apply in_app_or in Iv, Iw. destruct Iv as [Iv|Iv], Iw as [Iw|Iw].
    + exfalso. apply N. apply (C65_partial today a ep); auto.
    + exists v, w. auto.
    + exists w, v. auto.
    + exfalso. apply N. apply (C65_partial today a ep); auto.
  - intros (v & w & Iv & Iw & Nv & Nw). exists v, w.
    assert (Jv : In v (all_envelopes a)) by (apply in_or_app; left; exact Iv).
    assert (Jw : In w (all_envelopes a)) by (apply in_or_app; right; exact Iw).
    split; [exact Jv|]. split; [exact Jw|]. split; [|split; split; auto].
    + intros ->. apply T in Iv. apply T in Iw. congruence.
    + rewrite A. apply (F v Jv).
    + rewrite A. apply (F w Jw).
Qed.
Print Assumptions C65_exact.
Example C65_exact_case :
  match parse_account (lit "account a" ++ nl ++ lit " expense x due every 15th" ++ nl ++ lit " goal x no date") 46%N default_format with
  | Ok a => map v_name (a_expenses a) = [lit "x"] /\ map v_name (a_goals a) = [lit "x"]
  | _ => False
  end.
Proof. vm_compute. split; reflexivity. Qed.

(** ** C79: the due dates are on the weekday, or the day of the month, of the
    start. *)
Theorem C79_exact : forall today v fmt s start, year today < max_year ->
  v_starting v = Some start -> recurs fmt (Some start) (lit "every other " ++ s) (v_freq v) ->
  exists d, env_next_due today v = Ok (Some d)
  /\ (forall w, names_day s w -> (weekday_of d = weekday_num w <-> weekday_of start = weekday_num w))
  /\ (forall n, names_number s n -> day d = due_day (day start) (year d) (month d)).
Proof.
  intros today v fmt s start Y S R. apply frequency_iff in R. unfold parse_frequency in R. rewrite strip_prefix_app in R.
  destruct (parse_weekday s) as [w0|] eqn:W.
  - injection R as R.
    assert (exists x k, freq_next today (Biweekly start) = Ok (Some x) /\ dayn x = dayn start + 14 * k) as (x & k & F & K).
    { destruct (earlier_or today start) as [E|E].
      - destruct (biweekly_early today start Y E) as (x & F & A & _). apply apart_dayn in A as (k & A). exists x, k. auto.
      - destruct (biweekly_next today start Y E) as (x & F & [[_ A] _] & _). apply fortnight_dayn in A as (k & _ & A). exists x, k. auto. }
    unfold env_next_due. rewrite <- R, F, S. cbn [bind]. eexists. split; [reflexivity|].
    split; [|intros n N; apply weekday_iff in W; destruct (names_day_number _ _ _ W N)].
    intros w _. assert (weekday_of (date_max start x) = weekday_of start) as ->; [|reflexivity].
    unfold date_max. destruct (date_ltb x start); [reflexivity|]. unfold weekday_of. rewrite K.
    replace (dayn start + 14 * k - 1) with (dayn start - 1 + (2 * k) * 7) by lia. apply Z_mod_plus_full.
  - destruct (parse_day_of_month s) as [n0|]; [|discriminate]. injection R as R.
    destruct (bimonthly_next today start Y) as (k & x & F & _ & [_ B] & _).
    unfold env_next_due. rewrite <- R, F, S. cbn [bind]. eexists. split; [reflexivity|].
    split; [intros w N; apply weekday_iff in N; congruence|]. intros _ _.
    assert (Bs := date_bounds start).
    unfold date_max, due_day. destruct (date_ltb x start).
    + destruct (Z.leb_spec 1 (day start)), (Z.leb_spec (day start) (month_len (year start) (month start))); cbn [andb]; lia.
    + rewrite B. destruct (Z.leb_spec 1 (day start)), (Z.leb_spec (day start) (month_len (year x) (month x))); cbn [andb]; lia.
Qed.
Print Assumptions C79_exact.
(** Every other Friday, starting on a Sunday: due on Sundays. *)
Example C79_exact_case :
  match parse_envelope (lit "expense x due every other Friday starting 2024/03/03") checking 46%N default_format with
  | Ok v => env_next_due (D 2024 3 20) v = Ok (Some (D 2024 3 31)) /\ weekday_of (D 2024 3 31) = weekday_num Sun
  | _ => False
  end.
Proof. vm_compute. split; reflexivity. Qed.

(** ** C98: an envelope whose last move in the file is not of today is filled
    like one that was never touched. *)
Definition touched_on (d : date) (v : envelope) : envelope :=
  mkEnvelope (v_name v) (v_amount v) (v_type v) (v_auto v) (v_freq v) (v_funding v) (v_starting v)
    (v_next v) (v_now v) (v_account v) d.
Theorem C98_exact : forall today chunk dsym fmt a es b w,
  parse_account chunk dsym fmt = Ok a -> fold_res (acc_process today) es a = Ok b -> In w (all_envelopes b) ->
  exists v h, In v (all_envelopes a) /\ same_definition v w /\ moves_of_all v es h
  /\ forall av x, filling_amount today w av = Ok x ->
       (last (map fst h) epoch = today -> mag x = fzero)
       /\ (last (map fst h) epoch <> today ->
           forall d, d <> today -> filling_amount today (touched_on d w) av = Ok x).
Proof.
  intros today chunk dsym fmt a es b w P R I.
  destruct (C98_last _ _ _ _ _ _ _ _ P R I) as (v & J & S & (h & M) & L). destruct (L h M) as [E Z].
  exists v, h. split; [exact J|]. split; [exact S|]. split; [exact M|]. intros av x F.
  split; [intro T; exact (Z T av x F)|]. intros N d Nd. rewrite <- E in N. rewrite <- F.
  assert (date_eqb (v_last w) today = false) as A.
  { destruct (date_eqb (v_last w) today) eqn:Q; [|reflexivity]. apply date_eqb_iff in Q. contradiction. }
  assert (date_eqb d today = false) as B.
  { destruct (date_eqb d today) eqn:Q; [|reflexivity]. apply date_eqb_iff in Q. contradiction. }
  unfold filling_amount. cbn [touched_on v_last v_amount v_funding]. rewrite A, B. reflexivity.
Qed.
Print Assumptions C98_exact.

(** ** C59: with amounts of any number of decimals, the journal is read as if the
    entries had been imported with amounts rounded to eight decimals. *)
Theorem C59_rounded_partial : forall fuel today lower ord csv inc old s0 l wl w csv_file rules_file w' l' r recs es,
  add_from_str today inc old s0 = Ok (l, wl) ->
  Forall (fun e => journal_date (l_format l) (e_date e)) es ->
  files w (resolve w (l_path l)) = Some old ->
  import_csv fuel today lower ord csv l w csv_file rules_file = (w', Ok l') ->
  open_importer fuel w csv csv_file rules_file = Ok (r, recs) ->
  Forall2 (fun rec e => import_record lower ord r (account_names l) rec = Ok e) recs es ->
  Forall (writable_entry (account_names l)) es ->
  exists text, files w' (resolve w (l_path l)) = Some text
    /\ forall l2, fold_res (add_entry today) (map reread es) l = Ok l2 -> add_from_str today inc text s0 = Ok (l2, wl).
Proof.
  intros fuel td lower ord csv inc old s0 l wl w c rf w' l' r recs es Hold P F H Ho F2 Wr.
  unfold import_csv in H. rewrite Ho in H.
  destruct (import_records_spec _ _ _ _ _ _ _ _ H F) as (first & rest & es' & E & F2' & (J & _) & Z).
  destruct Z as [(-> & l1 & El & Z)|[(rec & rest' & -> & Z & _)|[(es0 & e & l1 & _ & _ & Z)|(_ & _ & _ & Z)]]].
  - rewrite app_nil_r in E. subst first.
    assert (es' = es) as ->.
    { clear -F2 F2'. revert es F2. induction F2' as [|x e' xs es' H H' IH]; intros es G; inversion G; subst; [reflexivity|].
      f_equal; [congruence|]. apply IH. assumption. }
    exists (old ++ appended (l_format l) es). split; [exact J|]. intros l2 G.
    exact (reload_appended td inc es old s0 l wl Hold P Wr l2 G).
  - exfalso. unfold fails_as in Z. destruct (import_record _ _ _ _ rec); [exact Z|discriminate|discriminate|discriminate].
  - exfalso. unfold fails_as in Z. destruct (add_entry td l1 e); [exact Z|discriminate|discriminate|discriminate].
  - discriminate.
Qed.
Print Assumptions C59_rounded_partial.
Example C59_rounded_case :
  let r := importing [["2024/03/01"; "one"; "5.123456789"]]%string in
  match from_file 3 PropertiesLedger.today (lit "/j") (fst r), snd r with
  | Ok (l, _), Ok l' => map reread (l_entries l') = l_entries l /\ l_entries l' <> l_entries l
  | _, _ => False
  end.
Proof. vm_compute. split; [reflexivity|discriminate]. Qed.
