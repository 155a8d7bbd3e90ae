(** Properties C78 to C81: what envelope definitions say. *)
From Coq Require Import ZArith NArith List Bool String Lia.
From Verif Require Import Base Str F64 Date Amount Posting Entry Envelope Account
  SpecAmount SpecDate SpecEntry SpecEnvelope SpecDefinition
  StrFacts LineFacts EntryFacts AmountParse DateFormat DateFacts FreqFacts DefinitionFacts DueFacts PropertiesDate.
Import ListNotations.
Local Open Scope Z_scope.

Local Ltac day := (vm_compute; reflexivity).
Definition ymd (y m d : Z) : option date := from_ymd y m d.

(** ** C78 *)
Theorem C78_reads : forall chunk account dsym fmt h body kind name starting f ss,
  lines (trim chunk) = h :: body -> header_says fmt h kind name starting f ->
  Forall2 (line_says dsym) body ss ->
  exists v, parse_envelope chunk account dsym fmt = Ok v
            /\ described account name kind starting f ss v.
Proof. exact envelope_reads. Qed.
Print Assumptions C78_reads.

Theorem C78_only : forall chunk account dsym fmt v, parse_envelope chunk account dsym fmt = Ok v ->
  exists h body kind name starting f ss, lines (trim chunk) = h :: body
    /\ header_says fmt h kind name starting f /\ Forall2 (line_says dsym) body ss
    /\ described account name kind starting f ss v.
Proof. exact envelope_only. Qed.
Print Assumptions C78_only.

(** Only a blank line in the middle crashes it. *)
Theorem C78_crash : forall chunk account dsym fmt, parse_envelope chunk account dsym fmt = Panic <->
  exists h pre b post kind name starting f ss, lines (trim chunk) = h :: pre ++ b :: post
    /\ header_says fmt h kind name starting f /\ Forall2 (line_says dsym) pre ss
    /\ trim (remove_comments b) = [].
Proof.
  intros. rewrite envelope_crash.
  split; intros (h & pre & b & post & kind & name & st & f & ss & E & H & F & B); exists h, pre, b, post, kind, name, st, f, ss;
    (split; [exact E|]; split; [exact H|]; split; [exact F|]); apply trim_nil; exact B.
Qed.
Print Assumptions C78_crash.

(** The example of the README. *)
Definition nl : str := [10%N].
Definition rent : str := lit "    expense rent due every 15th                 // due the 15th of every month" ++ nl
  ++ lit "        amount 1000                             // for $1000" ++ nl
  ++ lit "        for expenses:home:rent                  // automatically" ++ nl
  ++ lit "        funding aggressive                      // use aggressive funding" ++ nl.
Definition checking : str := lit "assets:checking".
Example C78_case :
  (exists v, parse_envelope rent checking 46%N default_format = Ok v
     /\ v_name v = lit "rent" /\ v_type v = Expense /\ v_freq v = Monthly 15 /\ v_starting v = None
     /\ show_amount (v_amount v) = lit " 1000" /\ v_auto v = [lit "expenses:home:rent"] /\ v_funding v = Aggressive)
  /\ (exists d, ymd 2019 10 20 = Some d /\
      forall h, h = lit "expense streaming due every Monday starting 2019/10/20" ->
      header_says default_format h Expense (lit "streaming") (Some d) (Weekly Mon))
  /\ parse_envelope (lit "goal boat by 2025/06/28" ++ nl ++ lit "  // a boat" ++ nl ++ lit "  amount 5") checking 46%N default_format = Panic
  /\ parse_envelope (lit "goal boat by 2025/06/28" ++ nl ++ lit "  amount 5" ++ nl ++ lit "   ") checking 46%N default_format <> Panic.
Proof.
  split; [eexists; split; [vm_compute; reflexivity|vm_compute; repeat split]|].
  split; [|split; [vm_compute; reflexivity|vm_compute; discriminate]].
  destruct (ymd 2019 10 20) as [d|] eqn:E; [|discriminate]. exists d. split; [reflexivity|]. intros h ->.
  assert (H : envelope_header (lit "expense streaming due every Monday starting 2019/10/20") default_format []
    = Ok (header_envelope [] (lit "streaming") Expense (Some d) (Weekly Mon))).
  { vm_compute in E. injection E as <-. vm_compute. reflexivity. }
  apply header_iff in H as (k & n & s & f & H & Hv). unfold header_envelope in Hv. injection Hv as A1 A2 A3 A4.
  rewrite <- A2, <- A3, <- A4 in H. replace n with (lit "streaming") in H by (rewrite <- A1; reflexivity). exact H.
Qed.

(** ** C79 *)
Lemma due_after_start today v start d : v_starting v = Some start -> freq_next today (v_freq v) = Ok (Some d) ->
  not_later start d -> env_next_due today v = Ok (Some d).
Proof.
  intros S F L. unfold env_next_due. rewrite F, S. cbn [bind]. do 2 f_equal. unfold date_max.
  destruct (date_ltb d start) eqn:E; [|reflexivity]. apply date_ltb_iff in E. exfalso. exact (earlier_irrefl _ _ E L).
Qed.
(** When the starting date is itself one of the days named, the due dates are. *)
Theorem C79_partial : forall today v fmt s start, year today < max_year ->
  v_starting v = Some start -> recurs fmt (Some start) (lit "every other " ++ s) (v_freq v) ->
  not_later start today ->
  (forall w, names_day s w -> weekday_of start = weekday_num w ->
     exists d, env_next_due today v = Ok (Some d) /\ earlier today d /\ weekday_of d = weekday_num w)
  /\ (forall n, names_number s n -> day start = n ->
     exists d, env_next_due today v = Ok (Some d) /\ not_later today d /\ day d = due_day n (year d) (month d)).
Proof.
  intros today v fmt s start Y S R L. apply frequency_iff in R. split.
  - intros w N D. unfold parse_frequency in R. rewrite strip_prefix_app in R. apply weekday_iff in N. rewrite N in R. injection R as R.
    destruct (biweekly_next today start Y L) as (d & F & [[A B] _] & _). rewrite R in F.
    exists d. split; [apply due_after_start with start; auto|].
    + apply not_later_dayn. apply earlier_dayn in A. apply not_later_dayn in L. lia.
    + split; [exact A|]. apply fortnight_dayn in B as (k & _ & B). rewrite <- D. unfold weekday_of. rewrite B.
      replace (dayn start + 14 * k - 1) with (dayn start - 1 + (2 * k) * 7) by lia. apply Z_mod_plus_full.
  - intros n N D. unfold parse_frequency in R. rewrite strip_prefix_app in R.
    destruct (parse_weekday s) as [w|] eqn:W; [apply weekday_iff in W; destruct (names_day_number _ _ _ W N)|].
    apply number_iff in N. rewrite N in R. injection R as R.
    destruct (bimonthly_next today start Y) as (k & d & F & K & [_ B] & C & _). rewrite R in F.
    exists d. split; [apply due_after_start with start; auto|].
    + exact (not_later_trans _ _ _ L C).
    + split; [exact C|]. rewrite B. unfold due_day.
      assert (Bs := date_bounds start). rewrite <- D.
      destruct (Z.leb_spec 1 (day start)), (Z.leb_spec (day start) (month_len (year d) (month d))); cbn [andb]; lia.
Qed.
Print Assumptions C79_partial.

(** The day named does not matter otherwise. *)
Theorem C79_ignored : forall fmt starting s s' f, recurs fmt starting (lit "every other " ++ s) f ->
  (exists w w', names_day s w /\ names_day s' w') \/ (exists n n', names_number s n /\ names_number s' n') ->
  recurs fmt starting (lit "every other " ++ s') f.
Proof.
  intros fmt st s s' f R H. apply frequency_iff in R. apply frequency_iff. unfold parse_frequency in *.
  rewrite strip_prefix_app in *. destruct st as [d|]; [|discriminate].
  destruct H as [(w & w' & A & B)|(n & n' & A & B)].
  - apply weekday_iff in A, B. rewrite A in R. rewrite B. exact R.
  - assert (NW : forall t m, names_number t m -> parse_weekday t = None).
    { intros t m Hm. destruct (parse_weekday t) as [w|] eqn:W; [|reflexivity].
      apply weekday_iff in W. destruct (names_day_number _ _ _ W Hm). }
    rewrite (NW _ _ A) in R. rewrite (NW _ _ B). apply number_iff in A, B. rewrite A in R. rewrite B. exact R.
Qed.
Print Assumptions C79_ignored.

(** The README's own example: due on the 20th, not on the 15th. *)
Definition electricity : str :=
  lit "expense electricity due every other 15th starting 2020/01/20    // due the 15th of every other month".
Theorem C79_refuted : exists today v d,
  parse_envelope (remove_comments electricity) checking 46%N default_format = Ok v
  /\ (year today, month today, day today) = (2020, 2, 1)
  /\ env_next_due today v = Ok (Some d) /\ (year d, month d, day d) = (2020, 3, 20).
Proof.
  exists (mkDate 2020 2 1 eq_refl). eexists. exists (mkDate 2020 3 20 eq_refl). split; [vm_compute; reflexivity|]. split; [reflexivity|]. split; vm_compute; reflexivity.
Qed.
Print Assumptions C79_refuted.

(** ** C80 *)
Lemma described_header account name kind starting f v :
  described account name kind starting f [] v <-> v = header_envelope account name kind starting f.
Proof.
  split; [|intros ->; apply (described_fields account name kind starting f [])].
  intros (A1 & A2 & A3 & A4 & A5 & A6 & A7 & _ & A8 & A9 & A10 & A11 & A12 & A13).
  destruct v as [n am ty au fr fu st nx nw ac la]. cbn in *. subst. unfold header_envelope. f_equal.
  - destruct au as [|a au]; [reflexivity|]. destruct (proj1 (A8 a) (or_introl eq_refl)).
  - apply date_eq; assumption.
Qed.
Lemma token_is name : token name -> is_token name.
Proof. apply token_iff. Qed.
Theorem C80_says : forall k name post fmt account u, token name -> unmarked name ->
  name <> lit "by" -> name <> lit "starting" -> In u due_words ->
  ~ inside (lit " by ") (32%N :: post) -> ~ inside (lit " due ") (32%N :: post) ->
  (forall r, post <> lit "starting " ++ r) ->
  forall v, envelope_header (front k name ++ u ++ 32%N :: post) fmt account = Ok v <->
    exists starting f, tail_says fmt post starting f
      /\ described account name k starting f [] v.
Proof.
  intros k name post fmt account u T M N1 N2 U P1 P2 P3 v.
  rewrite (line_header k name u post fmt) by (auto using token_is; apply markfree_iff, M).
  split; intros (st & f & A & B); exists st, f; (split; [exact A|]); apply described_header; exact B.
Qed.
Print Assumptions C80_says.

Theorem C80_same : forall k name post fmt account u u' v, token name -> unmarked name ->
  name <> lit "by" -> name <> lit "starting" -> In u due_words -> In u' due_words ->
  ~ inside (lit " by ") (32%N :: post) -> ~ inside (lit " due ") (32%N :: post) ->
  (forall r, post <> lit "starting " ++ r) ->
  envelope_header (front k name ++ u ++ 32%N :: post) fmt account = Ok v ->
  envelope_header (front k name ++ u' ++ 32%N :: post) fmt account = Ok v.
Proof.
  intros k name post fmt account u u' v T M N1 N2 U U' P1 P2 P3 H.
  apply C80_says; auto. apply C80_says in H; auto.
Qed.
Print Assumptions C80_same.

(** [by due] is refused. *)
Theorem C80_by_due : forall k name post fmt account v, token name -> unmarked name ->
  name <> lit "by" -> name <> lit "starting" ->
  ~ inside (lit " by ") (32%N :: post) -> ~ inside (lit "no date") post ->
  (exists r, fmt = lit "%Y" ++ r \/ fmt = lit "%m" ++ r \/ fmt = lit "%d" ++ r) ->
  envelope_header (front k name ++ lit " by due " ++ post) fmt account <> Ok v.
Proof.
  intros k name post fmt account v T M N0 N1 P1 P2 F H.
  change (lit " by due " ++ post) with (lit " by" ++ 32%N :: lit "due " ++ post) in H.
  assert (W1 : ~ In 32%N (lit "by")) by (cbn; intuition discriminate).
  assert (W2 : ~ In 32%N (lit "due")) by (cbn; intuition discriminate).
  apply (line_header k name (lit " by") (lit "due " ++ post) fmt) in H; auto using token_is.
  - destruct H as (st & f & (z & S & D) & _).
    assert (Z : exists y, remove_comments z = lit " due" ++ y /\ (y = [] \/ exists y', y = 32%N :: y' /\ exists r, post = y' ++ r)).
    { assert (Zp : exists y, z = lit " due" ++ y /\ (y = [] \/ exists y', y = 32%N :: y' /\ exists r, post = y' ++ r)).
      { destruct S as [(_ & _ & ->)|(d & t & _ & [E _] & _)].
        - exists (32%N :: post). split; [reflexivity|]. right. exists post. split; [reflexivity|]. exists []. symmetry. apply app_nil_r.
        - assert (E2 : lit " due" ++ 32%N :: post = z ++ spaced (lit "starting") ++ t) by exact E.
          apply occ_spaced in E2; [|cbn; intuition discriminate].
          destruct E2 as [(b' & _ & E2)|(a' & -> & E2)].
          + exfalso. apply (f_equal (@List.length _)) in E2. unfold spaced in E2. rewrite !app_length in E2. cbn in E2. rewrite ?app_length in E2. cbn in E2. lia.
          + exists a'. split; [reflexivity|]. destruct a' as [|c a']; [left; reflexivity|].
            injection E2 as <- E2. right. exists a'. split; [reflexivity|]. eauto. }
      destruct Zp as (y & -> & Y). exists (remove_comments y). rewrite rc_front; [|reflexivity|].
      - split; [reflexivity|]. destruct Y as [->|(y' & -> & r & Er)]; [left; reflexivity|]. right.
        exists (remove_comments y'). split; [apply rc_space|]. destruct (rc_prefix y') as [r1 E1]. exists (r1 ++ r).
        rewrite Er. rewrite E1 at 1. rewrite <- app_assoc. reflexivity.
      - destruct Y as [->|(y' & -> & _)]; [exact I|discriminate]. }
    destruct Z as (y & Ez & Y). rewrite Ez in D. destruct D as [[D _]|[_ (r & E & R)]].
    + destruct Y as [->|(y' & -> & r & ->)].
      * destruct D as (a & b & D). apply (f_equal (@List.length _)) in D. rewrite !app_length in D. cbn in D. lia.
      * change (lit "no date") with (joined (lit "no") (lit "date")) in D.
        apply inside_joined in D as [D|[D|[[a D] _]]]; try (cbn; intuition discriminate).
        -- destruct D as (a & b & D). apply (f_equal (@List.length _)) in D. rewrite !app_length in D. cbn in D. lia.
        -- apply P2. exact (prefix_inside _ _ _ D (ex_intro _ r eq_refl)).
        -- change (lit " due") with (lit " du" ++ [chr "e"]) in D. change (lit "no") with (lit "n" ++ [chr "o"]) in D.
           rewrite app_assoc in D. apply app_inj_tail in D as [_ D]. discriminate.
    + injection E as <-. apply frequency_iff in R. unfold parse_frequency in R.
      change (strip_prefix (lit "every other ") (lit "due" ++ y)) with (@None str) in R.
      change (strip_prefix (lit "every ") (lit "due" ++ y)) with (@None str) in R. cbv iota in R.
      assert (PD : parse_date (lit "due" ++ y) fmt = None).
      { destruct F as [r [->|[->| ->]]]; reflexivity. }
      change (100%N :: 117%N :: 101%N :: y) with (lit "due" ++ y) in R. rewrite PD in R. discriminate.
  - apply markfree_iff, M.
  - cbn; auto.
  - change (32%N :: lit "due " ++ post) with (lit " due" ++ 32%N :: post). change (lit " by ") with (spaced (lit "by")).
    rewrite inside_spaced by exact W1. intros [K|K]; [|exact (P1 K)].
    change (lit " due" ++ [32%N]) with (32%N :: lit "due" ++ [32%N]) in K. apply inside_word in K as [K|[]]; [discriminate|exact W2].
  - discriminate.
  - discriminate.
Qed.
Print Assumptions C80_by_due.

Example C80_case :
  let date := lit "2020/12/25" in
  (exists v, envelope_header (lit "goal camera by 2020/12/25") default_format checking = Ok v
     /\ envelope_header (lit "goal camera due 2020/12/25") default_format checking = Ok v
     /\ envelope_header (lit "goal camera due by 2020/12/25") default_format checking = Ok v
     /\ exists d, v_freq v = Once d /\ (year d, month d, day d) = (2020, 12, 25))
  /\ envelope_header (lit "goal camera by due 2020/12/25") default_format checking = Err (EParse (DueDate (lit "due 2020/12/25") default_format))
  /\ (exists v, envelope_header (lit "goal due by 2020/12/25") default_format checking = Ok v /\ v_name v = lit "due")
  /\ envelope_header (lit "goal by due 2020/12/25") default_format checking = Err (EParse (DueDate (lit "due 2020/12/25") default_format))
  /\ envelope_header (lit "goal starting by 2020/12/25") default_format checking = Err (EParse (StartingDate (lit "goal starting by 2020/12/25") default_format)).
Proof.
  cbv zeta. split; [eexists; split; [vm_compute; reflexivity|split; [vm_compute; reflexivity|split; [vm_compute; reflexivity|
    eexists; split; [reflexivity|reflexivity]]]]|].
  split; [vm_compute; reflexivity|]. split; [eexists; split; vm_compute; reflexivity|]. split; vm_compute; reflexivity.
Qed.

(** ** C81 *)
Lemma starting_due today v start d (P : date -> Prop) : v_starting v = Some start ->
  freq_next today (v_freq v) = Ok (Some d) -> earliest (fun x => earlier today x /\ P x) d ->
  not_later start today \/ P start ->
  exists d', env_next_due today v = Ok (Some d')
    /\ earliest (fun x => earlier today x /\ not_later start x /\ P x) d'.
Proof.
  intros S F [[A B] Mn] H. destruct (earlier_or d start) as [E|E].
  - exists start. unfold env_next_due. rewrite F, S. cbn [bind]. split.
    + do 2 f_equal. unfold date_max. rewrite (proj2 (date_ltb_iff _ _) E). reflexivity.
    + apply earlier_dayn in E, A. destruct H as [H|H]; [apply not_later_dayn in H; lia|]. split.
      * split; [apply earlier_dayn; lia|]. split; [apply not_later_refl|exact H].
      * intros x (_ & X & _). exact X.
  - exists d. split; [exact (due_after_start _ _ _ _ S F E)|]. split; [auto|]. intros x (X1 & _ & X2). apply Mn. auto.
Qed.
Theorem C81_partial : forall today v start, year today < max_year -> v_starting v = Some start ->
  (forall n, v_freq v = Monthly n ->
     not_later start today \/ day start = due_day n (year start) (month start) ->
     exists d, env_next_due today v = Ok (Some d)
       /\ earliest (fun x => earlier today x /\ not_later start x /\ day x = due_day n (year x) (month x)) d)
  /\ (forall w, v_freq v = Weekly w -> min_year < year today ->
     not_later start today \/ weekday_of start = weekday_num w ->
     exists d, env_next_due today v = Ok (Some d)
       /\ earliest (fun x => earlier today x /\ not_later start x /\ weekday_of x = weekday_num w) d).
Proof.
  intros today v start Y S. split.
  - intros n F H. destruct (C44_monthly today n Y) as (d & E & D). rewrite <- F in E.
    exact (starting_due today v start d (fun x => day x = due_day n (year x) (month x)) S E D H).
  - intros w F Y' H. destruct (C45_weekly today w Y Y') as [(d & E & D) _]. rewrite <- F in E.
    exact (starting_due today v start d (fun x => weekday_of x = weekday_num w) S E D H).
Qed.
Print Assumptions C81_partial.

(** Otherwise the start itself is given as the due date. *)
Theorem C81_refuted : exists today v d,
  parse_envelope (lit "expense streaming due every 20th starting 2019/10/25") checking 46%N default_format = Ok v
  /\ (year today, month today, day today) = (2019, 9, 1)
  /\ env_next_due today v = Ok (Some d) /\ (year d, month d, day d) = (2019, 10, 25).
Proof.
  exists (mkDate 2019 9 1 eq_refl). eexists. exists (mkDate 2019 10 25 eq_refl). split; [vm_compute; reflexivity|]. split; [reflexivity|]. split; vm_compute; reflexivity.
Qed.
Print Assumptions C81_refuted.
