(** Property C114: the reports with and without the moves to envelopes. *)
From Coq Require Import ZArith NArith List Bool String Permutation Sorting.Sorted Reals Lia.
From Verif Require Import Base Str F64 Date Amount Posting Entry Envelope Account World Register Ledger Importer Cli
  SpecAmount SpecDate SpecEntry SpecEnvelope SpecLedger SpecRegister SpecReport SpecImport SpecCli SpecRun SpecMoves
  StrFacts DateBasics DateFacts EnvelopeFacts AmountFacts EntryFacts AccountFacts LedgerFacts LoadFacts IncludeFacts RunFacts
  RegisterFacts OrderFacts PropertiesLedger PropertiesImport PropertiesCli PropertiesRun PropertiesReport PropertiesMoves.
Import ListNotations.

(** ** Where the entry of the moves goes *)
Lemma sort_snoc e l : StronglySorted before l -> exists l1 l2, l = l1 ++ l2 /\ sort_entries (l ++ [e]) = l1 ++ e :: l2
  /\ Forall (fun x => not_later (e_date x) (e_date e)) l1 /\ Forall (fun x => earlier (e_date e) (e_date x)) l2.
Proof.
  induction 1 as [|x l S IH F]; [exists [], []; auto|]. destruct IH as (l1 & l2 & -> & E & L1 & L2).
  cbn [sort_entries fold_right app]. change (fold_right insert_entry [] ((l1 ++ l2) ++ [e])) with (sort_entries ((l1 ++ l2) ++ [e])). rewrite E.
  rewrite Forall_forall in F. assert (forall y, In y (l1 ++ l2) -> date_leb (e_date x) (e_date y) = true) as Hd.
  { intros y I. apply date_leb_iff, F, I. }
  destruct l1 as [|y l1].
  - cbn [app] in *. destruct (date_leb (e_date x) (e_date e)) eqn:D; cbn [insert_entry]; rewrite D.
    + exists [x], l2. apply date_leb_iff in D. auto.
    + exists [], (x :: l2). split; [reflexivity|]. split; [|split; [constructor|constructor; [apply not_later_neg, D|exact L2]]].
      cbn [app]. f_equal. destruct l2 as [|y l2]; [reflexivity|]. cbn [insert_entry]. rewrite (Hd y (or_introl eq_refl)). reflexivity.
  - exists (x :: y :: l1), l2. split; [reflexivity|]. cbn [app insert_entry]. rewrite (Hd y (or_introl eq_refl)). split; [reflexivity|].
    split; [|exact L2]. constructor; [|exact L1]. inversion L1; subst. eapply not_later_trans; [|eassumption]. apply F. left. reflexivity.
Qed.

Lemma fill_built today l es w w' l' : built today l es -> fill_envelopes today l w = (w', Ok l') ->
  exists accs mss l1 l2, Permutation accs (map snd (l_accounts l)) /\ Forall2 (account_moves today) accs mss
  /\ Forall (fun x => not_later (e_date x) today) l1 /\ Forall (fun x => earlier today (e_date x)) l2
  /\ l_entries l = l1 ++ l2 /\ l_entries l' = l1 ++ moves_entry today (List.concat mss) ++ l2
  /\ (l' = l \/ add_entry today l (fill_entry today (map move_posting (List.concat mss))) = Ok l').
Proof.
  intros B H. pose proof (proj1 (proj2 (C20_entries_sorted _ _ _ B))) as S.
  unfold fill_envelopes in H. destruct (fill_postings today l) as [ps| | |] eqn:E; try discriminate.
  destruct (fill_moves _ _ _ E) as (mss & F & ->). exists (map snd (l_accounts l)), mss.
  assert (Forall2 (account_moves today) (map snd (l_accounts l)) mss) as F' by (clear -F; induction F; constructor; assumption).
  destruct (List.concat mss) as [|m ms] eqn:Em.
  - cbn [map] in H. injection H as <- <-. destruct (sort_snoc (fill_entry today []) (l_entries l) S) as (l1 & l2 & E1 & _ & L1 & L2).
    exists l1, l2. cbn [moves_entry app]. repeat split; auto.
  - cbn [map] in H. unfold append_entry in H. destruct (append_file _ _ _) as [u| | |]; try discriminate.
    destruct (printable (l_format l)); [|discriminate]. injection H as _ H.
    destruct (sort_snoc (fill_entry today (map move_posting (m :: ms))) (l_entries l) S) as (l1 & l2 & E1 & E2 & L1 & L2).
    exists l1, l2. split; [reflexivity|]. split; [exact F'|]. split; [exact L1|]. split; [exact L2|]. split; [exact E1|]. split; [|right; exact H].
    unfold add_entry in H. apply bind_Ok in H as (accs & _ & H). injection H as <-. cbn [l_entries].
    change (move_posting m :: map move_posting ms) with (map move_posting (m :: ms)). rewrite E2. reflexivity.
Qed.

(** ** What the accounts hold *)
Theorem C114_real : forall today l w w' l', fill_envelopes today l w = (w', Ok l') ->
  map (fun ka => (fst ka, a_name (snd ka), a_real (snd ka))) (l_accounts l')
  = map (fun ka => (fst ka, a_name (snd ka), a_real (snd ka))) (l_accounts l).
Proof.
  intros today l w w' l' H. unfold fill_envelopes in H. destruct (fill_postings today l) as [ps| | |] eqn:E; try discriminate.
  destruct (fill_moves _ _ _ E) as (mss & _ & ->). revert H. generalize (List.concat mss) as ms. intros ms H.
  destruct ms as [|m ms]; [injection H as <- <-; reflexivity|]. cbn [map] in H. unfold append_entry in H.
  destruct (append_file _ _ _) as [u| | |]; try discriminate. destruct (printable (l_format l)); [|discriminate]. injection H as _ H.
  unfold add_entry in H. apply bind_Ok in H as (accs & M & H). injection H as <-. cbn [l_accounts]. apply map_res_Ok in M. clear E u.
  change (move_posting m :: map move_posting ms) with (map move_posting (m :: ms)) in M. revert M. generalize (m :: ms) as ns. clear. intros ns M.
  induction M as [|(k & a) (k' & b) xs ys Hb M IH]; [reflexivity|]. cbn [map fst snd] in *. rewrite IH. clear M IH. f_equal.
  apply bind_Ok in Hb as (c & Hc & Q). injection Q as <- <-. destruct (acc_process_real _ _ _ _ Hc) as (zs & W & R).
  assert (filter (to_classic (a_name a)) (map (pair (fill_entry today (map move_posting ns))) (e_postings (fill_entry today (map move_posting ns)))) = []) as N.
  { cbn [fill_entry new_entry e_postings]. generalize (fill_entry today (map move_posting ns)) as f. clear. intro f. induction ns as [|n ns IH]; [reflexivity|exact IH]. }
  rewrite N in W. inversion W; subst. cbn [fold_left] in R. rewrite R. f_equal. f_equal.
  unfold acc_process in Hc. apply bind_Ok in Hc as (ex & _ & Hc). apply bind_Ok in Hc as (go & _ & Hc). apply bind_Ok in Hc as (r & _ & Hc).
  injection Hc as <-. reflexivity.
Qed.
Print Assumptions C114_real.

(** ** The balance report *)
Lemma postings_app a b : postings (a ++ b) = postings a ++ postings b.
Proof. unfold postings. apply flat_map_app. Qed.
Lemma postings_moves today ms name : exists ps,
  filter (to_account name) (postings (moves_entry today ms)) = ps /\ Forall2 (fun x a => get_amount (snd x) = Some a) ps (moved name ms).
Proof.
  eexists. split; [reflexivity|]. destruct ms as [|m ms]; [constructor|]. cbn [moves_entry]. unfold postings. cbn [flat_map e_postings]. rewrite app_nil_r.
  set (e := mkEntry _ _ _ _ _ _). clearbody e. generalize (m :: ms) as ns. clear. intro ns. unfold moved.
  induction ns as [|n ns IH]; [constructor|]. cbn [map filter]. unfold to_account at 1. cbn [snd move_posting get_account ep_account].
  destruct (str_dec (m_account n) name); [|exact IH]. cbn [map]. constructor; [reflexivity|exact IH].
Qed.
Lemma worths_given ps xs : Forall2 (fun x a => get_amount (snd x) = Some a) ps xs -> worths ps xs.
Proof. intro F. unfold worths. induction F; constructor; [left; assumption|assumption]. Qed.

(** The money that is moved is counted as if it had been paid into the account. *)
Theorem C114_balance : forall today l es w w' l' t, built today l es -> fill_envelopes today l w = (w', Ok l') ->
  show_balance l = Ok t ->
  exists accs mss, Permutation accs (map snd (l_accounts l)) /\ Forall2 (account_moves today) accs mss
  /\ let ms := List.concat mss in
     (forall name, moved name ms = [] -> forall pl, balance (l_entries l') name pl <-> balance (l_entries l) name pl)
     /\ (forall name x, In x (l_entries l) -> not_later (e_date x) today -> SpecReport.used [x] name ->
          exists a xs ys, balance (l_entries l) name (totals (a :: xs ++ ys))
          /\ balance (l_entries l') name (totals (a :: xs ++ moved name ms ++ ys))).
Proof.
  intros today l es w w' l' t B H Sh. destruct (fill_built _ _ _ _ _ _ B H) as (accs & mss & l1 & l2 & Pe & Mo & L1 & L2 & E1 & E2 & _).
  exists accs, mss. split; [exact Pe|]. split; [exact Mo|]. cbv zeta. set (ms := List.concat mss) in *. clearbody ms. clear Pe Mo.
  unfold show_balance in Sh. apply bind_Ok in Sh as (m & G & _). pose proof (get_totals_spec l m G) as T. clear G.
  assert (forall name, filter (to_account name) (postings (l_entries l))
    = filter (to_account name) (postings l1) ++ filter (to_account name) (postings l2)) as F1.
  { intro name. rewrite E1, postings_app, filter_app. reflexivity. }
  assert (forall name, filter (to_account name) (postings (l_entries l'))
    = filter (to_account name) (postings l1) ++ filter (to_account name) (postings (moves_entry today ms)) ++ filter (to_account name) (postings l2)) as F2.
  { intro name. rewrite E2, !postings_app, !filter_app. reflexivity. }
  split.
  - intros name N pl. unfold balance. rewrite F1, F2. destruct (postings_moves today ms name) as (ps & -> & Fp). rewrite N in Fp.
    inversion Fp; subst. reflexivity.
  - intros name x I D U. specialize (T name). rewrite F1 in T.
    assert (In x l1) as I1.
    { rewrite E1 in I. apply in_app_or in I as [I|I]; [exact I|]. rewrite Forall_forall in L2. pose proof (L2 x I) as Q.
      rewrite earlier_dayn in Q. rewrite not_later_dayn in D. lia. }
    assert (filter (to_account name) (postings l1) <> []) as Ne.
    { destruct U as (x' & p & [<-|[]] & Ip & E). intro Z. assert (In (x, p) (filter (to_account name) (postings l1))) as Q; [|rewrite Z in Q; exact Q].
      apply filter_In. split; [apply in_flat_map; exists x; split; [exact I1|apply in_map, Ip]|].
      unfold to_account. cbn [snd]. destruct (str_dec (get_account p) name); [reflexivity|contradiction]. }
    destruct (filter (to_account name) (postings l1)) as [|y r1] eqn:Ey; [contradiction|]. cbn [app total_of] in T. destruct T as (zs & W & _).
    apply Forall2_app_inv_l in W as (xs & ys & Wx & Wy & ->). destruct (postings_moves today ms name) as (ps & Ep & Fp).
    exists (match get_amount (snd y) with Some a => a | None => mkAmount fzero None end), xs, ys. split.
    + exists y, (r1 ++ filter (to_account name) (postings l2)), (xs ++ ys). rewrite F1, Ey. split; [reflexivity|].
      split; [apply Forall2_app; assumption|reflexivity].
    + exists y, (r1 ++ ps ++ filter (to_account name) (postings l2)), (xs ++ moved name ms ++ ys). rewrite F2, Ey, Ep. split; [reflexivity|].
      split; [|reflexivity]. apply Forall2_app; [exact Wx|]. apply Forall2_app; [apply worths_given, Fp|exact Wy].
Qed.
Print Assumptions C114_balance.

(** For whole numbers: the balance is too large by just the money that was moved. *)
Theorem C114_whole : forall sym xs ms ys zx zm zy,
  Forall2 (fun y z => f64_is y (IZR z)) (contributions sym (map PAdd xs)) zx ->
  Forall2 (fun y z => f64_is y (IZR z)) (contributions sym (map PAdd ms)) zm ->
  Forall2 (fun y z => f64_is y (IZR z)) (contributions sym (map PAdd ys)) zy ->
  (Zsum (map Z.abs (zx ++ zm ++ zy)) <= 2 ^ 53)%Z ->
  f64_is (mag (total_in sym (xs ++ ys))) (IZR (Zsum (zx ++ zy)))
  /\ f64_is (mag (total_in sym (xs ++ ms ++ ys))) (IZR (Zsum (zx ++ zy) + Zsum zm)).
Proof.
  intros sym xs ms ys zx zm zy X M Y B. unfold total_in. cbn [mag].
  assert (forall a b, contributions sym (map PAdd (a ++ b)) = contributions sym (map PAdd a) ++ contributions sym (map PAdd b)) as C.
  { intros a b. rewrite map_app. unfold contributions. apply flat_map_app. }
  assert (forall a b, Zsum (a ++ b) = Zsum a + Zsum b)%Z as A by (intros a b; unfold Zsum; induction a; cbn; lia).
  assert (forall a, 0 <= Zsum (map Z.abs a))%Z as P0 by (intro a; unfold Zsum; induction a; cbn; lia).
  rewrite !map_app, !A in B. pose proof (P0 zx). pose proof (P0 zm). pose proof (P0 zy). rewrite !C. split.
  - apply left_sum_int; [apply Forall2_app; assumption|]. apply partial_bound. rewrite map_app, A. cbn [Z.abs]. lia.
  - replace (Zsum (zx ++ zy) + Zsum zm)%Z with (Zsum (zx ++ zm ++ zy)) by (rewrite !A; lia).
    apply left_sum_int; [repeat apply Forall2_app; assumption|]. apply partial_bound. rewrite !map_app, !A. cbn [Z.abs]. lia.
Qed.
Print Assumptions C114_whole.

(** ** The register *)
Lemma listed_split b e m es1 es2 rs : listed b e m (es1 ++ es2) rs -> exists r1 r2, rs = r1 ++ r2 /\ listed b e m es1 r1 /\ listed b e m es2 r2.
Proof.
  revert rs. induction es1 as [|x es1 IH]; intros rs L; [exists [], rs; split; [reflexivity|split; [constructor|exact L]]|].
  cbn [app] in L. inversion L as [|y xs r N L'|y xs r ws S W Z L'|y xs r ws S W Z L']; subst; destruct (IH _ L') as (r1 & r2 & -> & A & B).
  - exists r1, r2. split; [reflexivity|]. split; [apply listed_other; assumption|exact B].
  - exists r1, r2. split; [reflexivity|]. split; [eapply listed_zero; eassumption|exact B].
  - exists ((x, ws) :: r1), r2. split; [reflexivity|]. split; [eapply listed_row; eassumption|exact B].
Qed.
Lemma listed_app b e m es1 es2 r1 r2 : listed b e m es1 r1 -> listed b e m es2 r2 -> listed b e m (es1 ++ es2) (r1 ++ r2).
Proof.
  intros A B. induction A; cbn [app]; [exact B|apply listed_other; assumption|eapply listed_zero; eassumption|eapply listed_row; eassumption].
Qed.
Lemma filter_none {A} (f : A -> bool) l : (forall x, In x l -> f x = false) -> filter f l = [].
Proof.
  induction l as [|x l IH]; intro H; [reflexivity|]. cbn [filter]. rewrite (H x (or_introl eq_refl)). apply IH. intros y I. apply H. right. exact I.
Qed.
(** The rows are the same, but for one row with the sum of the moves, which is
    shown unless it is zero. *)
Theorem C114_register : forall today l es w w' l' b e m rows, built today l es -> fill_envelopes today l w = (w', Ok l') ->
  listed b e m (l_entries l) rows ->
  exists accs mss, Permutation accs (map snd (l_accounts l)) /\ Forall2 (account_moves today) accs mss
  /\ let ms := List.concat mss in let ws := map (fun n => (m_account n, SpecMoves.m_amount n)) ms in
     exists r1 r2 mid, rows = r1 ++ r2 /\ listed b e m (l_entries l') (r1 ++ mid ++ r2)
     /\ (mid = [] \/ mid = map (fun x => (x, ws)) (moves_entry today ms))
     /\ (mid <> [] <-> within b e today /\ ~ all_zero (focus m ws)).
Proof.
  intros today l es w w' l' b e m rows B H L. destruct (fill_built _ _ _ _ _ _ B H) as (accs & mss & l1 & l2 & Pe & Mo & _ & _ & E1 & E2 & _).
  exists accs, mss. split; [exact Pe|]. split; [exact Mo|]. cbv zeta. set (ms := List.concat mss) in *. clearbody ms. clear Pe Mo.
  rewrite E1 in L. destruct (listed_split _ _ _ _ _ _ L) as (r1 & r2 & -> & A1 & A2). exists r1, r2. rewrite E2.
  set (ws := map (fun n => (m_account n, SpecMoves.m_amount n)) ms).
  assert (forall mid, listed b e m (moves_entry today ms) mid -> listed b e m (l1 ++ moves_entry today ms ++ l2) (r1 ++ mid ++ r2)) as K.
  { intros mid Lm. apply listed_app; [exact A1|]. apply listed_app; assumption. }
  destruct ms as [|n ms].
  { exists []. split; [reflexivity|]. split; [apply K; constructor|]. split; [left; reflexivity|]. split; [contradiction|].
    intros [_ N]. exfalso. apply N. constructor. }
  cbn [moves_entry map] in *. set (x := mkEntry today Cleared _ _ _ _) in *.
  assert (weighed x ws) as W.
  { unfold weighed, x, ws. cbn [e_postings]. change (move_posting n :: map move_posting ms) with (map move_posting (n :: ms)).
    change ((m_account n, SpecMoves.m_amount n) :: map (fun n => (m_account n, SpecMoves.m_amount n)) ms) with (map (fun n => (m_account n, SpecMoves.m_amount n)) (n :: ms)).
    set (y := mkEntry _ _ _ _ _ _). clearbody y. generalize (n :: ms) as ns. clear. induction ns as [|k ns IH]; [constructor|]. cbn [map].
    constructor; [|exact IH]. cbn [fst snd move_posting get_account ep_account]. split; [reflexivity|]. left. reflexivity. }
  assert (D : all_zero (focus m ws) \/ ~ all_zero (focus m ws)).
  { unfold all_zero. generalize (focus m ws) as p. induction p as [|a p [IH|IH]].
    - left. constructor.
    - destruct (feqb (mag a) fzero) eqn:Z; [left; constructor; assumption|right; intro Q; inversion Q; congruence].
    - right. intro Q. inversion Q. contradiction. }
  assert (Sel : selected b e m x \/ ~ selected b e m x).
  { assert (forall P : Prop, (exists r : bool, r = true <-> P) -> P \/ ~ P) as Dec.
    { intros P (r & R). destruct r; [left; apply R; reflexivity|right; intro Q; apply R in Q; discriminate]. }
    apply Dec. exists (register_filter b e m x). apply selected_iff. }
  assert (Foc : ~ selected b e m x -> within b e today -> all_zero (focus m ws)).
  { intros Ns Wi. unfold focus. replace (filter (fun w0 => in_focus m (fst w0)) ws) with (@nil (str * amount)); [constructor|].
    symmetry. apply filter_none. intros (k & a) I. cbn [fst]. destruct (in_focus m k) eqn:F; [|reflexivity]. exfalso. apply Ns. split; [exact Wi|].
    unfold ws in I. change ((m_account n, SpecMoves.m_amount n) :: map (fun n => (m_account n, SpecMoves.m_amount n)) ms) with (map (fun n => (m_account n, SpecMoves.m_amount n)) (n :: ms)) in I.
    apply in_map_iff in I as (k' & Q & I). injection Q as <- <-. exists (move_posting k'). split; [unfold x; cbn [e_postings]; exact (in_map move_posting (n :: ms) k' I)|exact F]. }
  destruct Sel as [Sel|Sel]; [destruct D as [D|D]|].
  - exists []. split; [reflexivity|]. split; [apply K; eapply listed_zero; [exact Sel|exact W|exact D|constructor]|]. split; [left; reflexivity|].
    split; [contradiction|]. intros [_ N]. contradiction.
  - exists [(x, ws)]. split; [reflexivity|]. split; [apply K; eapply listed_row; [exact Sel|exact W|exact D|constructor]|]. split; [right; reflexivity|].
    split; [|discriminate]. intros _. split; [exact (proj1 Sel)|exact D].
  - exists []. split; [reflexivity|]. split; [apply K; apply listed_other; [exact Sel|constructor]|]. split; [left; reflexivity|].
    split; [contradiction|]. intros [Wi N]. exfalso. exact (N (Foc Sel Wi)).
Qed.
Print Assumptions C114_register.

(** The property itself fails: ten dollars that are put aside for an expense are
    shown as ten dollars more. *)
Definition put_aside : list string :=
  ["account assets"; "  expense x due every 15th"; "    amount 10"; "    funding aggressive"; "account income";
   "2024/02/03 * pay"; "  assets 100"; "  income -100"]%string.
Theorem C114_refuted : exists w, proper w
  /\ o_out (main (ctx [] (fun _ => [])) (map lit ["b"; "--no-move"; "-f"; "/j"]%string) w)
     = text ["assets                                  100"; "income                                 -100"; ""]%string
  /\ o_out (main (ctx [] (fun _ => [])) (map lit ["b"; "-f"; "/j"]%string) w)
     = text ["assets                                  110"; "income                                 -100"; ""]%string.
Proof.
  exists (world_of [(j, text put_aside)] [[]] []). split; [apply world_of_proper; vm_compute; reflexivity|]. vm_compute. split; reflexivity.
Qed.
Print Assumptions C114_refuted.

(** The same journal in the register. *)
Example C114_case :
  let w := world_of [(j, text put_aside)] [[]] [] in
  o_out (main (ctx [] (fun _ => [])) (map lit ["r"; "--no-move"; "-f"; "/j"]%string) w)
  = text ["2024/02/03 * pay  income -> assets   100   100"; ""]%string
  /\ o_out (main (ctx [] (fun _ => [])) (map lit ["r"; "-f"; "/j"]%string) w)
  = text ["2024/02/03 * pay                income -> assets   100   100";
          "2024/03/20 ~ move to envelopes  (none) -> assets    10   110"; ""]%string.
Proof. vm_compute. split; reflexivity. Qed.
