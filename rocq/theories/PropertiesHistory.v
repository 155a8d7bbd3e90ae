(** Property C93: the two compartments of an envelope. *)
From Coq Require Import ZArith NArith List Bool String Lia.
From Verif Require Import Base Str F64 Date Amount Posting Entry Envelope Account World Ledger
  SpecAmount SpecDate SpecEntry SpecEnvelope SpecHistory StrFacts AmountFacts EntryFacts
  DateFormat DateFacts FreqFacts EnvelopeFacts FillFacts AccountFacts PropertiesDate PropertiesEnvelope CrashFacts.
Import ListNotations.
Local Open Scope Z_scope.

Local Notation D y m d := (mkDate y m d eq_refl).

(** ** One envelope *)
Lemma moved_tally today v a d w l r h : moved today v a d w -> freq_last today (v_freq v) = Ok l ->
  tally l h (mag (v_now w), mag (v_next w)) r -> tally l ((d, a) :: h) (mag (v_now v), mag (v_next v)) r.
Proof.
  intros (_ & _ & Q) F T. destruct Q as [(N & (_ & A) & B)|[(P & (l' & F' & L) & (_ & A) & B)|[(P & Q & (_ & A) & B)|(N & P & A & B)]]].
  - rewrite A, B in T. apply tally_spent; assumption.
  - rewrite F in F'. injection F' as ->. rewrite A, B in T. apply tally_ready; assumption.
  - rewrite A, B in T. apply tally_next; [exact P| |exact T]. destruct Q as [Q|(l' & F' & L)].
    + rewrite F in Q. injection Q as ->. exact id.
    + rewrite F in F'. injection F' as ->. cbn. intro K. apply not_later_dayn in L. apply earlier_dayn in K. lia.
  - rewrite A, B in T. apply tally_nothing; assumption.
Qed.
Lemma same_freq v w : same_definition v w -> v_freq w = v_freq v.
Proof. intros (_ & _ & _ & _ & H & _). exact H. Qed.
Lemma moved_all_tally today d v ls w l r h : moved_all today d v ls w -> freq_last today (v_freq v) = Ok l ->
  tally l h (mag (v_now w), mag (v_next w)) r ->
  tally l (map (pair d) ls ++ h) (mag (v_now v), mag (v_next v)) r.
Proof.
  induction 1 as [v|v a u ls w M R IH]; intros F T; [exact T|]. cbn [map app].
  apply (moved_tally _ _ _ _ _ _ _ _ M F). apply IH; [|exact T]. rewrite (same_freq _ _ (moved_same _ _ _ _ _ M)). exact F.
Qed.
Lemma moves_same v w e l : same_definition v w -> moves_of w e l -> moves_of v e l.
Proof.
  intros S M. assert (S' := S). destruct S' as (_ & A & _ & Au & _ & _ & _ & Ac).
  assert (forall p, own w p <-> own v p) as Ow by (intro p; unfold own; rewrite Ac; tauto).
  assert (forall p, linked w p <-> linked v p) as Li by (intro p; unfold linked; rewrite Ac, Au; tauto).
  assert (forall P Q sym ps x y, (forall p, P p <-> Q p) -> sums e sym P ps x y -> sums e sym Q ps x y) as Su.
  { intros P Q sym ps x y PQ H. induction H; [apply sums_nil|eapply sums_in; eauto; apply PQ; assumption|apply sums_out; [rewrite <- PQ; assumption|assumption]]. }
  destruct M as [M|M C|f s l M O L F G E].
  - rewrite (posted_to_same v w) by exact S. apply by_hand, M.
  - apply not_concerned; [exact M|]. destruct C as [C|C]; [left|right]; intros p I K; apply (C p I); [apply Ow, K|apply Li, K].
  - rewrite A in *. apply automatic with f s; auto.
    + destruct O as (p & I & K). exists p. split; [exact I|]. apply Ow, K.
    + destruct L as (p & I & K). exists p. split; [exact I|]. apply Li, K.
    + apply (Su _ _ _ _ _ _ Li F).
    + apply (Su _ _ _ _ _ _ Ow G).
Qed.
Lemma entry_tally today v e w l r h : env_process today v e = Ok w -> freq_last today (v_freq v) = Ok l ->
  tally l h (mag (v_now w), mag (v_next w)) r ->
  exists ls, moves_of v e ls /\ tally l (map (pair (e_date e)) ls ++ h) (mag (v_now v), mag (v_next v)) r.
Proof.
  intros H F T. destruct (manual_dec e) as [M|M].
  - apply (env_process_manual _ _ _ _ M) in H. exists (posted_to v (e_postings e)). split; [apply by_hand, M|].
    exact (moved_all_tally _ _ _ _ _ _ _ _ H F T).
  - destruct (env_process_auto _ _ _ _ M H) as [(-> & C)|(O & L & f & s & Sf & Ss & [(Z & ->)|(Z & Mo)])].
    + exists []. split; [apply not_concerned; assumption|exact T].
    + exists []. split; [|exact T]. apply automatic with f s; auto. rewrite Z. reflexivity.
    + exists [transfer v f s]. split; [apply automatic with f s; auto; rewrite Z; reflexivity|]. cbn [map app].
      exact (moved_tally _ _ _ _ _ _ _ _ Mo F T).
Qed.
Lemma history_tally today es : forall v w l, fold_res (env_process today) es v = Ok w -> freq_last today (v_freq v) = Ok l ->
  exists h, moves_of_all v es h /\ tally l h (mag (v_now v), mag (v_next v)) (mag (v_now w), mag (v_next w)).
Proof.
  induction es as [|e es IH]; intros v w l H F.
  - injection H as <-. exists []. split; constructor.
  - cbn [fold_res] in H. apply bind_Ok in H. destruct H as (u & E & H).
    destruct (env_process_inv _ _ _ _ E) as (S & _).
    destruct (IH u w l H) as (h & M & T); [rewrite (same_freq _ _ S); exact F|].
    destruct (entry_tally _ _ _ _ _ _ _ E F T) as (ls & Ml & T'). exists (map (pair (e_date e)) ls ++ h). split; [|exact T'].
    apply one_more; [exact Ml|]. clear - S M. induction M as [|e' es l h Me Ma IH]; constructor; [exact (moves_same _ _ _ _ S Me)|exact IH].
Qed.

(** ** The envelopes of an account *)
Lemma account_history today es : forall a b w, fold_res (acc_process today) es a = Ok b -> In w (all_envelopes b) ->
  exists v, In v (all_envelopes a) /\ fold_res (env_process today) es v = Ok w.
Proof.
  induction es as [|e es IH]; intros a b w H I.
  - injection H as <-. exists w. auto.
  - cbn [fold_res] in H. apply bind_Ok in H. destruct H as (c & E & H). destruct (IH c b w H I) as (u & Iu & Hu).
    destruct (acc_process_envelopes _ _ _ _ _ E Iu) as (v & Iv & Hv). exists v. split; [exact Iv|]. cbn [fold_res]. rewrite Hv. exact Hu.
Qed.
Definition empty (v : envelope) : Prop := mag (v_now v) = fzero /\ mag (v_next v) = fzero.
Lemma parse_envelope_empty chunk account dsym fmt v : parse_envelope chunk account dsym fmt = Ok v -> empty v.
Proof.
  unfold parse_envelope. destruct (lines (trim chunk)) as [|h body]; [discriminate|]. intro H. apply bind_Ok in H. destruct H as (v0 & Hh & H).
  apply (fold_res_inv empty _ _) with (s := v0) in H; [exact H|..].
  - intros s line s' (A & C) E. unfold add_body_line in E.
    destruct (split_ws _) as [|key more]; [discriminate|]. destruct (find_char _ _); [|discriminate]. destruct more; [injection E as <-; split; assumption|].
    destruct (str_eqb key (lit "for")); [destruct (split_ws _) as [|? []]; try discriminate; injection E as <-; split; assumption|].
    destruct (str_eqb key (lit "amount")); [apply bind_Ok in E; destruct E as (? & _ & E); injection E as <-; split; assumption|].
    destruct (str_eqb key (lit "funding")); [apply bind_Ok in E; destruct E as (? & _ & E); injection E as <-; split; assumption|discriminate].
  - unfold envelope_header in Hh. destruct (split_ws _) as [|t0 [|t1 ts]]; try discriminate.
    apply bind_Ok in Hh. destruct Hh as (ty & _ & Hh). apply bind_Ok in Hh. destruct Hh as (st & _ & Hh).
    apply bind_Ok in Hh. destruct Hh as (fr & _ & Hh). injection Hh as <-. split; reflexivity.
Qed.
Lemma parsed_empty chunk dsym fmt a v : parse_account chunk dsym fmt = Ok a -> In v (all_envelopes a) -> empty v.
Proof.
  intros H I. apply C33_definition in H. destruct H as (header & body & kw & ss & vs & _ & _ & _ & F & _ & _ & Ex & Go & _).
  assert (In v vs) as Iv by (unfold all_envelopes in I; rewrite Ex, Go in I; apply in_app_or in I; destruct I as [I|I]; apply filter_In in I; tauto).
  destruct (Forall2_In_r _ _ _ _ F Iv) as (s & _ & E). exact (parse_envelope_empty _ _ _ _ _ E).
Qed.

(** ** The last due date *)
Lemma regular_last today f : year today < max_year -> min_year + 3 < year today -> regular today f ->
  exists l, freq_last today f = Ok l /\ last_due today f l.
Proof.
  intros Y Y' R. destruct f as [|d|w|d|n|d|d]; cbn [regular] in R; try contradiction.
  - exists None. split; [reflexivity|]. intros x [].
  - unfold freq_last. cbn [freq_next bind]. destruct (date_leb d today) eqn:E.
    + exists (Some d). split; [reflexivity|]. rewrite date_leb_dayn in E. apply Z.leb_le in E. split; [split; [apply not_later_dayn, E|reflexivity]|]. intros x (_ & ->). left. reflexivity.
    + exists None. split; [reflexivity|]. intros x -> K. apply not_later_dayn in K. rewrite date_leb_dayn in E. apply Z.leb_gt in E. lia.
  - destruct (C45_weekly today w Y) as (_ & l & E & L); [lia|]. exists (Some l). split; [exact E|exact L].
  - destruct (C49_partial today (Biweekly d) Y Y' R I) as [(n & l & En & El & P & L)|(n & En & El & P)].
    + exists (Some l). split; [exact El|]. destruct (C46_partial today d Y R) as (n' & En' & (Tn & k & Kn) & _). assert (n' = n) as -> by congruence.
      cbn [one_period] in P. apply days_later_dayn in P. apply days_later_dayn in Kn. apply earlier_dayn in Tn. apply not_later_dayn in L. apply not_later_dayn in R.
      split.
      * split; [apply not_later_dayn; exact L|]. exists (k - 1)%nat. apply days_later_dayn. lia.
      * intros x (Tx & j & Kx). apply not_later_dayn in Tx. apply days_later_dayn in Kx. apply not_later_dayn. lia.
    + exfalso. destruct (biweekly_next today d Y R) as (n' & En' & _ & Lo & Hi). assert (n' = n) as -> by congruence.
      destruct (fortnight_fine today Y ltac:(lia) d) as (o & Eo). congruence.
  - destruct (C49_early_days_partial today n Y Y' R) as (d & l & En & El & Dl & (M & Dd) & L). exists (Some l). split; [exact El|].
    destruct (C44_monthly today n Y) as (d' & Ed & (Td & _) & _). assert (d' = d) as -> by congruence.
    assert (forall y m, 1 <= m <= 12 -> due_day n y m = n) as Du.
    { intros y m Hm. unfold due_day. assert (K := month_len_bounds y m Hm). destruct (Z.leb_spec 1 n), (Z.leb_spec n (month_len y m)); cbn; lia. }
    destruct (date_bounds l) as (_ & ML & _). destruct (date_bounds d) as (_ & MD & _). split.
    + split; [exact L|]. cbn [due_on]. rewrite Du; assumption.
    + intros x (Tx & Dx). cbn [due_on] in Dx. destruct (date_bounds x) as (_ & MX & _). rewrite (Du _ _ MX) in Dx.
      assert (earlier x d) as Ex by (apply earlier_dayn; apply not_later_dayn in Tx; apply earlier_dayn in Td; lia).
      apply not_later_dayn. destruct (Z_le_gt_dec (dayn x) (dayn l)) as [K|K]; [exact K|exfalso].
      assert (earlier l x) as Lx by (apply earlier_dayn; lia). unfold earlier in Ex, Lx. lia.
  - destruct R as (R & D28 & Nt).
    destruct (C49_partial today (Bimonthly d) Y Y' R I) as [(n & l & En & El & P & L)|(n & En & El & P)].
    + exists (Some l). split; [exact El|]. destruct P as (M & Dd).
      destruct (C47_bimonthly today d Y) as (n' & En' & (Tn & k & Kn & Dn) & _). assert (n' = n) as -> by congruence.
      destruct (date_bounds l) as (_ & ML & _). destruct (date_bounds n) as (_ & MN & _). destruct (date_bounds d) as (_ & MD & _).
      assert (forall x, 1 <= month x <= 12 -> Z.min (day d) (month_len (year x) (month x)) = day d) as Mi.
      { intros x Hx. assert (K := month_len_bounds (year x) (month x) Hx). lia. }
      rewrite (Mi n MN) in Dn.
      assert (earlier today n) as Tn'.
      { destruct Tn as [<-|T]; [|exact T]. exfalso. apply Nt. exists k. rewrite (Mi today MN). auto. }
      assert (k <> O) as K0.
      { intros ->. assert (not_later n d) as Q; [|apply not_later_dayn in Q; apply not_later_dayn in R; apply earlier_dayn in Tn'; lia].
        left. assert (year n = year d /\ month n = month d) as [A C] by lia. apply dayn_inj. unfold dayn. rewrite A, C, Dn. reflexivity. }
      split.
      * split; [exact L|]. exists (k - 1)%nat. rewrite (Mi l ML). lia.
      * intros x (Tx & j & Kx & Dx). destruct (date_bounds x) as (_ & MX & _). rewrite (Mi x MX) in Dx.
        assert (earlier x n) as Ex by (apply earlier_dayn; apply not_later_dayn in Tx; apply earlier_dayn in Tn'; lia).
        apply not_later_dayn. destruct (Z_le_gt_dec (dayn x) (dayn l)) as [K|K]; [exact K|exfalso].
        assert (earlier l x) as Lx by (apply earlier_dayn; lia). unfold earlier in Ex, Lx. lia.
    + exfalso. destruct (bimonthly_fine today Y Y' d D28) as (o & Eo). congruence.
Qed.

(** ** C93 *)
(** What the program keeps: the date that it takes for the last due date
    divides the money. *)
Theorem C93_compartments : forall today chunk dsym fmt a es b w l,
  parse_account chunk dsym fmt = Ok a -> fold_res (acc_process today) es a = Ok b -> In w (all_envelopes b) ->
  freq_last today (v_freq w) = Ok l ->
  exists v h, In v (all_envelopes a) /\ same_definition v w /\ moves_of_all v es h
    /\ tally l h (fzero, fzero) (mag (v_now w), mag (v_next w)).
Proof.
  intros today chunk dsym fmt a es b w l Hp H I F. destruct (account_history _ _ _ _ _ H I) as (v & Iv & Hv).
  assert (same_definition v w) as S.
  { apply (fold_res_inv (fun u => same_definition v u) _ _) with (s := v) in Hv; [exact Hv| |apply same_definition_refl].
    intros s e s' A E. apply env_process_inv in E. exact (same_definition_trans _ _ _ A (proj1 E)). }
  destruct (history_tally _ _ _ _ l Hv) as (h & M & T); [rewrite <- (same_freq _ _ S); exact F|].
  destruct (parsed_empty _ _ _ _ _ Hp Iv) as [En Ex]. rewrite En, Ex in T. exists v, h. auto.
Qed.
Print Assumptions C93_compartments.
(** That date is the last due date for regular frequencies. *)
Theorem C93_partial : forall today chunk dsym fmt a es b w,
  year today < max_year -> min_year + 3 < year today ->
  parse_account chunk dsym fmt = Ok a -> fold_res (acc_process today) es a = Ok b -> In w (all_envelopes b) ->
  regular today (v_freq w) ->
  exists l v h, last_due today (v_freq w) l /\ In v (all_envelopes a) /\ same_definition v w
    /\ moves_of_all v es h /\ tally l h (fzero, fzero) (mag (v_now w), mag (v_next w)).
Proof.
  intros today chunk dsym fmt a es b w Y Y' Hp H I R. destruct (regular_last today _ Y Y' R) as (l & E & L).
  destruct (C93_compartments _ _ _ _ _ _ _ _ _ Hp H I E) as (v & h & Q). exists l, v, h. auto.
Qed.
Print Assumptions C93_partial.

(** A yearly envelope: what was saved in 2021 for June 2021 is not ready in
    2024, after three due dates have passed. *)
Definition yearly_text : str := text
  ["account assets:checking"; "  expense fee due every year starting 2020/06/01"; "    amount $200"]%string.
Definition saved_lines : list string := ["2021/01/10 * save"; "  envelope assets:checking fee $200"]%string.
Definition saved_2021 : entry := entry_of saved_lines.
Theorem C93_refuted : exists today a b w l,
  parse_account yearly_text (chr ".") default_format = Ok a
  /\ (exists chunk, parse_entry chunk default_format (chr ".") my_accounts = Ok saved_2021)
  /\ fold_res (acc_process today) [saved_2021] a = Ok b /\ all_envelopes b = [w]
  /\ last_due today (v_freq w) (Some l) /\ earlier (e_date saved_2021) l
  /\ posted_to w (e_postings saved_2021) = [dollars 200]
  /\ v_now w = dollars 0 /\ v_next w = dollars 200.
Proof.
  set (a := the (parse_account yearly_text (chr ".") default_format) no_account).
  set (b := after (D 2024 1 1) a [saved_2021]).
  exists (D 2024 1 1), a, b, (match all_envelopes b with v :: _ => v | [] => mkEnvelope [] (dollars 0) Goal [] Never Manual None (dollars 0) (dollars 0) [] epoch end), (D 2023 6 1).
  split; [vm_compute; reflexivity|]. split; [exists (text saved_lines); vm_compute; reflexivity|]. split; [vm_compute; reflexivity|].
  split; [vm_compute; reflexivity|]. split; [|split; [left; vm_compute; reflexivity|vm_compute; repeat split]].
  assert (forall v, v_freq v = Annually (D 2020 6 1) -> last_due (D 2024 1 1) (v_freq v) (Some (D 2023 6 1))) as K.
  { intros v ->. split.
    - split; [right; left; reflexivity|]. cbn [due_on]. unfold anniversary. cbn. lia.
    - intros x (T & An). cbn [due_on] in An. unfold anniversary in An. cbn [year month day] in An. destruct An as (A & M & Dd).
      destruct T as [->|T]; [cbn in M; discriminate|]. unfold earlier in T. cbn [year month day] in T.
      assert (year x <= 2023) as Yx by (destruct (date_bounds x); lia).
      destruct (Z.eq_dec (year x) 2023) as [E|E].
      + left. apply dayn_inj. unfold dayn. rewrite E, M, Dd. reflexivity.
      + right. left. cbn [year]. lia. }
  apply K. vm_compute. reflexivity.
Qed.
Print Assumptions C93_refuted.

(** $150 were put into [food] before the 15th of March and $40 after, and $30
    were spent. *)
Definition save (d : string) (x : string) : entry := entry_of
  [d ++ " * save"; "  envelope assets:checking food " ++ x]%string.
Example C93_case :
  let v := env_of "food" (after (D 2024 3 20) checking [pay; save "2024/02/20" "$150"; shop; save "2024/03/15" "$40"]) in
  option_map v_now v = Some (dollars 120) /\ option_map v_next v = Some (dollars 40).
Proof. vm_compute. repeat split. Qed.
