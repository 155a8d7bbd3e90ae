(** Property C123: what an entry does not concern. *)
From Coq Require Import ZArith NArith List Bool String Permutation Sorted Lia.
From Verif Require Import Base Str F64 Date Amount Posting Entry Envelope Account World Register Ledger Importer Cli
  SpecAmount SpecDate SpecEntry SpecEnvelope SpecLedger SpecReport SpecRegister SpecHistory SpecOrder SpecInclude SpecUnfold SpecCli SpecCrash SpecFrame
  StrFacts AmountFacts EntryFacts EnvelopeFacts AccountFacts LedgerFacts LoadFacts UnfoldFacts ArrangeRun OrderFacts RegisterFacts
  PropertiesLedger PropertiesReport PropertiesOrder PropertiesUnfold PropertiesCli.
Import ListNotations.
Local Open Scope list_scope.

(** ** One entry and one account *)
Lemma other_envelope today v e : ~ concerns e (v_account v) -> env_process today v e = Ok v.
Proof.
  intro N. assert (forall p, In p (e_postings e) -> str_eqb (get_account p) (v_account v) = false) as Q.
  { intros p I. apply not_true_iff_false. intro E. apply N. exists p. split; [exact I|apply str_eqb_eq, E]. }
  unfold env_process. destruct (has_envelope_posting e).
  - unfold process_manual, envelope_postings. assert (forall ps u, (forall p, In p ps -> str_eqb (get_account p) (v_account u) = false) ->
      fold_res (manual_step today (e_date e)) (filter is_envelope ps) u = Ok u) as G.
    { intros ps. induction ps as [|p ps IH]; intros u H; [reflexivity|]. cbn [filter]. destruct (is_envelope p); [|apply IH; intros; apply H; right; assumption].
      cbn [fold_res]. pose proof (H p (or_introl eq_refl)) as E. unfold manual_step. destruct p as [c|ep]; [|cbn [get_account] in E; rewrite E; cbn [andb]];
      cbn [bind]; apply IH; intros; apply H; right; assumption. }
    apply G, Q.
  - unfold infer. replace (count_self v (e_postings e)) with 0%nat; [reflexivity|]. unfold count_self.
    replace (filter (fun p => str_eqb (get_account p) (v_account v)) (e_postings e)) with (@nil posting); [reflexivity|].
    symmetry. revert Q. clear. induction (e_postings e) as [|p ps IH]; intro Q; [reflexivity|]. cbn [filter]. rewrite Q by (left; reflexivity). apply IH. intros; apply Q; right; assumption.
Qed.
Lemma other_account today a e : sound a -> ~ concerns e (a_name a) -> acc_process today a e = Ok a.
Proof.
  intros (F & _) N. unfold acc_process.
  assert (forall vs, (forall v, In v vs -> In v (all_envelopes a)) -> map_res (fun v => env_process today v e) vs = Ok vs) as M.
  { induction vs as [|v vs IH]; intro I; [reflexivity|]. cbn [map_res]. rewrite other_envelope.
    - cbn [bind]. rewrite IH by (intros; apply I; right; assumption). reflexivity.
    - specialize (F v (I v (or_introl eq_refl))). destruct F as (-> & _). exact N. }
  rewrite (M (a_expenses a)) by (intros; unfold all_envelopes; apply in_app_iff; left; assumption). cbn [bind].
  rewrite (M (a_goals a)) by (intros; unfold all_envelopes; apply in_app_iff; right; assumption). cbn [bind].
  assert (forall ps r, (forall p, In p ps -> str_eqb (get_account p) (a_name a) = false) -> fold_res (real_step (a_name a) e) ps r = Ok r) as G.
  { induction ps as [|p ps IH]; intros r H; [reflexivity|]. cbn [fold_res]. unfold real_step at 1. rewrite (H p (or_introl eq_refl)). cbn [andb bind].
    apply IH. intros; apply H; right; assumption. }
  rewrite G; [destruct a; reflexivity|]. intros p I. apply not_true_iff_false. intro E. apply N. exists p. split; [exact I|apply str_eqb_eq, E].
Qed.

(** ** Ledgers in step *)
Section Frame.
Variables (today : date) (e : entry).
Definition Frame (l l' : ledger) : Prop :=
  l_path l' = l_path l /\ l_format l' = l_format l /\ l_currency l' = l_currency l
  /\ (exists a b, built today l (a ++ b) /\ built today l' (a ++ e :: b))
  /\ Forall2 (fun x y => fst x = fst y /\ (~ concerns e (fst x) -> snd x = snd y)) (l_accounts l) (l_accounts l').
Lemma Frame_names l l' : Frame l l' -> account_names l' = account_names l.
Proof.
  intros (_ & _ & _ & _ & A). unfold account_names. induction A as [|x y la ma [K _] _ IH]; cbn [map]; [reflexivity|]. congruence.
Qed.
Lemma Frame_start l es l' : built today l es -> add_entry today l e = Ok l' -> Frame l l'.
Proof.
  intros B H. pose proof (add_entry_accounts _ _ _ _ H) as F.
  assert (l_path l' = l_path l /\ l_format l' = l_format l /\ l_currency l' = l_currency l) as (P1 & P2 & P3).
  { unfold add_entry in H. apply bind_Ok in H as (x & _ & H). injection H as <-. auto. }
  split; [exact P1|]. split; [exact P2|]. split; [exact P3|]. split.
  - exists es, []. rewrite app_nil_r. split; [exact B|]. exact (built_entry _ _ _ _ _ B H).
  - pose proof (built_well_keyed _ _ _ B) as (Nd & Na). pose proof (built_grown _ _ _ B) as G.
    assert (forall k a, In (k, a) (l_accounts l) -> a_name a = k /\ sound a) as Q.
    { intros k a I. split; [apply Na, map_get_In; [exact Nd|exact I]|exact (grown_sound _ _ (G k a I))]. }
    clear -F Q. induction F as [|[k a] [k' a'] la la' [K E] _ IH]; constructor; [|apply IH; intros; apply Q; right; assumption].
    cbn [fst snd] in *. split; [congruence|]. intro N. destruct (Q k a (or_introl eq_refl)) as [Nm So]. rewrite <- Nm in N.
    rewrite (other_account today a e So N) in E. congruence.
Qed.
Lemma Frame_item l l' c m m' : Frame l l' -> item today l c = Ok m -> item today l' c = Ok m' -> Frame m m'.
Proof.
  intros Fr H H'. pose proof (Frame_names _ _ Fr) as Nm. destruct Fr as (P1 & P2 & P3 & (a & b & B & B') & A).
  unfold item, parse_chunk in H, H'. destruct (split_ws c) as [|k rest] eqn:Ec.
  { injection H as <-. injection H' as <-. split; [exact P1|]. split; [first [exact P2|reflexivity]|]. split; [exact P3|]. split; [exists a, b; split; assumption|exact A]. }
  cbv zeta in H, H'. cbn [fst snd] in H, H'.
  destruct (str_eqb k (lit "account")).
  { unfold on_ledger in *. apply bind_Ok in H as (s & H & E). injection E as <-. apply bind_Ok in H' as (s' & H' & E). injection E as <-.
    apply bind_Ok in H as (u & H & E). injection E as <-. apply bind_Ok in H' as (u' & H' & E). injection E as <-. cbn [fst] in *.
    pose proof (built_account _ _ _ _ _ B H) as Bu. pose proof (built_account _ _ _ _ _ B' H') as Bu'.
    unfold ledger_parse_account in H, H'. rewrite P2 in H'. apply bind_Ok in H as (x & Hx & H). rewrite Hx in H'. cbn [bind] in H'.
    injection H as <-. injection H' as <-. split; [exact P1|]. split; [first [exact P2|reflexivity]|]. split; [exact P3|]. split; [exists a, b; split; assumption|]. cbn [l_accounts].
    clear -A. induction A as [|[k1 y] [k2 z] la ma [K E] F IH]; cbn [map_insert].
    - constructor; [split; reflexivity|constructor].
    - cbn [fst snd] in *. subst k2. destruct (str_eqb k1 (a_name x)); constructor; try exact F; try exact IH; split; try reflexivity; exact E. }
  destruct (str_eqb k (lit "currency")).
  { unfold on_ledger in *. apply bind_Ok in H as (s & H & E). injection E as <-. apply bind_Ok in H' as (s' & H' & E). injection E as <-.
    apply bind_Ok in H as (u & H & E). injection E as <-. apply bind_Ok in H' as (u' & H' & E). injection E as <-. cbn [fst] in *.
    pose proof (built_currency _ _ _ _ _ B H) as Bu. pose proof (built_currency _ _ _ _ _ B' H') as Bu'.
    unfold set_currency in *. destruct (hd_error rest); [|discriminate]. injection H as <-. injection H' as <-.
    split; [exact P1|]. split; [first [exact P2|reflexivity]|]. split; [reflexivity|]. split; [exists a, b; split; assumption|exact A]. }
  destruct (str_eqb k (lit "date_format")).
  { unfold on_ledger in *. apply bind_Ok in H as (s & H & E). injection E as <-. apply bind_Ok in H' as (s' & H' & E). injection E as <-.
    apply bind_Ok in H as (u & H & E). injection E as <-. apply bind_Ok in H' as (u' & H' & E). injection E as <-. cbn [fst] in *.
    pose proof (built_format _ _ _ _ _ B H) as Bu. pose proof (built_format _ _ _ _ _ B' H') as Bu'.
    unfold set_date_format in *. destruct (hd_error rest); [|discriminate]. injection H as <-. injection H' as <-.
    split; [exact P1|]. split; [reflexivity|]. split; [exact P3|]. split; [exists a, b; split; assumption|exact A]. }
  destruct (str_eqb k (lit "include")).
  { destruct (hd_error rest); discriminate. }
  unfold on_ledger in *. apply bind_Ok in H as (s & H & E). injection E as <-. apply bind_Ok in H' as (s' & H' & E). injection E as <-.
  apply bind_Ok in H as (u & H & E). injection E as <-. apply bind_Ok in H' as (u' & H' & E). injection E as <-. cbn [fst] in *.
  unfold ledger_parse_entry in *. rewrite P2, Nm in H'. apply bind_Ok in H as (f & Hf & H). rewrite Hf in H'. cbn [bind] in H'.
  pose proof (built_entry _ _ _ _ _ B H) as Bu. pose proof (built_entry _ _ _ _ _ B' H') as Bu'.
  pose proof (add_entry_accounts _ _ _ _ H) as Q. pose proof (add_entry_accounts _ _ _ _ H') as Q'.
  unfold add_entry in H, H'. apply bind_Ok in H as (x & _ & H). apply bind_Ok in H' as (x' & _ & H'). injection H as <-. injection H' as <-.
  split; [exact P1|]. split; [first [exact P2|reflexivity]|]. split; [exact P3|]. split.
  - exists a, (b ++ [f]). rewrite app_assoc. split; [exact Bu|]. rewrite app_comm_cons, app_assoc. exact Bu'.
  - cbn [l_accounts] in *. clear -Q Q' A. revert Q' A. generalize (l_accounts l') as ms. revert x'. induction Q as [|[k1 a1] [k2 a2] la la' [K E] _ IH]; intros x' ms Q' A;
      inversion A as [|? [k3 a3] ? ms' [K3 E3] A']; subst; inversion Q' as [|? [k4 a4] ? x2 [K4 E4] Q2]; subst; constructor; [|exact (IH _ _ Q2 A')].
    cbn [fst snd] in *. subst. split; [reflexivity|]. intro N. specialize (E3 N). subst. congruence.
Qed.
Lemma Frame_items ys : forall l l' m m', Frame l l' -> items today ys l = Ok m -> items today ys l' = Ok m' -> Frame m m'.
Proof.
  induction ys as [|c ys IH]; intros l l' m m' F H H'; unfold items in *; cbn [fold_res] in *; [congruence|].
  apply bind_Ok in H as (l1 & H1 & H). apply bind_Ok in H' as (l1' & H1' & H'). exact (IH _ _ _ _ (Frame_item _ _ _ _ _ F H1 H1') H H').
Qed.
Lemma on_filter d q es : on d (filter q es) = filter q (on d es).
Proof.
  unfold on. induction es as [|x es IH]; [reflexivity|]. cbn [filter]. destruct (q x) eqn:E, (date_dec (e_date x) d) eqn:D; cbn [filter]; rewrite ?E, ?D, ?IH; reflexivity.
Qed.
Lemma sorted_filter q es : StronglySorted before es -> StronglySorted before (filter q es).
Proof.
  induction 1 as [|x es S IH F]; cbn [filter]; [constructor|]. destruct (q x); [|exact IH]. constructor; [exact IH|].
  rewrite Forall_forall in *. intros y I. apply filter_In in I. apply F, I.
Qed.
Lemma Frame_but l l' : Frame l l' -> but_for e l l'.
Proof.
  intros (P1 & P2 & P3 & (a & b & B & B') & A). split; [exact P1|]. split; [exact P2|]. split; [exact P3|].
  destruct (built_entries _ _ _ B) as (Pm & So & On). destruct (built_entries _ _ _ B') as (Pm' & So' & On').
  split; [|split; [|exact A]].
  - rewrite <- Pm, <- Pm'. symmetry. apply Permutation_middle.
  - intros q Q. apply sorted_on; [apply sorted_filter, So'|apply sorted_filter, So|]. intro d. rewrite !on_filter, On, On', <- !on_filter, !filter_app. cbn [filter]. rewrite Q. reflexivity.
Qed.
End Frame.

Lemma items_built today xs : forall l es l', built today l es -> items today xs l = Ok l' -> exists es', built today l' es'.
Proof.
  induction xs as [|c xs IH]; intros l es l' B H; unfold items in *; cbn [fold_res] in *; [injection H as <-; exists es; exact B|].
  apply bind_Ok in H as (l1 & H1 & H). enough (exists es1, built today l1 es1) as (es1 & B1) by exact (IH _ _ _ B1 H).
  unfold item, parse_chunk in H1. destruct (split_ws c) as [|k rest]; [injection H1 as <-; exists es; exact B|]. cbv zeta in H1. cbn [fst] in H1. unfold on_ledger in H1.
  destruct (str_eqb k (lit "account")); [|destruct (str_eqb k (lit "currency")); [|destruct (str_eqb k (lit "date_format")); [|destruct (str_eqb k (lit "include")); [destruct (hd_error rest); discriminate|]]]];
    apply bind_Ok in H1 as (s & H1 & E); injection E as <-; apply bind_Ok in H1 as (u & H1 & E); injection E as <-; cbn [fst].
  - exists es. exact (built_account _ _ _ _ _ B H1).
  - exists es. exact (built_currency _ _ _ _ _ B H1).
  - exists es. exact (built_format _ _ _ _ _ B H1).
  - unfold ledger_parse_entry in H1. apply bind_Ok in H1 as (f & _ & H1). exists (es ++ [f]). exact (built_entry _ _ _ _ _ B H1).
Qed.

(** ** C123 *)

(** One entry more changes only the accounts it concerns. *)
Theorem C123_accounts : forall today w w' p c, proper w -> proper w' -> one_more w w' p c ->
  exists n, forall fuel l w1 l' w1', (n <= fuel)%nat ->
  from_file fuel today p w = Ok (l, w1) -> from_file fuel today p w' = Ok (l', w1') ->
  exists e, (exists fmt names, parse_entry c fmt 46%N names = Ok e) /\ but_for e l l'.
Proof.
  intros today w w' p c P P' (d & d' & xs & ys & U & U' & Nb & D).
  destruct (from_file_items today w p d _ P U) as (n & H). destruct (from_file_items today w' p d' _ P' U') as (n' & H').
  exists (Nat.max n n'). intros fuel l w1 l' w1' Le L L'. rewrite H in L by lia. rewrite H' in L' by lia. clear H H'.
  apply bind_Ok in L as (m & L & E). injection E as -> _. apply bind_Ok in L' as (m' & L' & E). injection E as -> _.
  rewrite items_app in L, L'. apply bind_Ok in L as (l0 & L0 & L). rewrite L0 in L'. cbn [bind] in L'.
  unfold items in L'. cbn [fold_res] in L'. apply bind_Ok in L' as (l1 & L1 & L'). fold (items today ys l1) in L'.
  destruct (items_built today xs _ _ _ (built_new today p) L0) as (es & B).
  assert (exists e, (exists fmt names, parse_entry c fmt 46%N names = Ok e) /\ add_entry today l0 e = Ok l1) as (e & Pe & Ae).
  { unfold item, parse_chunk in L1. destruct (split_ws c) as [|k rest] eqn:Ec.
    - contradiction.
    - cbv zeta in L1. cbn [fst] in L1. unfold on_ledger, directive, keyword in *. rewrite Ec in D. cbn [hd_error] in D.
      assert (forall s, Some k <> Some (lit s) -> str_eqb k (lit s) = false) as Q by (intros s Ns; apply not_true_iff_false; intro E; apply str_eqb_eq in E; congruence).
      rewrite !Q in L1 by tauto. apply bind_Ok in L1 as (s & L1 & E). injection E as <-. apply bind_Ok in L1 as (u & L1 & E). injection E as <-. cbn [fst].
      unfold ledger_parse_entry in L1. apply bind_Ok in L1 as (e & He & L1). exists e. split; [exists (l_format l0), (account_names l0); exact He|exact L1]. }
  exists e. split; [exact Pe|]. apply (Frame_but today). exact (Frame_items today e ys _ _ _ _ (Frame_start today e _ _ _ B Ae) L L').
Qed.
Print Assumptions C123_accounts.

(** The lines of the other accounts in the balance report stay the same, and so
    does a register in which the entry is not listed. *)
Lemma other_postings k e es es' : (forall q, q e = false -> filter q es' = filter q es) -> ~ concerns e k ->
  filter (to_account k) (postings es') = filter (to_account k) (postings es).
Proof.
  intros Q N. set (q := fun x => existsb (fun p => str_eqb (get_account p) k) (e_postings x)).
  assert (forall l, filter (to_account k) (postings l) = filter (to_account k) (postings (filter q l))) as E.
  { induction l as [|x l IH]; [reflexivity|]. unfold postings in *. cbn [flat_map filter]. rewrite filter_app, IH. destruct (q x) eqn:Eq; [cbn [flat_map]; rewrite filter_app; reflexivity|].
    replace (filter (to_account k) (map (pair x) (e_postings x))) with (@nil (entry * posting)); [reflexivity|]. symmetry. unfold q in Eq. revert Eq. clear. generalize (e_postings x) at 1 2 as ps.
    induction ps as [|p ps IH]; intro H; [reflexivity|]. cbn [existsb] in H. apply orb_false_iff in H as [H1 H2]. cbn [map filter]. rewrite IH by exact H2.
    unfold to_account. cbn [snd]. rewrite ?H1. destruct (str_dec (get_account p) k) as [E|_]; [exfalso|reflexivity]. subst k. rewrite str_eqb_refl in H1. discriminate. }
  rewrite (E es'), (E es), Q; [reflexivity|]. apply not_true_iff_false. intro H. unfold q in H. apply existsb_exists in H as (p & I & H). apply N. exists p. split; [exact I|apply str_eqb_eq, H].
Qed.
Lemma balance_unique es k pl pl' : balance es k pl -> balance es k pl' -> pl = pl'.
Proof.
  intros (x & r & xs & E & W & ->) (x' & r' & xs' & E' & W' & ->). rewrite E in E'. injection E' as <- <-. rewrite (worths_unique _ _ _ W W'). reflexivity.
Qed.
Theorem C123_reports : forall e l l', but_for e l l' ->
  (forall t t', show_balance l = Ok t -> show_balance l' = Ok t' ->
     exists rows rows', in_order (map fst rows) /\ in_order (map fst rows')
     /\ t = flat_map balance_line rows /\ t' = flat_map balance_line rows'
     /\ forall name pl, ~ concerns e name -> (In (name, pl) rows <-> In (name, pl) rows'))
  /\ forall tty b f m, ~ selected b f m e -> show_register tty l' b f m = show_register tty l b f m.
Proof.
  intros e l l' (_ & F & _ & _ & Q & _). split.
  - intros t t' T T'. destruct (C71_balance _ _ T) as (rows & O & U & B & ->). destruct (C71_balance _ _ T') as (rows' & O' & U' & B' & ->).
    exists rows, rows'. split; [exact O|]. split; [exact O'|]. split; [reflexivity|]. split; [reflexivity|]. intros name pl N.
    pose proof (other_postings name e _ _ Q N) as P.
    assert (used (l_entries l) name <-> used (l_entries l') name) as Us by (rewrite !used_filter, P; reflexivity).
    assert (forall pl, balance (l_entries l) name pl <-> balance (l_entries l') name pl) as Bs by (intro; unfold balance; rewrite P; reflexivity).
    split; intro I.
    + assert (In name (map fst rows')) as J by (apply U', Us, U, in_map_iff; exists (name, pl); split; [reflexivity|exact I]).
      apply in_map_iff in J as ((n & pl') & E & J). cbn [fst] in E. subst n. rewrite (balance_unique _ _ _ _ (proj1 (Bs pl) (B _ _ I)) (B' _ _ J)). exact J.
    + assert (In name (map fst rows)) as J by (apply U, Us, U', in_map_iff; exists (name, pl); split; [reflexivity|exact I]).
      apply in_map_iff in J as ((n & pl') & E & J). cbn [fst] in E. subst n. rewrite (balance_unique _ _ _ _ (B' _ _ I) (proj1 (Bs pl') (B _ _ J))). exact J.
  - intros tty b f m N. unfold show_register, register_display. rewrite F, Q; [reflexivity|]. apply not_true_iff_false. rewrite selected_iff. exact N.
Qed.
Print Assumptions C123_reports.

(** *** A case *)
Definition base_lines : list string :=
  ["account assets:a"; "account b"; "account c"; "  expense food due every friday"; "    amount 120 EUR";
   "2024/03/01 * Salary"; "  assets:a  500 EUR"; "  b  -500 EUR"; "2024/03/10 * Move"; "  c  20 EUR"; "  b  -20 EUR"]%string.
Definition gift : list string := ["2024/03/05 * Gift"; "  c  -7 EUR"; "  b  7 EUR"]%string.
Definition without : world := world_of [([lit "j"], text base_lines)] [[]] [].
Definition with_gift : world := world_of [([lit "j"], text (firstn 8 base_lines ++ gift ++ skipn 8 base_lines))] [[]] [].
Definition shown_by (args : list string) (w : world) : list str := lines (o_out (main (ctx [] (fun _ => [])) (map lit (args ++ ["--no-move"; "-f"; "/j"]%string)) w)).
Local Ltac cut := unfold cut_up; match goal with |- chunks _ ?l _ => let v := eval vm_compute in l in change l with v end;
  repeat first [ apply chunks_new; [intros (? & ? & E & W); injection E as <- _; discriminate W|]
               | apply chunks_more; [eexists; eexists; split; reflexivity|]; cbn [app] | apply chunks_nil ].
Local Ltac walk := eapply unfolds_file; [vm_compute; discriminate|vm_compute; reflexivity|cut|]; vm_compute (removelast _);
  apply follows_blank; [reflexivity|]; repeat first [apply follows_item; [discriminate|discriminate|]|apply follows_nil].
Example C123_case : one_more without with_gift (lit "/j") (text gift)
  /\ shown_by ["balance"]%string without
     = map lit ["assets:a                                500 EUR"; "b                                      -520 EUR"; "c                                       20 EUR"]%string
  /\ shown_by ["balance"]%string with_gift
     = map lit ["assets:a                                500 EUR"; "b                                      -513 EUR"; "c                                       13 EUR"]%string
  /\ shown_by ["register"]%string with_gift = shown_by ["register"]%string without /\ shown_by ["register"]%string without <> [].
Proof.
  split.
  - exists [], []. eexists [_; _; _; _], [_]. split; [walk|]. split; [walk|]. split; [discriminate|]. intros [H|[H|[H|H]]]; discriminate H.
  - split; [vm_compute; reflexivity|]. split; [vm_compute; reflexivity|]. split; [vm_compute; reflexivity|]. vm_compute. discriminate.
Qed.
