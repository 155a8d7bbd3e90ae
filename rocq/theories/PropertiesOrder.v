(** Property C99: the order of the entries in the journal. *)
From Coq Require Import ZArith NArith List Bool String Lia Sorted Permutation.
From Verif Require Import Base Str F64 Date Amount Posting Entry Envelope Account World Register Ledger Cli
  SpecAmount SpecDate SpecEntry SpecEnvelope SpecHistory SpecLedger SpecOrder StrFacts DateFacts EntryFacts AccountFacts LedgerFacts
  OrderFacts PropertiesLedger PropertiesCli.
Import ListNotations.
Local Open Scope Z_scope.

(** ** Sorted lists *)
Lemma on_In d es e : In e (on d es) <-> In e es /\ e_date e = d.
Proof. unfold on. rewrite filter_In. destruct (date_dec (e_date e) d); intuition congruence. Qed.
Lemma sorted_on l : forall l', StronglySorted before l -> StronglySorted before l' -> same_days l l' -> l = l'.
Proof.
  induction l as [|e l IH]; intros l' S S' H.
  - destruct l' as [|f l']; [reflexivity|]. assert (In f (on (e_date f) (f :: l'))) as I by (apply on_In; split; [left|]; reflexivity).
    rewrite <- (H (e_date f)) in I. destruct I.
  - destruct l' as [|f l'].
    { assert (In e (on (e_date e) (e :: l))) as I by (apply on_In; split; [left|]; reflexivity). rewrite (H (e_date e)) in I. destruct I. }
    inversion S as [|? ? S1 F1]; inversion S' as [|? ? S2 F2]; subst.
    assert (e_date e = e_date f) as E.
    { assert (In e (f :: l')) as I1 by (apply (on_In (e_date e)); rewrite <- H; apply on_In; split; [left|]; reflexivity).
      assert (In f (e :: l)) as I2 by (apply (on_In (e_date f)); rewrite H; apply on_In; split; [left|]; reflexivity).
      destruct I1 as [->|I1]; [reflexivity|]. destruct I2 as [->|I2]; [reflexivity|].
      rewrite Forall_forall in F1, F2. apply F1 in I2. apply F2 in I1. unfold before in *.
      apply not_later_dayn in I1. apply not_later_dayn in I2. apply dayn_inj. lia. }
    assert (e = f /\ same_days l l') as [-> K].
    { split.
      - assert (X := H (e_date e)). unfold on in X. cbn [filter] in X. rewrite <- E in X. destruct (date_dec (e_date e) (e_date e)); [|congruence]. congruence.
      - intro d. assert (X := H d). unfold on in X |- *. cbn [filter] in X. rewrite <- E in X. destruct (date_dec (e_date e) d); congruence. }
    f_equal. apply IH; assumption.
Qed.

(** ** C99 *)
(** The balance report and the register are the same if only entries of
    different days have changed places. *)
Theorem C99_reports : forall today l es l' es',
  built today l es -> built today l' es' -> same_days es es' -> l_format l' = l_format l ->
  l_entries l' = l_entries l /\ show_balance l' = show_balance l
  /\ forall tty b e m, show_register tty l' b e m = show_register tty l b e m.
Proof.
  intros today l es l' es' B B' S F. destruct (built_entries _ _ _ B) as (_ & So & On). destruct (built_entries _ _ _ B') as (_ & So' & On').
  assert (l_entries l' = l_entries l) as E by (symmetry; apply sorted_on; [exact So|exact So'|]; intro d; rewrite On, On'; apply S).
  unfold show_balance, get_totals, show_register. rewrite E, F. repeat split.
Qed.
Print Assumptions C99_reports.

Lemma adding_iff today es : forall l l1, fold_res (add_entry today) es l = Ok l1 ->
  Forall2 (fun x y => fst y = fst x /\ fold_res (acc_process today) es (snd x) = Ok (snd y)) (l_accounts l) (l_accounts l1).
Proof.
  induction es as [|e es IH]; intros l l1 H; cbn [fold_res] in H.
  - injection H as <-. induction (l_accounts l); constructor; auto.
  - apply bind_Ok in H as (l' & E & H). apply IH in H. rewrite add_entry_accounts_eq in E. apply bind_Ok in E as (m & E & K). injection K as <-.
    cbn [l_accounts] in H. apply EnvelopeFacts.map_res_Ok in E. revert H. generalize (l_accounts l1) as q. induction E as [|x y xs ys P _ IHE]; intros q H.
    + inversion H; subst. constructor.
    + inversion H as [|? z ? zs (A & C) H']; subst. unfold process_pair in P. apply bind_Ok in P as (a & P & K). injection K as <-. cbn [fst snd] in *.
      constructor; [|apply IHE, H']. split; [exact A|]. cbn [fold_res]. rewrite P. exact C.
Qed.
Lemma adding_works today es : forall l m,
  Forall2 (fun x y => fst y = fst x /\ fold_res (acc_process today) es (snd x) = Ok (snd y)) (l_accounts l) m ->
  exists l1, fold_res (add_entry today) es l = Ok l1 /\ l_accounts l1 = m.
Proof.
  induction es as [|e es IH]; intros l m F; cbn [fold_res].
  - exists l. split; [reflexivity|]. revert F. generalize (l_accounts l). intros q F. induction F as [|[k a] [k' b] xs ys (A & C) _ IHF]; [reflexivity|].
    cbn in A, C. injection C as <-. rewrite A, IHF. reflexivity.
  - assert (exists q, Forall2 (fun x y => process_pair today e x = Ok y) (l_accounts l) q
      /\ Forall2 (fun x y => fst y = fst x /\ fold_res (acc_process today) es (snd x) = Ok (snd y)) q m) as (q & Q & R).
    { revert F. generalize (l_accounts l). intros q F. induction F as [|x y xs ys (A & C) _ (q' & Q & R)]; [exists []; split; constructor|].
      cbn [fold_res] in C. apply bind_Ok in C as (a & P & C). exists ((fst x, a) :: q'). split; constructor; auto.
      unfold process_pair. rewrite P. reflexivity. }
    rewrite add_entry_accounts_eq, (proj2 (EnvelopeFacts.map_res_Ok _ _ _) Q). cbn [bind]. apply IH. exact R.
Qed.
Lemma built_starting today l es : built today l es -> es = [] -> forall k a, In (k, a) (l_accounts l) -> starting a.
Proof.
  induction 1 as [p|l es e l' _ _ _|l es chunk l' _ IH H|l es v l' _ IH H|l es v l' _ IH H]; intros E k a I.
  - destruct I.
  - destruct es; discriminate.
  - unfold ledger_parse_account in H. apply bind_Ok in H as (b & P & H). injection H as <-. cbn [l_accounts] in I.
    assert (In (k, a) (l_accounts l) \/ a = b) as [K| ->].
    { clear - I. induction (l_accounts l) as [|[k' a'] m IHm]; cbn [map_insert] in I.
      - destruct I as [I|[]]. right. congruence.
      - destruct (str_eqb k' (a_name b)); destruct I as [I|I].
        + right. congruence.
        + left. right. exact I.
        + left. left. exact I.
        + destruct (IHm I) as [K|K]; [left; right; exact K|right; exact K]. }
    + exact (IH E k a K).
    + exact (parsed_starting _ _ _ _ P).
  - unfold set_currency in H. destruct v; [|discriminate]. injection H as <-. exact (IH E k a I).
  - unfold set_date_format in H. destruct v; [|discriminate]. injection H as <-. exact (IH E k a I).
Qed.
(** If the accounts are defined before the entries, then all entries can be
    added in one order if they can be added in another, and whole numbers of
    money are the same in all accounts and envelopes. *)
Theorem C99_partial : forall today l es es' l1, built today l [] -> Permutation es es' ->
  fold_res (add_entry today) es l = Ok l1 ->
  exists l2, fold_res (add_entry today) es' l = Ok l2
  /\ Forall2 (fun x y => fst y = fst x /\ same_money es (snd x) (snd y)) (l_accounts l1) (l_accounts l2).
Proof.
  intros today l es es' l1 B P H. apply adding_iff in H. assert (St := built_starting _ _ _ B eq_refl).
  assert (exists m, Forall2 (fun x y => fst y = fst x /\ fold_res (acc_process today) es' (snd x) = Ok (snd y)) (l_accounts l) m
    /\ Forall2 (fun x y => fst y = fst x /\ same_money es (snd x) (snd y)) (l_accounts l1) m) as (m & M & R).
  { revert St. induction H as [|x y xs ys (A & C) _ IH]; intro St; [exists []; split; constructor|].
    destruct IH as (m & M & R); [intros; apply (St k a); right; assumption|].
    destruct x as [k a]. cbn [fst snd] in *. destruct (account_order today es es' a (snd y) (St k a (or_introl eq_refl)) P C) as (b & Hb & Sb).
    exists ((fst y, b) :: m). split; constructor; auto. }
  destruct (adding_works today es' l m M) as (l2 & H2 & <-). exists l2. split; [exact H2|exact R].
Qed.
Print Assumptions C99_partial.

Definition before_entries : list string :=
  ["account assets:cash"; "  expense food due every 25th"; "    amount $100"; "    funding conservative"; "account income:job"]%string.
Definition dollar_entry : list string := ["2024/03/01 * pay"; "  assets:cash  $500"; "  income:job"]%string.
Definition euro_entry : list string := ["2024/03/02 * pay"; "  assets:cash  30 EUR"; "  income:job"]%string.
Definition move_entry : list string := ["2024/03/20 * move"; "  envelope assets:cash food $20"]%string.
Definition back_entry : list string := ["2024/03/18 * move"; "  envelope assets:cash food $-4"]%string.
Definition report (f : string) (ls : list string) : option str :=
  let o := main (ctx [] (fun _ => [])) (map lit [f; "-f"; "/j"; "--no-move"]%string) (world_of [(j, text ls)] [[]] []) in
  match o_res o with Ok _ => Some (o_out o) | _ => None end.
(** The envelope report is not: the lines of the available money change places. *)
Theorem C99_refuted : exists es fs b r,
  let one := es ++ fs in let other := es ++ skipn 3 fs ++ firstn 3 fs in
  report "b" one = Some b /\ report "b" other = Some b
  /\ report "r" one = Some r /\ report "r" other = Some r
  /\ report "e" one <> report "e" other.
Proof.
  exists before_entries, (dollar_entry ++ euro_entry). do 2 eexists. cbv zeta.
  split; [vm_compute; reflexivity|]. split; [vm_compute; reflexivity|]. split; [vm_compute; reflexivity|].
  split; [vm_compute; reflexivity|]. vm_compute. discriminate.
Qed.
Print Assumptions C99_refuted.
(** And what is moved to the envelopes is not, see C98. *)
Definition moved_on (ls : list string) : option str :=
  option_map (skipn (List.length (text ls)))
    (files (o_world (main (ctx [] (fun _ => [])) (map lit ["e"; "-f"; "/j"]%string) (world_of [(j, text ls)] [[]] []))) j).
Theorem C99_moves_refuted : exists es e f,
  moved_on (es ++ e ++ f) = Some []
  /\ moved_on (es ++ f ++ e) = Some (10%N :: text
       ["2024/03/20 ~ move to envelopes // automatically generated by silverfox";
        "    envelope assets:cash food                          $ 16"; ""]%string).
Proof. exists (before_entries ++ dollar_entry), back_entry, move_entry. split; vm_compute; reflexivity. Qed.
Print Assumptions C99_moves_refuted.
Example C99_case :
  report "e" (before_entries ++ dollar_entry ++ move_entry ++ back_entry)
  = report "e" (before_entries ++ back_entry ++ move_entry ++ dollar_entry)
  /\ real_text "assets:cash" (loaded (before_entries ++ dollar_entry ++ move_entry ++ back_entry)) = Some (lit "$ 500").
Proof. vm_compute. split; reflexivity. Qed.
