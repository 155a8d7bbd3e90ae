(** C138: one more entry. *)
From Coq Require Import ZArith NArith List Bool Ascii String Reals Lia Lra Permutation Sorted.
From Verif Require Import Base Str F64 Date World Amount Posting Entry Envelope Account Register Ledger Importer Cli
  SpecDate SpecEntry SpecEnvelope SpecLedger SpecReport SpecAmount SpecTotals SpecCli SpecRun SpecTyped SpecZero SpecSame SpecAdded
  StrFacts LedgerFacts OrderFacts TypedFacts PropertiesLedger PropertiesTotals PropertiesCli PropertiesRun PropertiesFrame PropertiesReport PropertiesTyped PropertiesZero PropertiesSame.
Import ListNotations.
Local Open Scope Z_scope.

Lemma keep_with_moves es (P : str -> bool) rows : filter (fun r : row => P (fst r)) (map (with_moves es) rows) = map (with_moves es) (filter (fun r => P (fst r)) rows).
Proof. induction rows as [|r rows IH]; [reflexivity|]. cbn [map filter]. rewrite IH. change (fst (with_moves es r)) with (fst r). destruct (P (fst r)); reflexivity. Qed.
Lemma keep_names (P : str -> bool) (rows : list (str * list (option str * str))) : map fst (filter (fun r => P (fst r)) rows) = filter P (map fst rows).
Proof. induction rows as [|r rows IH]; [reflexivity|]. cbn [map filter]. destruct (P (fst r)); cbn [map]; rewrite IH; reflexivity. Qed.
Lemma over_only names name g : NoDup names -> (~ In name names -> g name = 0) ->
  over (filter (fun n => if str_dec n name then true else false) names) g = g name.
Proof.
  induction names as [|n names IH]; intros D Z; [symmetry; apply Z; intros []|]. inversion D as [|? ? N D']; subst. cbn [filter]. destruct (str_dec n name) as [->|Ne].
  - unfold over. cbn [map]. assert (filter (fun n => if str_dec n name then true else false) names = []) as ->; [|cbn; lia].
    clear - N. induction names as [|m l IH]; [reflexivity|]. cbn [filter]. destruct (str_dec m name) as [->|]; [destruct N; left; reflexivity|]. apply IH. intro I. apply N. right. exact I.
  - apply IH; [exact D'|]. intro I. apply Z. intros [E|E]; [exact (Ne E)|exact (I E)].
Qed.
Lemma unnamed es name sym : ~ named_in es name -> moves es name sym = [].
Proof.
  intro N. unfold moves. induction es as [|e es IH]; [reflexivity|]. cbn [flat_map]. rewrite IH by (intros (e' & p & I & H); apply N; exists e', p; split; [right; exact I|exact H]).
  rewrite app_nil_r. unfold in_entry. assert (forall l, (forall p, In p l -> t_account p <> name) -> filter (meant name sym (snd e)) l = []) as K.
  { induction l as [|p l IHl]; intro H; [reflexivity|]. cbn [filter]. unfold meant at 1. destruct (str_dec (t_account p) name) as [E|_]; [destruct (H p (or_introl eq_refl) E)|]. apply IHl. intros q I. apply H. right. exact I. }
  rewrite K; [reflexivity|]. intros p I E. apply N. exists e, p. split; [left; reflexivity|auto].
Qed.

(** The report of a typed journal with its amounts. *)
Lemma journal_report x args f w p text es :
  parse_args args = Some (Ok f) -> f_cmd f = Balance -> chosen x f p -> (0 < x_fuel x)%nat ->
  components p <> [] -> files w (resolve w p) = Some text ->
  typed_journal text es -> opened es -> modest_sums es ->
  exists rows, report (o_out (main x args w)) rows /\ (forall name, In name (map fst rows) <-> named_in es name)
  /\ forall name sym, amount_in rows name sym = Zsum (moves es name sym).
Proof.
  intros Pa Fc Ch Fu Np Fi T O M.
  destruct (C133_balances x args f w p text es Pa Fc Ch Fu Np Fi T O M) as (_ & _ & rows & Out & Ord & Nm & Row).
  assert (map fst (map (with_moves es) rows) = map fst rows) as En by (rewrite map_map; reflexivity).
  exists (map (with_moves es) rows). split; [|split].
  - split; [rewrite with_moves_texts; exact Out|]. split; [rewrite En; exact Ord|].
    intros name us sym t z I J. apply in_map_iff in I. destruct I as ((n & vs) & E & I). injection E as -> <-. apply in_map_iff in J. destruct J as ((s & u) & E & J). injection E as -> -> <-. apply (Row _ _ I). exact J.
  - rewrite En. exact Nm.
  - intros name sym. unfold amount_in. rewrite (keep_with_moves es (fun n => if str_dec n name then true else false)), report_sum;
      [|intros n us I; apply filter_In in I as [I _]; destruct (Row n us I) as (A & B & _); split; [exact A|apply B]].
    rewrite (keep_names (fun n => if str_dec n name then true else false)). apply (over_only (map fst rows) name (fun n => Zsum (moves es n sym))); [apply order_distinct, Ord|].
    intro N. rewrite unnamed; [reflexivity|]. rewrite <- Nm. exact N.
Qed.

(** With one entry more, wherever it stands, every balance changes by what the
    entry moves there, and only the accounts of the entry can be new. *)
Theorem C138_added : forall x args f w w' p text es text' es' e,
  parse_args args = Some (Ok f) -> f_cmd f = Balance -> chosen x f p -> (0 < x_fuel x)%nat -> components p <> [] ->
  files w (resolve w p) = Some text -> typed_journal text es -> opened es -> modest_sums es ->
  files w' (resolve w' p) = Some text' -> typed_journal text' es' -> opened es' -> modest_sums es' ->
  Permutation es' (e :: es) ->
  exists rows rows', report (o_out (main x args w)) rows /\ report (o_out (main x args w')) rows'
  /\ (forall name, In name (map fst rows') <-> In name (map fst rows) \/ named_in [e] name)
  /\ forall name sym, amount_in rows' name sym = amount_in rows name sym + effect e name sym.
Proof.
  intros x args f w w' p text es text' es' e Pa Fc Ch Fu Np Fi T O M Fi' T' O' M' P.
  destruct (journal_report x args f w p text es Pa Fc Ch Fu Np Fi T O M) as (rows & R & N & A).
  destruct (journal_report x args f w' p text' es' Pa Fc Ch Fu Np Fi' T' O' M') as (rows' & R' & N' & A').
  exists rows, rows'. split; [exact R|]. split; [exact R'|]. destruct (permuted_totals _ _ P) as [Pn Pt]. split.
  - intro name. rewrite N, N', Pn. split.
    + intros (u & q & [<-|I] & H); [right; exists e, q; split; [left; reflexivity|exact H]|left; exists u, q; split; [exact I|exact H]].
    + intros [(u & q & I & H)|(u & q & [<-|[]] & H)]; [exists u, q; split; [right; exact I|exact H]|exists e, q; split; [left; reflexivity|exact H]].
  - intros name sym. rewrite A, A', (proj2 (Pt name sym)). unfold moves. cbn [flat_map]. rewrite Zsum_split. unfold effect, in_entry. lia.
Qed.
Print Assumptions C138_added.

(** ** An entry and its reverse *)

Definition negated (x : Z * option str) : Z * option str := (- fst x, snd x).
Lemma opposite_amount p q : opposite p q -> t_amount q = option_map negated (t_amount p).
Proof. intros [_ H]. destruct (t_amount p) as [[z s]|], (t_amount q) as [[z' s']|]; try contradiction; [destruct H as [-> ->]|]; reflexivity. Qed.
Lemma opposite_given ps qs : Forall2 opposite ps qs -> given qs = map negated (given ps).
Proof.
  induction 1 as [|p q ps qs H F IH]; [reflexivity|]. unfold given in *. cbn [flat_map]. rewrite IH, (opposite_amount _ _ H). destruct (t_amount p); reflexivity.
Qed.
Lemma Zsum_negated l : Zsum (map fst (map negated l)) = - Zsum (map fst l).
Proof. induction l as [|x l IH]; [reflexivity|]. cbn [map]. unfold Zsum in *. cbn [fold_right]. rewrite IH. cbn. lia. Qed.
Lemma opposite_moved ps qs p q : Forall2 opposite ps qs -> opposite p q -> moved qs q = negated (moved ps p).
Proof.
  intros F H. unfold moved. rewrite (opposite_amount _ _ H), (opposite_given _ _ F). destruct (t_amount p) as [x|]; [reflexivity|]. cbn [option_map].
  rewrite Zsum_negated. destruct (given ps) as [|y l]; reflexivity.
Qed.
Lemma opposite_entry e e' name sym : reverses e e' ->
  in_entry (fun ps p => [fst (moved ps p)]) name sym e' = map Z.opp (in_entry (fun ps p => [fst (moved ps p)]) name sym e).
Proof.
  unfold reverses, in_entry. destruct e as [d ps], e' as [d' qs]. cbn [snd]. intro F.
  assert (forall l m, Forall2 opposite l m -> flat_map (fun p => [fst (moved qs p)]) (filter (meant name sym qs) m)
    = map Z.opp (flat_map (fun p => [fst (moved ps p)]) (filter (meant name sym ps) l))) as K; [|exact (K _ _ F)].
  induction 1 as [|p q l m H G IH]; [reflexivity|]. cbn [filter].
  assert (meant name sym qs q = meant name sym ps p) as -> by (unfold meant; rewrite (opposite_moved _ _ _ _ F H), (proj1 H); reflexivity).
  destruct (meant name sym ps p); [|exact IH]. cbn [flat_map map app]. rewrite IH, (opposite_moved _ _ _ _ F H). reflexivity.
Qed.
Lemma Zsum_opp l : Zsum (map Z.opp l) = - Zsum l.
Proof. induction l as [|x l IH]; [reflexivity|]. cbn [map]. unfold Zsum in *. cbn [fold_right]. rewrite IH. lia. Qed.
Lemma entry_known es e name sym : nothing_new es e -> in_entry (fun ps p => [fst (moved ps p)]) name sym e <> [] -> moves es name sym <> [].
Proof.
  intros N H. unfold in_entry in H. destruct (filter (meant name sym (snd e)) (snd e)) as [|p l] eqn:E; [contradiction|].
  assert (In p (filter (meant name sym (snd e)) (snd e))) as I by (rewrite E; left; reflexivity). apply filter_In in I as [I Q].
  unfold meant in Q. destruct (str_dec (t_account p) name) as [<-|]; [|discriminate Q]. destruct (sym_dec (snd (moved (snd e) p)) sym) as [<-|]; [|discriminate Q]. exact (N p I).
Qed.
Lemma known_named es name sym : moves es name sym <> [] -> named_in es name.
Proof.
  intro H. unfold moves in H. destruct (flat_map _ es) as [|z l] eqn:E; [contradiction|]. assert (In z (flat_map (in_entry (fun ps p => [fst (moved ps p)]) name sym) es)) as I by (rewrite E; left; reflexivity).
  apply in_flat_map in I as (e & Ie & I). apply in_flat_map in I as (p & Ip & _). apply filter_In in Ip as [Ip Q]. exists e, p. split; [exact Ie|]. split; [exact Ip|].
  unfold meant in Q. destruct (str_dec (t_account p) name); [assumption|discriminate Q].
Qed.
Lemma reversed_totals es e e' : reverses e e' -> nothing_new es e -> same_totals es (e :: e' :: es).
Proof.
  intros R N. split.
  - intro name. split; [intros (u & q & I & H); exists u, q; split; [right; right; exact I|exact H]|].
    intros (u & q & [<-|[<-|I]] & J & <-); [exact (known_named _ _ _ (N q J))| |exists u, q; auto].
    destruct (AccountFacts.Forall2_In_r _ _ _ q R J) as (p & Ip & [E _]). rewrite E. exact (known_named _ _ _ (N p Ip)).
  - intros name sym. unfold moves at 2 4. cbn [flat_map]. fold (moves es name sym). rewrite (opposite_entry e e' name sym R).
    set (l := in_entry (fun ps p => [fst (moved ps p)]) name sym e) in *. split; [|rewrite !Zsum_split, Zsum_opp; lia].
    split; intro H; [|apply app_eq_nil in H as [_ H]; apply app_eq_nil in H; tauto].
    assert (l = []) as ->; [|exact H]. destruct l eqn:El; [reflexivity|exfalso]. apply (entry_known es e name sym N); [fold l; rewrite El; discriminate|exact H].
Qed.
(** An entry and its reverse, anywhere in the journal, do not change the
    report. *)
Theorem C138_reversed : forall x args f w w' p text es text' es' e e',
  parse_args args = Some (Ok f) -> f_cmd f = Balance -> chosen x f p -> (0 < x_fuel x)%nat -> components p <> [] ->
  files w (resolve w p) = Some text -> typed_journal text es -> opened es -> modest_sums es -> settled es ->
  files w' (resolve w' p) = Some text' -> typed_journal text' es' -> opened es' -> modest_sums es' ->
  Permutation es' (e :: e' :: es) -> reverses e e' -> nothing_new es e ->
  o_out (main x args w') = o_out (main x args w).
Proof.
  intros x args f w w' p text es text' es' e e' Pa Fc Ch Fu Np Fi T O M Se Fi' T' O' M' P R N. symmetry.
  refine (C137_partial x args f w p text es x args f w' p text' es' Pa Fc Ch Fu Np Fi T O M Pa Fc Ch Fu Np Fi' T' O' M' _ Se).
  destruct (reversed_totals es e e' R N) as [A B]. destruct (permuted_totals _ _ P) as [A' B']. split.
  - intro n. rewrite A. symmetry. apply A'.
  - intros n sym. destruct (B n sym) as [B1 B2], (B' n sym) as [B3 B4]. split; [rewrite B1; symmetry; exact B3|congruence].
Qed.
Print Assumptions C138_reversed.

(** A purchase, without and with its return. *)
Local Notation D y m d := (mkDate y m d eq_refl).
Definition shoes_entry : typed_entry := (D 2024 2 3, [mkTyped (lit "food") (Some (599000000, None)); mkTyped purse None]).
Definition return_entry : typed_entry := (D 2024 2 9, [mkTyped (lit "food") (Some (-599000000, None)); mkTyped purse None]).
Definition shoes_lines : list string := ["2024/02/03 ~ shoes"; "  food  5.99"; "  assets:cash"]%string.
Definition return_lines : list string := ["2024/02/09 ~ returned"; "  food  -5.99"; "  assets:cash"]%string.
Definition first_lines : list string := ["account assets:cash"; "account equity"; "account food"; "";
  "2024/02/01 * opening"; "  assets:cash  100.5"; "  equity  -100.5"; ""; "2024/02/05 ~ market"; "  food  12.25"; "  assets:cash"]%string.
Example C138_case :
  opened [start_entry; market_entry; shoes_entry; return_entry] /\ modest_sums [start_entry; market_entry; shoes_entry; return_entry]
  /\ reverses shoes_entry return_entry /\ nothing_new [start_entry; market_entry] shoes_entry
  /\ effect shoes_entry purse None = -599000000 /\ effect shoes_entry (lit "food") None = 599000000 /\ effect shoes_entry (lit "equity") None = 0
  /\ shown_by ["b"]%string (world_of [(j, text first_lines)] [[]] []) = map lit
      ["assets:cash                             88.25"; "equity                                 -100.5"; "food                                    12.25"]%string
  /\ shown_by ["b"]%string (world_of [(j, text (first_lines ++ shoes_lines))] [[]] []) = map lit
      ["assets:cash                             82.26"; "equity                                 -100.5"; "food                                    18.24"]%string
  /\ shown_by ["b"]%string (world_of [(j, text (first_lines ++ shoes_lines ++ return_lines))] [[]] [])
     = shown_by ["b"]%string (world_of [(j, text first_lines)] [[]] []).
Proof.
  split; [|split; [|split; [|split; [|repeat split; vm_compute; reflexivity]]]].
  - intros e p I J N. exists start_entry, (mkTyped purse (Some (10050000000, None))). split; [left; reflexivity|]. split; [left; reflexivity|].
    destruct I as [<-|[<-|[<-|[<-|[]]]]]; repeat destruct J as [<-|J]; try discriminate N; try destruct J; (split; [reflexivity|split; [discriminate|unfold earlier; cbn; lia]]).
  - apply modest_together. vm_compute. discriminate.
  - constructor; [split; [reflexivity|split; reflexivity]|]. constructor; [split; [reflexivity|exact I]|constructor].
  - intros p [<-|[<-|[]]]; vm_compute; discriminate.
Qed.
