(** C134: the printed balances add up to zero. *)
From Coq Require Import ZArith NArith List Bool Ascii String Reals Lia Lra Permutation Sorted.
From Verif Require Import Base Str F64 Date World Amount Posting Entry Envelope Account Register Ledger Importer Cli
  SpecAmount SpecDate SpecEntry SpecEnvelope SpecLedger SpecReport SpecTotals SpecCli SpecRun SpecTyped SpecZero
  StrFacts TypedFacts PropertiesLedger PropertiesCli PropertiesRun PropertiesFrame PropertiesTyped.
Import ListNotations.
Local Open Scope Z_scope.

Definition amounts (sym : option str) (e : typed_entry) : list Z :=
  map (fun p => fst (moved (snd e) p)) (of_currency (fun p => snd (moved (snd e) p)) sym (snd e)).

Lemma given_all ps : filter open ps = [] -> forall qs sym, map (fun p => fst (moved qs p)) (of_currency (fun p => snd (moved qs p)) sym ps) = map fst (of_currency snd sym (given ps)).
Proof.
  induction ps as [|p ps IH]; intros H qs sym; [reflexivity|]. unfold given, of_currency in *. cbn [filter flat_map] in *.
  destruct (open p) eqn:O; [discriminate|]. unfold open in O. destruct (t_amount p) as [a|] eqn:E; [|discriminate].
  assert (moved qs p = a) as M by (unfold moved; rewrite E; reflexivity). rewrite M. cbn [app filter]. destruct (sym_dec (snd a) sym); cbn [map]; rewrite (IH H), ?M; reflexivity.
Qed.
Lemma given_app a b : given (a ++ b) = given a ++ given b.
Proof. unfold given. apply flat_map_app. Qed.
Lemma none_open ps : (forall p, In p ps -> t_amount p <> None) -> filter open ps = [].
Proof. intro H. apply filter_none. intros p I. unfold open. specialize (H p I). destruct (t_amount p); [reflexivity|congruence]. Qed.
Lemma open_split ps p : (List.length (filter open ps) <= 1)%nat -> In p ps -> t_amount p = None -> exists a b, ps = a ++ p :: b /\ filter open a = [] /\ filter open b = [].
Proof.
  intros L I N. destruct (in_split _ _ I) as (a & b & ->). exists a, b. rewrite filter_app, app_length in L. cbn [filter] in L. assert (open p = true) as O by (unfold open; rewrite N; reflexivity). rewrite O in L. cbn [List.length] in L.
  destruct (filter open a), (filter open b); cbn in L; try lia. auto.
Qed.
Lemma of_one (sym : option str) (l : list (Z * option str)) : (forall y, In y l -> snd y = sym) -> of_currency snd sym l = l.
Proof. intro H. apply filter_all. intros y I. rewrite (H y I). destruct (sym_dec sym sym); congruence. Qed.
Lemma of_other s (sym : option str) (l : list (Z * option str)) : s <> sym -> (forall y, In y l -> snd y = s) -> of_currency snd sym l = [].
Proof. intros D H. apply filter_none. intros y I. rewrite (H y I). destruct (sym_dec s sym); congruence. Qed.

Lemma amounts_zero e sym : complete (snd e) -> balances (snd e) -> Zsum (amounts sym e) = 0.
Proof.
  destruct e as [d ps]. unfold amounts. cbn [snd]. intros [L C] B.
  assert ((exists p, In p ps /\ t_amount p = None) \/ filter open ps = []) as [(p & I & N)|E].
  { destruct (filter open ps) as [|p r] eqn:E; [auto|]. left. exists p. assert (In p (filter open ps)) as J by (rewrite E; left; reflexivity). apply filter_In in J. destruct J as [J O]. split; [exact J|]. unfold open in O. destruct (t_amount p); congruence. }
  - destruct (open_split ps p L I N) as (a & b & E & Ea & Eb). destruct (C p I N) as (x & Ix & Hx).
    assert (given ps = given a ++ given b) as G. { rewrite E, given_app. unfold given at 2. cbn [flat_map]. rewrite N. reflexivity. }
    assert (moved ps p = (- Zsum (map fst (given ps)), snd x)) as M. { unfold moved. rewrite N. f_equal. destruct (given ps) as [|y r]; [destruct Ix|]. apply Hx. left. reflexivity. }
    assert (forall l, l = a ++ p :: b -> Zsum (map (fun p => fst (moved ps p)) (of_currency (fun p => snd (moved ps p)) sym l)) = 0) as K; [|apply K, E]. intros l ->.
    unfold of_currency. rewrite filter_app. cbn [filter]. rewrite M. cbn [snd].
    pose proof (given_all a Ea ps sym) as Ga. pose proof (given_all b Eb ps sym) as Gb. unfold of_currency at 1 in Ga. unfold of_currency at 1 in Gb.
    rewrite map_app, Zsum_split, Ga.
    destruct (sym_dec (snd x) sym) as [<-|D]; cbn [map]; [unfold Zsum at 2; cbn [fold_right]; fold (Zsum (map (fun p => fst (moved ps p)) (filter (fun x0 => if sym_dec (snd (moved ps x0)) (snd x) then true else false) b)))|]; rewrite Gb; [|].
    + rewrite M. cbn [fst]. rewrite !of_one by (intros y J; apply Hx; rewrite G; apply in_or_app; tauto). rewrite G, map_app, Zsum_split. lia.
    + rewrite !(of_other (snd x) sym) by (try exact D; intros y J; apply Hx; rewrite G; apply in_or_app; tauto). reflexivity.
  - rewrite given_all by exact E. destruct B as [(p & I & N)|B]; [|apply B].
    exfalso. assert (In p (filter open ps)) as J by (apply filter_In; split; [exact I|unfold open; rewrite N; reflexivity]). rewrite E in J. destruct J.
Qed.

(** Over all accounts. *)
Definition over (names : list str) (f : str -> Z) : Z := Zsum (map f names).
Lemma over_add names f g : over names (fun n => f n + g n) = over names f + over names g.
Proof. unfold over, Zsum. induction names as [|n l IH]; [reflexivity|]. cbn [map fold_right]. rewrite IH. lia. Qed.
Lemma over_ext names f g : (forall n, In n names -> f n = g n) -> over names f = over names g.
Proof. intro H. unfold over. f_equal. apply map_ext_in. exact H. Qed.
Lemma over_zero names : over names (fun _ => 0) = 0.
Proof. unfold over, Zsum. induction names as [|n l IH]; [reflexivity|]. cbn [map fold_right]. rewrite IH. reflexivity. Qed.
Lemma over_one names a z : NoDup names -> In a names -> over names (fun n => if str_dec a n then z else 0) = z.
Proof.
  intros D I. induction D as [|n l N D IH]; [destruct I|]. unfold over, Zsum in *. cbn [map fold_right]. destruct (str_dec a n) as [->|Q].
  - enough (fold_right Z.add 0 (map (fun m => if str_dec n m then z else 0) l) = 0) by lia.
    clear IH D I. induction l as [|m l IH]; [reflexivity|]. cbn [map fold_right]. destruct (str_dec n m) as [->|_]; [exfalso; apply N; left; reflexivity|]. apply IH. intro J. apply N. right. exact J.
  - destruct I as [->|I]; [congruence|]. rewrite (IH I). reflexivity.
Qed.
Lemma over_entry names e sym : NoDup names -> (forall p, In p (snd e) -> In (t_account p) names) ->
  over names (fun n => Zsum (in_entry (fun ps p => [fst (moved ps p)]) n sym e)) = Zsum (amounts sym e).
Proof.
  intros D. unfold in_entry, amounts. destruct e as [d ps]. cbn [snd]. generalize (fun p => moved ps p) as f.
  assert (forall l, (forall p, In p l -> In (t_account p) names) ->
    over names (fun n => Zsum (flat_map (fun p => [fst (moved ps p)]) (filter (meant n sym ps) l))) = Zsum (map (fun p => fst (moved ps p)) (of_currency (fun p => snd (moved ps p)) sym l))) as K; [|intros _; apply K].
  induction l as [|p l IH]; intro H; [apply over_zero|]. rewrite (over_ext _ _ (fun n => (if str_dec (t_account p) n then (if sym_dec (snd (moved ps p)) sym then fst (moved ps p) else 0) else 0)
     + Zsum (flat_map (fun p => [fst (moved ps p)]) (filter (meant n sym ps) l)))).
  - rewrite over_add, over_one, IH; [|intros q J; apply H; right; exact J|exact D|apply H; left; reflexivity].
    unfold of_currency. cbn [filter]. destruct (sym_dec _ sym); reflexivity.
  - intros n _. cbn [filter]. unfold meant at 1. destruct (str_dec (t_account p) n); [|reflexivity]. destruct (sym_dec _ sym); reflexivity.
Qed.
Lemma over_all names es sym : NoDup names -> (forall n, named_in es n -> In n names) ->
  over names (fun n => Zsum (moves es n sym)) = Zsum (flat_map (amounts sym) es).
Proof.
  intro D. induction es as [|e es IH]; intro H; [apply over_zero|]. cbn [flat_map]. rewrite Zsum_split, <- IH, <- (over_entry names e sym D), <- over_add.
  - apply over_ext. intros n _. unfold moves. cbn [flat_map]. apply Zsum_split.
  - intros p I. apply H. exists e, p. split; [left; reflexivity|auto].
  - intros n (e' & p & I & J & E). apply H. exists e', p. split; [right; exact I|auto].
Qed.

Lemma typed_complete accounts ls es : typed_lines accounts ls es -> Forall (fun e => complete (snd e)) es.
Proof. induction 1; try constructor; auto. Qed.
Lemma order_distinct names : in_order names -> NoDup names.
Proof.
  induction 1 as [|s ss F O IH]; constructor; [|exact IH]. intro I. rewrite Forall_forall in F. specialize (F _ I). clear - F.
  assert (forall s t, alphabetical s t -> s <> t) as K; [|exact (K _ _ F eq_refl)].
  clear. induction 1 as [c s|c d s t L|c s t A IH]; [discriminate| |]; intro E; injection E; [intros _ ->|congruence]. revert L. apply N.lt_irrefl.
Qed.
Definition with_moves (es : list typed_entry) (r : str * list (option str * str)) : row :=
  (fst r, map (fun x => (x, Zsum (moves es (fst r) (fst x)))) (snd r)).
Lemma with_moves_texts es rows : map texts (map (with_moves es) rows) = rows.
Proof.
  rewrite map_map. rewrite <- (map_id rows) at 2. apply map_ext. intros [n ts]. unfold texts, with_moves. cbn [fst snd]. rewrite map_map. cbn [fst]. rewrite map_id. reflexivity.
Qed.
Lemma row_sum (f : option str -> Z) sym (ts : list (option str * str)) : NoDup (map fst ts) -> (In sym (map fst ts) \/ f sym = 0) ->
  Zsum (map snd (of_currency (fun x => fst (fst x)) sym (map (fun x => (x, f (fst x))) ts))) = f sym.
Proof.
  unfold of_currency. induction ts as [|[s t] ts IH]; intros D H; [destruct H as [[]| ->]; reflexivity|]. cbn [map filter fst] in *. inversion_clear D as [|? ? N D'].
  destruct (sym_dec s sym) as [->|Q].
  - cbn [map snd]. rewrite filter_none; [unfold Zsum; cbn; lia|]. intros [[s t'] z] I. apply in_map_iff in I. destruct I as ((s' & t'') & E & I). injection E as -> -> <-. cbn [fst].
    destruct (sym_dec s sym) as [->|_]; [|reflexivity]. exfalso. apply N. apply in_map_iff. exists (sym, t'). auto.
  - apply IH; [exact D'|]. destruct H as [[H|H]|H]; [congruence|left; exact H|right; exact H].
Qed.
Lemma report_sum es sym rows :
  (forall name ts, In (name, ts) rows -> NoDup (map fst ts) /\ (In sym (map fst ts) <-> moves es name sym <> [])) ->
  Zsum (shown_in sym (map (with_moves es) rows)) = over (map fst rows) (fun n => Zsum (moves es n sym)).
Proof.
  unfold shown_in, of_currency, over. induction rows as [|[n ts] rows IH]; intro H; [reflexivity|]. cbn [map flat_map fst]. rewrite filter_app, map_app, Zsum_split, IH by (intros; apply H; right; assumption).
  destruct (H n ts (or_introl eq_refl)) as [D I]. unfold with_moves at 1. cbn [fst snd]. pose proof (row_sum (fun s => Zsum (moves es n s)) sym ts D) as R. unfold of_currency in R. rewrite R; [reflexivity|].
  destruct (moves es n sym) eqn:E; [right; reflexivity|left; apply I; discriminate].
Qed.

Theorem C134_partial : forall x args f w p text es,
  parse_args args = Some (Ok f) -> f_cmd f = Balance -> chosen x f p -> (0 < x_fuel x)%nat -> components p <> [] ->
  files w (resolve w p) = Some text -> typed_journal text es -> opened es -> modest_sums es ->
  Forall (fun e => balances (snd e)) es ->
  o_res (main x args w) = Ok tt
  /\ exists rows, o_out (main x args w) = flat_map row_text (map texts rows)
     /\ (forall name, In name (map fst rows) <-> named_in es name)
     /\ (forall name ts sym t z, In (name, ts) rows -> In (sym, t, z) ts -> total_shown t z sym)
     /\ forall sym, Zsum (shown_in sym rows) = 0.
Proof.
  intros x args f w p text es Ha Hc Hp Hf Hn Ht Hj Ho Hm Hb.
  destruct (C133_balances x args f w p text es Ha Hc Hp Hf Hn Ht Hj Ho Hm) as (R & _ & rows & Out & Ord & Nm & Row). split; [exact R|].
  exists (map (with_moves es) rows). rewrite with_moves_texts. split; [exact Out|]. assert (map fst (map (with_moves es) rows) = map fst rows) as F by (rewrite map_map; reflexivity).
  rewrite F. split; [exact Nm|]. split.
  - intros name ts sym t z I J. apply in_map_iff in I. destruct I as ((n & us) & E & I). injection E as -> <-. apply in_map_iff in J. destruct J as ((s & u) & E & J). injection E as -> -> <-. apply (Row _ _ I). exact J.
  - intro sym. rewrite report_sum by (intros n ts I; destruct (Row n ts I) as (A & B & _); split; [exact A|apply B]).
    rewrite over_all; [|apply order_distinct, Ord|intro n; apply Nm]. pose proof (typed_complete _ _ _ Hj) as C.
    clear - Hb C. induction es as [|e es IH]; [reflexivity|]. inversion_clear Hb. inversion_clear C. cbn [flat_map]. rewrite Zsum_split, amounts_zero, IH by assumption. reflexivity.
Qed.
Print Assumptions C134_partial.

(** The journal of C133 again, and what its report shows. *)
Local Ltac digits := repeat (constructor; [vm_compute; split; discriminate|]); constructor.
Local Ltac shows neg ip fp := left; eexists; split; [exists neg, (lit ip), (lit fp); split; [reflexivity|]; split; [digits|split; [digits|split; [first [left; reflexivity|right; eexists _, _; split; [reflexivity|discriminate]]|
  split; [first [left; reflexivity|right; discriminate]|split; [let H := fresh in intro H; first [discriminate H|cbn; lra]|unfold decimal_value; vm_compute (number_of _); vm_compute (10 ^ _); cbn; lra]]]]]|reflexivity].
Example C134_case :
  let dollar := Some (lit "$") in
  let rows := [(purse, [(None, lit " 88.25", 8825000000); (dollar, lit "$ 7", 700000000)]);
               (lit "equity", [(None, lit "-100.5", -10050000000); (dollar, lit "$-7", -700000000)]);
               (lit "food", [(None, lit " 12.25", 1225000000)])] : list row in
  Forall (fun e => balances (snd e)) typed_case
  /\ o_out (main (ctx [] (fun _ => [])) (map lit ["b"; "--no-move"; "-f"; "/j"]%string) (world_of [(j, typed_text)] [[]] [])) = flat_map row_text (map texts rows)
  /\ (forall name ts sym t z, In (name, ts) rows -> In (sym, t, z) ts -> total_shown t z sym)
  /\ shown_in None rows = [8825000000; -10050000000; 1225000000] /\ shown_in dollar rows = [700000000; -700000000].
Proof.
  split; [|split; [vm_compute; reflexivity|split; [|split; reflexivity]]].
  - constructor; [left; eexists; split; [right; left; reflexivity|reflexivity]|]. constructor; [|constructor]. right. intro sym. unfold of_currency. cbn [snd given flat_map t_amount app filter].
    repeat destruct (sym_dec _ _); reflexivity || congruence.
  - intros name ts sym t z [E|[E|[E|[]]]] I; injection E as <- <-; cbn [In] in I; repeat match type of I with _ \/ _ => destruct I as [I|I] | False => destruct I end; injection I as <- <- <-.
    + shows false "88"%string "25"%string.
    + shows false "7"%string ""%string.
    + shows true "100"%string "5"%string.
    + shows true "7"%string ""%string.
    + shows false "12"%string "25"%string.
Qed.

(** Without the condition on postings without an amount: the money that left
    an account is missing in the report. *)
Local Ltac far := let E := fresh in let W := fresh in intros (? & ? & E & W); injection E as <- _; discriminate W.
Local Ltac near := eexists _, _; split; [reflexivity|reflexivity].
Local Ltac number n i f way := exists (lit n ++ lit i ++ lit f); exists (match n with EmptyString => false | _ => true end), (lit i), (lit (match f with EmptyString => EmptyString | String _ r => r end));
  split; [split; [digits|split; [digits|split; [discriminate|exists (lit i ++ lit f); split; [reflexivity|cbn; tauto]]]]|
  split; [unfold decimal_value; vm_compute (number_of _); vm_compute (10 ^ _); cbn; lra|split; [reflexivity|way]]].
Local Ltac line way := split; [near|split; [cbn; tauto|split; [discriminate|eexists; split; [vm_compute; reflexivity|way]]]].
Local Ltac head st := split; [far|split; [split; [discriminate|reflexivity]|exists st; eexists _, _; split; [vm_compute; reflexivity|split; [constructor|]]]];
  repeat (constructor; [let H := fresh in intro H; cbn in H; repeat destruct H as [H|H]; try discriminate H; destruct H|]); constructor.
Definition short_text : str := text ["account cash"; "account food"; ""; "2024/02/05 ~ market"; "  food   12.25"; "  cash"]%string.
Definition short_case : list typed_entry := [(mkDate 2024 2 5 eq_refl, [mkTyped (lit "food") (Some (1225000000, None)); mkTyped (lit "cash") None])].
Lemma short_typed : typed_journal short_text short_case.
Proof.
  unfold typed_journal. let c := eval vm_compute in (contents (lines short_text)) in change (contents (lines short_text)) with c.
  do 2 (eapply typed_account; [far|vm_compute; reflexivity|]).
  eapply (typed_next _ _ _ [_; _]); [head Cleared|constructor; [line ltac:(number ""%string "12"%string ".25"%string reflexivity)|constructor; [line reflexivity|constructor]]| |constructor].
  split; [reflexivity|]. intros p _ _. eexists. split; [left; reflexivity|]. intros y [<-|[]]. reflexivity.
Qed.
Theorem C134_refuted : exists x args f w p text es rows,
  parse_args args = Some (Ok f) /\ f_cmd f = Balance /\ chosen x f p /\ (0 < x_fuel x)%nat /\ components p <> []
  /\ files w (resolve w p) = Some text /\ typed_journal text es /\ modest_sums es /\ Forall (fun e => balances (snd e)) es
  /\ o_res (main x args w) = Ok tt /\ o_out (main x args w) = flat_map row_text (map texts rows)
  /\ (forall name ts sym t z, In (name, ts) rows -> In (sym, t, z) ts -> total_shown t z sym)
  /\ Zsum (shown_in None rows) <> 0.
Proof.
  exists (ctx [] (fun _ => [])), (map lit ["b"; "--no-move"; "-f"; "/j"]%string). eexists. exists (world_of [(j, short_text)] [[]] []), (lit "/j"), short_text, short_case.
  exists [(lit "cash", [(None, lit " 0", 0)]); (lit "food", [(None, lit " 12.25", 1225000000)])].
  split; [vm_compute; reflexivity|]. split; [reflexivity|]. split; [apply by_flag; reflexivity|]. split; [cbn; lia|]. split; [vm_compute; discriminate|]. split; [vm_compute; reflexivity|].
  split; [exact short_typed|]. split; [apply modest_together; vm_compute; discriminate|].
  split; [constructor; [left; eexists; split; [right; left; reflexivity|reflexivity]|constructor]|]. split; [vm_compute; reflexivity|]. split; [vm_compute; reflexivity|].
  split; [|discriminate].
  intros name ts sym t z [E|[E|[]]] I; injection E as <- <-; destruct I as [I|[]]; injection I as <- <- <-.
  - shows false "0"%string ""%string.
  - shows false "12"%string "25"%string.
Qed.
Print Assumptions C134_refuted.
