(** C136: the register and the balances agree. *)
From Coq Require Import ZArith NArith List Bool Ascii String Reals Lia Lra Permutation Sorted.
From Verif Require Import Base Str F64 Date World Amount Posting Entry Envelope Account Register Ledger Importer Cli
  SpecAmount SpecDate SpecEntry SpecEnvelope SpecLedger SpecReport SpecTotals SpecCli SpecRun SpecTyped SpecZero SpecRows SpecAgree
  StrFacts OrderFacts TypedFacts PropertiesLedger PropertiesTotals PropertiesCli PropertiesRun PropertiesFrame PropertiesTyped PropertiesZero PropertiesRows.
Import ListNotations.
Local Open Scope Z_scope.

Lemma last_totals past ts rows : right_rows past ts rows -> forall sym,
  (forall c, last_cell sym rows c -> total_shown (snd c) (Zsum (flat_map (change sym) (past ++ ts))) sym)
  /\ (no_cell sym rows -> Zsum (flat_map (change sym) ts) = 0).
Proof.
  induction 1 as [past|past e es rows Z R IH|past e es cells rows N D Sy F R IH]; intro sym.
  - split; [|reflexivity]. intros c (a & r & b & E & _). destruct a; discriminate.
  - destruct (IH sym) as [I1 I2]. rewrite <- app_assoc in I1. split; [exact I1|]. intro Nc. cbn [flat_map]. rewrite Zsum_split, Z, (I2 Nc). reflexivity.
  - destruct (IH sym) as [I1 I2]. rewrite <- app_assoc in I1. split.
    + intros c (a & r & b & E & Ic & Sc & Nb). destruct a as [|r' a]; cbn [app] in E; injection E as E1 E2.
      * subst r b. cbn [snd] in Ic. rewrite Forall_forall in F. destruct (F c Ic) as [_ T]. rewrite Sc in T.
        replace (Zsum (flat_map (change sym) (past ++ e :: es))) with (Zsum (flat_map (change sym) (past ++ [e]))); [exact T|].
        rewrite !flat_map_app. cbn [flat_map]. rewrite !Zsum_split, (I2 Nb). reflexivity.
      * apply I1. exists a, r, b. auto.
    + intro Nc. cbn [flat_map]. rewrite Zsum_split, I2 by (intros r c Ir; apply Nc; right; exact Ir).
      assert (change sym e = []) as ->; [|reflexivity]. destruct (change sym e) eqn:Ec; [reflexivity|]. exfalso.
      assert (In sym (map (fun c => fst (fst c)) cells)) as I by (apply Sy; rewrite Ec; discriminate).
      apply in_map_iff in I as (c & Sc & Ic). exact (Nc _ c (or_introl eq_refl) Ic Sc).
Qed.

(** The balances of the asset accounts together. *)
Lemma over_assets names es sym : NoDup names -> (forall n, named_in es n -> In n names) ->
  over (filter asset names) (fun n => Zsum (moves es n sym)) = Zsum (flat_map (change sym) es).
Proof.
  intro D. assert (NoDup (filter asset names)) as D' by (apply NoDup_filter, D).
  induction es as [|e es IH]; intro H; [apply over_zero|]. cbn [flat_map]. rewrite Zsum_split, <- IH.
  - rewrite (over_ext _ _ (fun n => Zsum (in_entry (fun ps p => [fst (moved ps p)]) n sym e) + Zsum (moves es n sym))); [|intros n _; unfold moves; cbn [flat_map]; apply Zsum_split].
    rewrite over_add. f_equal. destruct e as [d ps]. unfold in_entry, change, of_assets. cbn [snd].
    assert (forall l, (forall p, In p l -> In (t_account p) names) ->
      over (filter asset names) (fun n => Zsum (flat_map (fun p => [fst (moved ps p)]) (filter (meant n sym ps) l)))
      = Zsum (flat_map (fun p => [fst (moved ps p)]) (filter (on_assets sym ps) l))) as K.
    { induction l as [|p l IHl]; intro Hl; [apply over_zero|].
      rewrite (over_ext _ _ (fun n => (if str_dec (t_account p) n then (if sym_dec (snd (moved ps p)) sym then fst (moved ps p) else 0) else 0)
        + Zsum (flat_map (fun p => [fst (moved ps p)]) (filter (meant n sym ps) l)))).
      - rewrite over_add, IHl by (intros q J; apply Hl; right; exact J). cbn [filter]. unfold on_assets at 2. destruct (asset (t_account p)) eqn:Ea.
        + rewrite over_one; [destruct (sym_dec _ sym); reflexivity|exact D'|apply filter_In; split; [apply Hl; left; reflexivity|exact Ea]].
        + rewrite (over_ext _ _ (fun _ => 0)); [rewrite over_zero; reflexivity|]. intros n I. apply filter_In in I as [_ I]. destruct (str_dec (t_account p) n); [congruence|reflexivity].
      - intros n _. cbn [filter]. unfold meant at 1. destruct (str_dec (t_account p) n); [|reflexivity]. destruct (sym_dec _ sym); reflexivity. }
    apply K. intros p I. apply H. exists (d, ps), p. split; [left; reflexivity|auto].
  - intros n (e' & p & I & J & E). apply H. exists e', p. split; [right; exact I|auto].
Qed.
Lemma filter_with_moves es rows : filter (fun r : row => asset (fst r)) (map (with_moves es) rows) = map (with_moves es) (filter (fun r => asset (fst r)) rows).
Proof. induction rows as [|r rows IH]; [reflexivity|]. cbn [map filter]. rewrite IH. change (fst (with_moves es r)) with (fst r). destruct (asset (fst r)); reflexivity. Qed.
Lemma filter_names (rows : list (str * list (option str * str))) : map fst (filter (fun r => asset (fst r)) rows) = filter asset (map fst rows).
Proof. induction rows as [|r rows IH]; [reflexivity|]. cbn [map filter]. destruct (asset (fst r)); cbn [map]; rewrite IH; reflexivity. Qed.

(** The last total of each currency in the register is the sum of the printed
    balances of the asset accounts. *)
Theorem C136_partial : forall x args f args' f' w p text es,
  parse_args args = Some (Ok f) -> f_cmd f = Balance -> chosen x f p ->
  parse_args args' = Some (Ok f') -> f_cmd f' = CmdRegister -> x_tty x = true -> chosen x f' p ->
  (0 < x_fuel x)%nat -> components p <> [] -> files w (resolve w p) = Some text ->
  typed_journal text es -> opened es -> modest_sums es -> modest_assets es ->
  exists balance register texts',
    o_out (main x args w) = flat_map row_text (map texts balance)
    /\ (forall name ts sym t z, In (name, ts) balance -> In (sym, t, z) ts -> total_shown t z sym)
    /\ o_out (main x args' w) = List.concat texts' /\ Forall2 row_of register texts'
    /\ forall sym, let sum := Zsum (shown_in sym (filter (fun r => asset (fst r)) balance)) in
       (forall c, last_cell sym register c -> total_shown (snd c) sum sym)
       /\ (no_cell sym register -> sum = 0).
Proof.
  intros x args f args' f' w p text es Pa Fc Ch Pa' Fc' Ty Ch' Fu Np Fi T O M Ma.
  destruct (C133_balances x args f w p text es Pa Fc Ch Fu Np Fi T O M) as (_ & _ & rows & Out & Ord & Nm & Row).
  destruct (C135_register x args' f' w p text es Pa' Fc' Ty Ch' Fu Np Fi T Ma) as (_ & _ & ts & regs & tx & Pt & _ & Rr & Out' & Fr).
  exists (map (with_moves es) rows), regs, tx. rewrite with_moves_texts. split; [exact Out|]. split; [|split; [exact Out'|split; [exact Fr|]]].
  - intros name us sym t z I J. apply in_map_iff in I. destruct I as ((n & vs) & E & I). injection E as -> <-. apply in_map_iff in J. destruct J as ((s & u) & E & J). injection E as -> -> <-. apply (Row _ _ I). exact J.
  - intro sym. cbv zeta. rewrite filter_with_moves, report_sum; [|intros n us I; apply filter_In in I as [I _]; destruct (Row n us I) as (A & B & _); split; [exact A|apply B]].
    rewrite filter_names, over_assets; [|apply order_distinct, Ord|intro n; apply Nm].
    rewrite (Zsum_perm _ _ (Permutation_flat_map (change sym) Pt)). exact (last_totals [] ts regs Rr sym).
Qed.
Print Assumptions C136_partial.

Local Ltac digits := repeat (constructor; [vm_compute; split; discriminate|]); constructor.
Local Ltac shows neg ip fp := left; eexists; split; [exists neg, (lit ip), (lit fp); split; [reflexivity|]; split; [digits|split; [digits|split; [first [left; reflexivity|right; eexists _, _; split; [reflexivity|discriminate]]|
  split; [first [left; reflexivity|right; discriminate]|split; [let H := fresh in intro H; first [discriminate H|cbn; lra]|unfold decimal_value; vm_compute (number_of _); vm_compute (10 ^ _); cbn; lra]]]]]|reflexivity].
Local Ltac far := let E := fresh in let W := fresh in intros (? & ? & E & W); injection E as <- _; discriminate W.
Local Ltac near := eexists _, _; split; [reflexivity|reflexivity].
Local Ltac number n i f way := exists (lit n ++ lit i ++ lit f); exists (match n with EmptyString => false | _ => true end), (lit i), (lit (match f with EmptyString => EmptyString | String _ r => r end));
  split; [split; [digits|split; [digits|split; [discriminate|exists (lit i ++ lit f); split; [reflexivity|cbn; tauto]]]]|
  split; [unfold decimal_value; vm_compute (number_of _); vm_compute (10 ^ _); cbn; lra|split; [reflexivity|way]]].
Local Ltac line way := split; [near|split; [cbn; tauto|split; [discriminate|eexists; split; [vm_compute; reflexivity|way]]]].
Local Ltac head st := split; [far|split; [split; [discriminate|reflexivity]|exists st; eexists _, _; split; [vm_compute; reflexivity|split; [constructor|]]]];
  repeat (constructor; [let H := fresh in intro H; cbn in H; repeat destruct H as [H|H]; try discriminate H; destruct H|]); constructor.

(** The journal of C133: both reports have 88.25 and $7 at the end. *)
Example C136_case :
  shown_by ["b"]%string (world_of [(j, typed_text)] [[]] []) = map lit
      ["assets:cash                            "; "	 88.25"; "	$ 7";
       "equity                                 "; "	-100.5"; "	$-7";
       "food                                    12.25"]%string
  /\ shown_by ["r"]%string (world_of [(j, typed_text)] [[]] []) = map lit
      ["2024/02/01 * opening       equity -> assets:cash   100.5   100.5";
       "                                                     $ 7     $ 7";
       "2024/02/05 ~ market   assets:cash -> food         -12.25   88.25"]%string
  /\ last_cell (Some (lit "$")) [(mkDate 2024 2 1 eq_refl, [(None, lit " 100.5", lit " 100.5"); (Some (lit "$"), lit "$ 7", lit "$ 7")]);
       (mkDate 2024 2 5 eq_refl, [(None, lit "-12.25", lit " 88.25")])] (Some (lit "$"), lit "$ 7", lit "$ 7").
Proof.
  split; [vm_compute; reflexivity|]. split; [vm_compute; reflexivity|].
  exists [], (mkDate 2024 2 1 eq_refl, [(None, lit " 100.5", lit " 100.5"); (Some (lit "$"), lit "$ 7", lit "$ 7")]), [(mkDate 2024 2 5 eq_refl, [(None, lit "-12.25", lit " 88.25")])].
  split; [reflexivity|]. split; [right; left; reflexivity|]. split; [reflexivity|]. intros r c [<-|[]] [<-|[]]. discriminate.
Qed.

(** Without the condition on postings without an amount: the register counts
    the money that left the account, the balances do not. *)
Definition spent_text : str := text ["account assets:cash"; "account food"; ""; "2024/02/05 ~ market"; "  food   12.25"; "  assets:cash"]%string.
Definition spent_case : list typed_entry := [(mkDate 2024 2 5 eq_refl, [mkTyped (lit "food") (Some (1225000000, None)); mkTyped purse None])].
Lemma spent_typed : typed_journal spent_text spent_case.
Proof.
  unfold typed_journal. let c := eval vm_compute in (contents (lines spent_text)) in change (contents (lines spent_text)) with c.
  do 2 (eapply typed_account; [far|vm_compute; reflexivity|]).
  eapply (typed_next _ _ _ [_; _]); [head Cleared|constructor; [line ltac:(number ""%string "12"%string ".25"%string reflexivity)|constructor; [line reflexivity|constructor]]| |constructor].
  split; [reflexivity|]. intros p _ _. eexists. split; [left; reflexivity|]. intros y [<-|[]]. reflexivity.
Qed.
Theorem C136_refuted : exists x args f args' f' w p text es balance register texts' c z,
  parse_args args = Some (Ok f) /\ f_cmd f = Balance /\ chosen x f p
  /\ parse_args args' = Some (Ok f') /\ f_cmd f' = CmdRegister /\ x_tty x = true /\ chosen x f' p
  /\ (0 < x_fuel x)%nat /\ components p <> [] /\ files w (resolve w p) = Some text
  /\ typed_journal text es /\ modest_sums es /\ modest_assets es
  /\ o_out (main x args w) = flat_map row_text (map texts balance)
  /\ (forall name ts sym t z, In (name, ts) balance -> In (sym, t, z) ts -> total_shown t z sym)
  /\ o_out (main x args' w) = List.concat texts' /\ Forall2 row_of register texts'
  /\ last_cell None register c /\ total_shown (snd c) z None
  /\ Zsum (shown_in None (filter (fun r => asset (fst r)) balance)) <> z.
Proof.
  exists (ctx [] (fun _ => [])), (map lit ["b"; "--no-move"; "-f"; "/j"]%string). eexists. exists (map lit ["r"; "--no-move"; "-f"; "/j"]%string). eexists.
  exists (world_of [(j, spent_text)] [[]] []), (lit "/j"), spent_text, spent_case.
  exists [(purse, [(None, lit " 0", 0)]); (lit "food", [(None, lit " 12.25", 1225000000)])].
  exists [(mkDate 2024 2 5 eq_refl, [(None, lit "-12.25", lit "-12.25")])], [lit "2024/02/05 ~ market  assets:cash -> food  -12.25  -12.25" ++ [10%N]].
  exists (None, lit "-12.25", lit "-12.25"), (-1225000000).
  split; [vm_compute; reflexivity|]. split; [reflexivity|]. split; [apply by_flag; reflexivity|]. split; [vm_compute; reflexivity|]. split; [reflexivity|]. split; [reflexivity|]. split; [apply by_flag; reflexivity|].
  split; [cbn; lia|]. split; [vm_compute; discriminate|]. split; [vm_compute; reflexivity|].
  split; [exact spent_typed|]. split; [apply modest_together; vm_compute; discriminate|]. split; [apply assets_together; vm_compute; discriminate|].
  split; [vm_compute; reflexivity|]. split; [|split; [vm_compute; reflexivity|split; [|split; [|split]]]].
  - intros name ts sym t z [E|[E|[]]] I; injection E as <- <-; destruct I as [I|[]]; injection I as <- <- <-.
    + shows false "0"%string ""%string.
    + shows false "12"%string "25"%string.
  - constructor; [|constructor]. split; [exists (lit "~ market  assets:cash -> food  -12.25  -12.25" ++ [10%N]); vm_compute; reflexivity|].
    eexists [_]. split; [symmetry; apply app_nil_r|]. constructor; [|constructor]. exists (lit "2024/02/05 ~ market  assets:cash -> food  "), 0%nat. vm_compute. reflexivity.
  - exists [], (mkDate 2024 2 5 eq_refl, [(None, lit "-12.25", lit "-12.25")]), []. split; [reflexivity|]. split; [left; reflexivity|]. split; [reflexivity|]. intros r c [].
  - shows true "12"%string "25"%string.
  - vm_compute. discriminate.
Qed.
Print Assumptions C136_refuted.
