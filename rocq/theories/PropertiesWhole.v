(** Property C121: journals of whole amounts. *)
From Coq Require Import ZArith NArith List Bool String Permutation Reals Lra Lia.
From Verif Require Import Base Str F64 Date Amount Posting Entry Envelope Account World Register Ledger Importer Cli
  SpecAmount SpecDate SpecEntry SpecEnvelope SpecLedger SpecReport SpecImport SpecCli SpecRun SpecInclude SpecMoves SpecAgain SpecWords SpecWhole
  StrFacts LineFacts AmountParse PostingFacts F64Facts F64Round AmountFacts EntryFacts EnvelopeFacts AccountFacts FillFacts LedgerFacts LoadFacts IncludeFacts UnfoldFacts RunFacts AgainFacts WordsFacts TwinFacts
  ArrangeRun WholeFacts WholeAgain
  PropertiesEntry PropertiesLedger PropertiesCli PropertiesRun PropertiesMoves PropertiesAgain PropertiesWords PropertiesRepeat.
Import ListNotations.
Local Open Scope list_scope.
Local Open Scope Z_scope.

(** ** Eight decimals *)
Lemma whole_rounded a z : is_int (mag a) z -> 0 < z <= 90000000 -> finite (rounded_mag a) /\ rounded_mag a = mag a.
Proof.
  intros [F R] Z. destruct fofZ_1e8 as [F8 R8].
  destruct (fmul_correct (mag a) f1e8 F F8) as [Rm Fm].
  { rewrite R, R8, <- mult_IZR, rnd_Z by lia. apply Rabs_Z_small. lia. }
  rewrite R, R8, <- mult_IZR, rnd_Z in Rm by lia.
  destruct (fround_whole _ Fm) as (n & Dn & Fn & Rn). rewrite Rm, <- minus_IZR, <- abs_IZR in Dn.
  assert (n = z * 100000000) as ->.
  { assert (Z.abs (n - z * 100000000) < 1); [|lia]. apply lt_IZR. lra. }
  destruct (fdiv_correct (fround (fmul (mag a) f1e8)) f1e8 Fn) as [Rd Fd].
  { rewrite R8. lra. }
  { rewrite Rn, R8, mult_IZR. replace (IZR z * 100000000 / 100000000)%R with (IZR z) by field. rewrite rnd_Z by lia. apply Rabs_Z_small. lia. }
  rewrite Rn, R8, mult_IZR in Rd. replace (IZR z * 100000000 / 100000000)%R with (IZR z) in Rd by field. rewrite rnd_Z in Rd by lia.
  assert (rounded_mag a = mag a) as E.
  { apply f64_ext_R; [exact Fd|exact F|unfold rounded_mag; congruence|]. unfold rounded_mag. rewrite Rd. apply not_0_IZR. lia. }
  split; [|exact E]. rewrite E. unfold finite. rewrite <- ffin_SF. exact F.
Qed.

(** ** C121 *)

(** What a run moves is whole. *)
Theorem C121_moves : forall today l es m ps, built today l es -> whole_ledger m l -> m <= 2 ^ 52 -> fill_postings today l = Ok ps ->
  exists zs, Forall2 (fun p z => exists ep, p = EnvPosting ep /\ f64_is (mag (ep_amount ep)) (IZR z)) ps zs
  /\ Forall (fun z => 0 < z) zs /\ Zsum zs <= m.
Proof.
  intros today l es m ps B W M F. destruct (moves_whole today l es m ps B W M F) as (zs & A & P & S). exists zs.
  split; [|split; [exact P|]].
  - clear -A. induction A as [|p z ps zs (ep & -> & I) _ IH]; constructor; [|exact IH]. exists ep. split; [reflexivity|]. apply f64_is_int, I.
  - replace (Zsum zs) with (size zs); [exact S|]. clear -P. induction P as [|z zs Z _ IH]; [reflexivity|].
    rewrite size_cons, Zsum_cons, IH. lia.
Qed.
Print Assumptions C121_moves.

(** Whole amounts in the text are enough: the inferred ones are whole too. *)
Lemma whole_inferred e b y ps : ((exists p, In p ps /\ blank p) -> get_blank_amount e = Ok (Some b) /\ f64_is (mag b) (IZR y)) ->
  forall zs, Forall2 (fun a z => f64_is (mag a) (IZR z)) (written ps) zs ->
  exists xs ys, worths (map (pair e) ps) xs /\ Forall2 (fun x z => f64_is x (IZR z)) (map mag xs) ys
  /\ size ys <= size zs + Z.of_nat (SpecEntry.blanks ps) * Z.abs y.
Proof.
  induction ps as [|p ps IH]; intros H zs F.
  - inversion F. exists [], []. split; [constructor|]. split; [constructor|]. cbn. lia.
  - assert ((exists p, In p ps /\ blank p) -> get_blank_amount e = Ok (Some b) /\ f64_is (mag b) (IZR y)) as H' by (intros (q & I & B); apply H; exists q; split; [right; exact I|exact B]).
    destruct (get_amount p) as [a|] eqn:Ea.
    + unfold written in F. cbn [flat_map] in F. rewrite Ea in F. cbn [app] in F. inversion F as [|a' z l zs' Fa Fr]; subst.
      destruct (IH H' zs' Fr) as (xs & ys & W & G & L). exists (a :: xs), (z :: ys).
      split; [constructor; [left; exact Ea|exact W]|]. split; [constructor; assumption|]. rewrite !size_cons.
      replace (SpecEntry.blanks (p :: ps)) with (SpecEntry.blanks ps) by (unfold SpecEntry.blanks; cbn [filter]; rewrite Ea; reflexivity). lia.
    + unfold written in F. cbn [flat_map] in F. rewrite Ea in F. cbn [app] in F.
      destruct (IH H' zs F) as (xs & ys & W & G & L). destruct H as (Hb & Hy); [exists p; split; [left; reflexivity|exact Ea]|].
      exists (b :: xs), (y :: ys). split; [constructor; [right; split; assumption|exact W]|]. split; [constructor; assumption|]. rewrite size_cons.
      replace (SpecEntry.blanks (p :: ps)) with (S (SpecEntry.blanks ps)) by (unfold SpecEntry.blanks; cbn [filter]; rewrite Ea; reflexivity). lia.
Qed.
Lemma size_sums zs : forall a, Z.abs a + size zs <= 2 ^ 53 -> Forall (fun s => Z.abs s <= 2 ^ 53) (partial_sums a zs).
Proof.
  induction zs as [|z zs IH]; intros a L; [constructor|]. rewrite size_cons in L. pose proof (size_nonneg zs). cbn [partial_sums].
  constructor; [lia|]. apply IH. lia.
Qed.
Lemma size_sum zs : Z.abs (Zsum zs) <= size zs.
Proof. induction zs as [|z zs IH]; [reflexivity|]. rewrite size_cons, Zsum_cons. lia. Qed.
Lemma whole_entry e zs : plain_entry e -> Forall2 (fun a z => f64_is (mag a) (IZR z)) (written (e_postings e)) zs -> size zs <= 2 ^ 53 ->
  exists xs ys, worths (map (pair e) (e_postings e)) xs /\ Forall2 (fun x z => f64_is x (IZR z)) (map mag xs) ys /\ size ys <= 2 * size zs.
Proof.
  intros [B M] F L. pose proof (size_sum zs) as Ls. pose proof (size_nonneg zs) as Ln.
  assert (exists b y, Z.abs y <= size zs /\ ((exists p, In p (e_postings e) /\ blank p) -> get_blank_amount e = Ok (Some b) /\ f64_is (mag b) (IZR y))) as (b & y & Ly & H).
  { destruct (SpecEntry.blanks (e_postings e)) as [|n] eqn:Eb.
    - exists (mkAmount fzero None), 0. split; [lia|]. intros (p & I & Bp). exfalso. unfold SpecEntry.blanks in Eb. apply length_zero_iff_nil in Eb.
      assert (In p (filter (fun p => match get_amount p with None => true | Some _ => false end) (e_postings e))) as Ip by (apply filter_In; split; [exact I|]; rewrite Bp; reflexivity).
      rewrite Eb in Ip. destruct Ip.
    - assert (exists p, In p (e_postings e) /\ blank p) as Ex.
      { unfold SpecEntry.blanks in Eb. destruct (filter _ (e_postings e)) as [|p r] eqn:Ef; [discriminate|]. exists p.
        assert (In p (p :: r)) as Ip by (left; reflexivity). rewrite <- Ef in Ip. apply filter_In in Ip as [I Q]. split; [exact I|]. unfold blank. destruct (get_amount p); [discriminate|reflexivity]. }
      destruct (M Ex) as [Nw Nm]. destruct (written (e_postings e)) as [|a0 as0] eqn:Ew; [congruence|].
      destruct (blank_amount_whole e (symbol a0) zs Ex) as (b & Gb & _ & Fb); rewrite ?Ew; try assumption.
      + apply Forall_forall. intros a Ia. destruct (sym_dec (symbol a) (symbol a0)) as [E|N]; [exact E|]. exfalso. apply Nm. exists a, a0.
        rewrite Ew. split; [exact Ia|]. split; [left; reflexivity|exact N].
      + apply size_sums. lia.
      + exists b, (- Zsum zs). split; [lia|]. intros _. split; assumption. }
  destruct (whole_inferred e b y (e_postings e) H zs F) as (xs & ys & W & G & S). exists xs, ys. split; [exact W|]. split; [exact G|]. nia.
Qed.
Theorem C121_written : forall m es, Forall plain_entry es -> whole_written m es -> m <= 2 ^ 53 -> whole_entries (2 * m) es.
Proof.
  intros m es P (zs & F & L) M. enough (exists xs ys, worths (postings es) xs /\ Forall2 (fun x z => f64_is x (IZR z)) (map mag xs) ys /\ size ys <= 2 * size zs) as (xs & ys & W & G & S).
  { exists xs. split; [exact W|]. exists ys. split; [exact G|]. fold (size ys). fold (size zs) in L. lia. }
  fold (size zs) in L. assert (size zs <= 2 ^ 53) as L' by lia. clear L M. revert zs F L'. induction P as [|e es Pe _ IH]; intros zs F L.
  - inversion F. exists [], []. split; [constructor|]. split; [constructor|]. cbn. lia.
  - cbn [flat_map] in F. rewrite map_app in F. apply Forall2_app_inv_l in F as (z1 & z2 & F1 & F2 & ->). rewrite size_app in *.
    pose proof (size_nonneg z1). pose proof (size_nonneg z2).
    destruct (IH z2 F2) as (xs2 & ys2 & W2 & G2 & S2); [lia|].
    destruct (whole_entry e z1 Pe) as (xs1 & ys1 & W1 & G1 & S1); [|lia|].
    { clear -F1. remember (map mag (written (e_postings e))) as r eqn:E. revert E. generalize (written (e_postings e)). induction F1 as [|x z r zs H _ IH]; intros [|a l] E; try discriminate; constructor.
      - injection E as -> _. exact H.
      - injection E as _ E. apply IH, E. }
    exists (xs1 ++ xs2), (ys1 ++ ys2). split; [|split].
    + unfold worths, postings. cbn [flat_map]. apply Forall2_app; assumption.
    + rewrite map_app. apply Forall2_app; assumption.
    + rewrite size_app. lia.
Qed.
Print Assumptions C121_written.

(** ** The second run *)
Lemma moves_kept today l es m ms : built today l es -> whole_ledger m l -> m <= 90000000 ->
  (forall v, In v (envelopes_of l) -> plain_target v) -> fill_postings today l = Ok (map move_posting ms) ->
  forall x, In x ms -> writable (SpecMoves.m_amount x) /\ to8 (SpecMoves.m_amount x) = SpecMoves.m_amount x.
Proof.
  intros B W M T F x I. destruct (moves_whole today l es m _ B W ltac:(lia) F) as (zs & A & P & S).
  assert (In (move_posting x) (map move_posting ms)) as Ix by (apply in_map, I).
  destruct (Forall2_In_l _ _ _ _ A Ix) as (z & Iz & ep & Ep & Iep). unfold move_posting in Ep. injection Ep as <-. cbn [ep_amount] in Iep.
  assert (0 < z <= 90000000) as Z.
  { split; [exact (proj1 (Forall_forall _ _) P z Iz)|]. enough (Z.abs z <= size zs) by lia. clear -Iz.
    induction zs as [|y zs IH]; [destruct Iz|]. rewrite size_cons. pose proof (size_nonneg zs). destruct Iz as [->|Iz]; [lia|]. specialize (IH Iz). lia. }
  destruct (whole_rounded _ _ Iep Z) as [Fi E].
  destruct (fill_postings_In _ _ _ _ F Ix) as (key & acc & v & av & a & Ia & Iv & Ef & Eq & _). unfold move_posting in Eq. injection Eq as _ _ Eq.
  destruct (filling_amount_safe _ _ _ _ Ef) as (_ & _ & Sy). rewrite <- Eq in Sy.
  assert (plain_target v) as (P1 & P2) by (apply T; unfold envelopes_of; apply in_flat_map; exists (key, acc); split; assumption).
  split.
  - split; [exact Fi|]. rewrite Sy. split; [exact P1|exact P2].
  - unfold to8. rewrite E. destruct (SpecMoves.m_amount x). reflexivity.
Qed.

Theorem C121_settled : forall x args f w x' args' f' p l w1 m,
  parse_args args = Some (Ok f) -> f_no_move f = false -> f_cmd f <> Import -> o_res (main x args w) = Ok tt ->
  chosen x f p -> from_file (x_fuel x) (x_today x) p w = Ok (l, w1) ->
  proper w -> file_path p -> (forall r t g, files w r = Some t -> includes t g -> file_path g) ->
  resolve w1 p = resolve w p -> (0 <= year (x_today x) < 10000)%Z -> journal_date (l_format l) (x_today x) ->
  whole_ledger m l -> m <= 90000000 -> (forall v, In v (envelopes_of l) -> plain_target v) ->
  parse_args args' = Some (Ok f') -> f_cmd f' <> Import -> chosen x' f' p ->
  x_today x' = x_today x -> x_fuel x' = x_fuel x ->
  let after := later w (o_world (main x args w)) in
  (forall q, files (o_world (main x' args' after)) q = files after q)
  /\ (x_tty x' = x_tty x -> f_cmd f' = f_cmd f -> f_begin f' = f_begin f -> f_end f' = f_end f -> o_out (main x' args' after) = o_out (main x args w)).
Proof.
  intros x args f w x' args' f' p l w1 m Pa Nm Ni Ho Ch L P Fp Hf R Y J W M T Pa' Ni' Ch' Et Ef after.
  assert (main x args w = execute x f w) as Mx by (unfold main; rewrite Pa; reflexivity).
  assert (main x' args' after = execute x' f' after) as M' by (unfold main; rewrite Pa'; reflexivity).
  destruct (run_ready x f w) as [(l' & w2 & Re)|[_ N]]; [|rewrite Mx in Ho; contradiction].
  assert (o_world (main x args w) = w2) as Ew by (rewrite Mx, (ready_run x f w l' w2 Re); apply run_world, Ni).
  rewrite M', Mx, (ready_run x f w l' w2 Re). unfold after in *. clear after. rewrite Ew in *.
  destruct (C20_loaded _ _ _ _ _ _ L) as (es & B).
  destruct (same_moves x f w p l w1 l' w2 Nm Re Ch L P Fp Hf R Y J) as (l2 & w3 & F & U).
  { intros ms Fm _. exact (moves_kept _ _ _ _ _ B W M T Fm). }
  assert (fill_postings (x_today x) l2 = Ok []) as Z.
  { assert (fill_postings (x_today x) l2 = fill_postings (x_today x) l') as -> by (unfold fill_postings; destruct U as (_ & _ & -> & _); reflexivity).
    inversion Re as [|p' l0 w1' l0' w' C F0 _ Fi]; [congruence|subst].
    assert (p' = p) as -> by exact (chosen_unique _ _ _ _ C Ch). rewrite L in F0. injection F0 as <- <-.
    destruct (fill_done _ _ _ _ _ Fi) as (ms & Fm & _ & _ & _ & _ & Add). destruct ms as [|m0 ms].
    - unfold fill_envelopes in Fi. rewrite Fm in Fi. cbn [map] in Fi. injection Fi as _ <-. exact Fm.
    - apply (fill_again (x_today x) l es m (map move_posting (m0 :: ms)) l' B); try assumption.
      + intros k a I. exact (grown_sound _ _ (built_grown _ _ _ B k a I)).
      + unfold max_year. lia.
      + discriminate.
      + apply Add. discriminate. }
  assert (ready x' f' (later w w2) l2 w3) as Re'.
  { rewrite <- Et, <- Ef in F. destruct (f_no_move f') eqn:Nm'.
    - exact (ready_still _ _ _ _ _ _ Ch' F Nm').
    - apply (ready_filled x' f' (later w w2) p l2 w3 l2 w3 Ch' F Nm'). rewrite Et. unfold fill_envelopes. rewrite Z. reflexivity. }
  rewrite (ready_run x' f' _ _ _ Re'). split.
  - rewrite run_world by exact Ni'. intro q. pose proof (load_files _ _ _ _ _ F) as E. cbn [snd] in E. rewrite E. reflexivity.
  - intros Tt Ec Eb Ee. symmetry. rewrite (repaid_printed x f f' l' l2 w2 w3 (uncommented_repaid _ _ U) Ni Ec Eb Ee).
    unfold run_command. rewrite Tt, Et. destruct (f_cmd f'); try reflexivity; congruence.
Qed.
Print Assumptions C121_settled.

(** *** A case *)
Definition wholes : list string :=
  ["account c"; "account a"; "  goal x by 2024/04/23"; "    amount 300 EUR"; "    funding aggressive"; "  goal y by 2024/03/23"; "    amount 250 EUR"; "    funding aggressive";
   "  expense food due every friday"; "    amount 120 EUR"; "    for b"; "    funding aggressive"; "account b";
   "2024/03/01 * Salary"; "  a  500 EUR"; "  c"; "2024/03/02 * Shop"; "  b  30 EUR"; "  a"]%string.
Definition whole_world : world := world_of [([lit "j"], text wholes)] [[]] [].
Lemma fofZ_is x z : x = fofZ z -> Z.abs z <= 2 ^ 53 -> f64_is x (IZR z).
Proof. intros -> H. apply f64_is_int, fofZ_int, H. Qed.
Lemma plain_one e a : written (e_postings e) = [a] -> (SpecEntry.blanks (e_postings e) <= 1)%nat -> plain_entry e.
Proof.
  intros W B. split; [exact B|]. intros _. rewrite W. split; [discriminate|]. intros (x & y & Ix & Iy & N). rewrite W in Ix, Iy.
  destruct Ix as [<-|[]], Iy as [<-|[]]. congruence.
Qed.
Lemma plain_eur v : symbol (v_amount v) = Some (lit "EUR") -> plain_target v.
Proof.
  intro E. unfold plain_target. rewrite E. split; [|split].
  - split; [apply token_iff; split; [discriminate|reflexivity]|]. repeat constructor; unfold digit_char; vm_compute; intuition congruence.
  - apply markfree_iff. reflexivity.
  - rewrite <- is_op_iff. discriminate.
Qed.
Local Ltac whole_list zs :=
  exists zs; split; [match goal with |- Forall2 _ ?l _ => let v := eval vm_compute in l in change l with v end; repeat (apply Forall2_cons; [apply fofZ_is; [vm_compute; reflexivity|lia]|]); apply Forall2_nil|vm_compute; discriminate].
(** The conditions hold for it, *)
Example C121_conditions :
  match from_file 5 today (lit "/j") whole_world with
  | Ok (l, _) => whole_ledger 5000 l /\ (forall v, In v (envelopes_of l) -> plain_target v)
      /\ Forall plain_entry (l_entries l) /\ whole_written 530 (l_entries l)
      /\ List.length (l_entries l) = 2%nat /\ List.length (envelopes_of l) = 3%nat
  | _ => False
  end.
Proof.
  destruct (from_file 5 today (lit "/j") whole_world) as [(l & w1)| | |] eqn:E; [|vm_compute in E; discriminate..].
  assert (Forall plain_entry (l_entries l)) as P.
  { vm_compute in E. injection E as <- _. cbn [l_entries]. repeat (apply Forall_cons; [eapply plain_one; [vm_compute; reflexivity|vm_compute; lia]|]). apply Forall_nil. }
  assert (whole_written 530 (l_entries l)) as W.
  { vm_compute in E. injection E as <- _. whole_list [500; 30]. }
  split; [|split; [|split; [exact P|split; [exact W|vm_compute in E; injection E as <- _; split; reflexivity]]]].
  - exists (2 * 530), 670. split; [apply C121_written; [exact P|exact W|lia]|].
    vm_compute in E. injection E as <- _. split; [|split].
    + whole_list [120; 300; 250].
    + vm_compute. discriminate.
    + vm_compute. intros v I. repeat (destruct I as [<-|I]; [discriminate|]). destruct I.
  - vm_compute in E. injection E as <- _. intros v I. apply plain_eur. vm_compute in I. repeat (destruct I as [<-|I]; [reflexivity|]). destruct I.
Qed.
(** and a second run changes nothing, with [--no-move] or without, and shows the same. *)
Definition moved_lines (lines_of : list string) (w : world) : option (list str) :=
  option_map (fun t => lines (skipn (List.length (text lines_of)) t)) (files w [lit "j"]).
Example C121_case :
  let w := whole_world in
  let o := main unset balance_at w in
  let o2 := main unset balance_at (later w (o_world o)) in
  moved_lines wholes (o_world o) = Some (map lit [""; "2024/03/20 ~ move to envelopes // automatically generated by silverfox";
    "    envelope a y                                        250 EUR"; "    envelope a x                                        250 EUR"; "    envelope a food                                     30 EUR"]%string)
  /\ files (o_world o2) [lit "j"] = files (o_world o) [lit "j"]
  /\ o_out o2 = o_out o
  /\ o_out (main unset balance_after (later w (o_world o))) = o_out o
  /\ o_out o = text ["a                                       1000 EUR"; "b                                       30 EUR"; "c                                       0"; ""]%string.
Proof. vm_compute. repeat split; reflexivity. Qed.
(** Larger whole numbers are not written as they are, and the report changes. *)
Definition large : list string :=
  ["account a"; "  goal x by 2024/04/23"; "    amount 59812938990"; "    funding aggressive"; "account b"; "2024/03/01 * Salary"; "  a  100000000000"; "  b"]%string.
Definition large_world : world := world_of [([lit "j"], text large)] [[]] [].
Example C121_large :
  let w := large_world in
  let o := main unset usual w in
  moved_lines large (o_world o) = Some (map lit [""; "2024/03/20 ~ move to envelopes // automatically generated by silverfox"; "    envelope a x                                        59812938990.00001"]%string)
  /\ nth 2 (lines (o_out o)) [] = lit "     40187061010"
  /\ nth 2 (lines (o_out (main unset usual (later w (o_world o))))) [] = lit "     40187061009.99999".
Proof. vm_compute. repeat split; reflexivity. Qed.
