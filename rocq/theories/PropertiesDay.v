(** Property C122: the same journal on two days. *)
From Coq Require Import ZArith NArith List Bool String Permutation Reals Lia.
From Verif Require Import Base Str F64 Date Amount Posting Entry Envelope Account World Register Ledger Importer Cli
  SpecAmount SpecDate SpecEntry SpecEnvelope SpecLedger SpecHistory SpecCli SpecInclude SpecCrash SpecWhole SpecDay
  StrFacts F64Facts AmountFacts EntryFacts EnvelopeFacts AccountFacts LedgerFacts WholeFacts WholeAgain DayFacts
  PropertiesLedger PropertiesCli PropertiesCrash PropertiesAgain PropertiesWhole.
Import ListNotations.
Local Open Scope list_scope.
Local Open Scope Z_scope.

(** ** C122 *)

(** Unless a day makes the program crash, the day decides only how the money of
    the envelopes is divided. *)
Theorem C122_load_partial : forall t t' fuel p w, year t < max_year -> year t' < max_year ->
  unless_crash (fun s u => divided_ledger (fst s) (fst u) /\ snd s = snd u) (from_file fuel t p w) (from_file fuel t' p w).
Proof.
  intros t t' fuel p w T T'. apply (uc_both _ _ _ _ (Day_load t t' T T' fuel p w)). intros s u _ _ [[D _] E]. split; assumption.
Qed.
Print Assumptions C122_load_partial.

(** The reports on accounts do not depend on it. *)
Theorem C122_reports_partial : forall x t t' args f w, year t < max_year -> year t' < max_year ->
  parse_args args = Some (Ok f) -> f_no_move f = true -> f_cmd f <> Import -> f_cmd f <> Envelopes ->
  o_res (main (on_day x t) args w) = Panic \/ o_res (main (on_day x t') args w) = Panic
  \/ main (on_day x t) args w = main (on_day x t') args w.
Proof.
  intros x t t' args f w T T' Pa Nm Ni Ne. unfold main. rewrite Pa. unfold execute. rewrite Nm.
  change (journal_path (on_day x t') f) with (journal_path (on_day x t) f).
  destruct (journal_path (on_day x t) f) as [p|]; [|right; right; reflexivity].
  cbn [x_fuel x_today on_day]. destruct (C122_load_partial t t' (x_fuel x) p w T T') as [->|[->|H]]; [left; reflexivity|right; left; reflexivity|].
  right. right. destruct (from_file (x_fuel x) t p w) as [[l w1]|e| |], (from_file (x_fuel x) t' p w) as [[m w2]|e'| |]; try contradiction.
  - destruct H as [(_ & E & Fm & _ & _) W]. cbn [fst snd] in *. subst w2. unfold run_command. cbn [x_tty on_day].
    assert (show_balance l = show_balance m) as -> by (unfold show_balance, get_totals; rewrite E; reflexivity).
    assert (forall a b c, show_register (x_tty x) l a b c = show_register (x_tty x) m a b c) as R by (intros; unfold show_register; rewrite E, Fm; reflexivity).
    destruct (f_cmd f); try reflexivity; congruence.
  - subst. reflexivity.
  - reflexivity.
Qed.
Print Assumptions C122_reports_partial.

(** Nor, when the amounts are whole, does the money in each envelope. *)
Theorem C122_money : forall t t' fuel p w l m w1 w2 n, year t < max_year -> year t' < max_year ->
  from_file fuel t p w = Ok (l, w1) -> from_file fuel t' p w = Ok (m, w2) ->
  whole_entries n (l_entries l) -> n * (1 + Z.of_nat (List.length (envelopes_of l))) <= 2 ^ 53 ->
  Forall2 (fun x y => fst x = fst y /\ same_contents (snd x) (snd y)) (l_accounts l) (l_accounts m).
Proof.
  intros t t' fuel p w l m w1 w2 n T T' L L' W B.
  assert (0 <= n) as N by (destruct W as (xs & _ & zs & _ & Lz); pose proof (Zabs_nonneg zs); lia).
  assert (n <= 2 ^ 53) as Nb by nia.
  destruct (C20_loaded _ _ _ _ _ _ L) as (es0 & Bu). pose proof (whole_kept _ _ _ _ Bu W Nb) as K.
  destruct (Day_load t t' T T' fuel p w) as [H|[H|H]]; [congruence|congruence|]. rewrite L, L' in H. destruct H as [[D (es & P & M)] _]. cbn [fst] in *.
  destruct (whole_perm_entries _ _ _ (Permutation_sym P) W) as (xs & Ws & zs & F & Lz).
  destruct (sizes_of es xs zs Ws F) as (zss & Z & C). fold (size zs) in Lz.
  destruct D as (_ & _ & _ & _ & D).
  assert (forall k a, In (k, a) (l_accounts l) -> n * (1 + Z.of_nat (List.length (all_envelopes a))) <= 2 ^ 53) as Len.
  { intros k a I. pose proof (length_part _ _ _ I) as Q. apply inj_le in Q. unfold envelopes_of in B. nia. }
  clear -K M D Z C Lz N Nb Len.
  revert K Len D. induction M as [|[k a] [k' b] r s [Ek Mn] _ IH]; intros K Len D; constructor.
  - cbn [fst snd] in *. split; [exact Ek|]. inversion D as [|? ? ? ? [_ Da] _]; subst. cbn [snd] in Da. destruct Da as (_ & Er & D1 & D2).
    destruct (Mn zss Z) as (ss & Sa & Sb); [lia|].
    assert (forall vs ss, Forall2 (has (size (List.concat zss))) vs ss -> Forall2 (has n) vs ss) as Up.
    { intros vs rs H. induction H; constructor; [|assumption]. apply (has_more (size (List.concat zss))); [assumption|lia]. }
    apply Up in Sa. apply Up in Sb. clear Up.
    assert (forall vs ss, Forall2 (has n) vs ss -> Forall2 contains vs ss) as Co.
    { intros vs rs H. induction H as [|v z vs rs (_ & x & y & X & Y & E & _) _ IHr]; constructor; [|assumption].
      exists x, y. split; [apply f64_is_int, X|]. split; [apply f64_is_int, Y|exact E]. }
    split; [exists ss; split; apply Co; assumption|]. intro sym.
    destruct (proj1 (K k' a (or_introl eq_refl)) sym) as (z & Hz & Lzz).
    specialize (Len k' a (or_introl eq_refl)).
    assert (Forall2 same_definition (all_envelopes a) (all_envelopes b)) as Sd.
    { unfold all_envelopes. apply Forall2_app; [clear -D1; induction D1 as [|v v2 ? ? [Q _] _ IHd]|clear -D2; induction D2 as [|v v2 ? ? [Q _] _ IHd]]; constructor; assumption. }
    exists (z - part sym (all_envelopes a) ss). split; apply f64_is_int.
    + apply (available_exact n _ N _ Sa) with (m := n); [exact Hz|exact Lzz|lia].
    + rewrite <- (part_same sym _ _ Sd). unfold available_value. rewrite <- Er. apply (available_exact n _ N _ Sb) with (m := n); [exact Hz|exact Lzz|].
      rewrite <- (Forall2_length_eq _ _ _ Sd). lia.
  - inversion D; subst. apply IH; try assumption; intros; [apply (K k0)|apply (Len k0)]; right; assumption.
Qed.
Print Assumptions C122_money.

(** Journals on which no run crashes (C89) are shown the same on every day. *)
Theorem C122_reports : forall x t t' args f w, min_year + 3 < year t < max_year -> min_year + 3 < year t' < max_year ->
  parse_args args = Some (Ok f) -> f_no_move f = true -> f_cmd f <> Import -> f_cmd f <> Envelopes ->
  proper w -> sound_run x args w -> main (on_day x t) args w = main (on_day x t') args w.
Proof.
  intros x t t' args f w T T' Pa Nm Ni Ne P So.
  assert (forall d, min_year + 3 < year d < max_year -> o_res (main (on_day x d) args w) <> Panic) as C.
  { intros d D. apply C89_partial; [exact P|exact D|]. intros f' p Pf Jp. rewrite Pa in Pf. injection Pf as <-. destruct (So f p Pa Jp) as (A & B & _). split; [exact A|]. split; [exact B|].
    intros. congruence. }
  destruct (C122_reports_partial x t t' args f w (proj2 T) (proj2 T') Pa Nm Ni Ne) as [H|[H|H]]; [destruct (C t T H)|destruct (C t' T' H)|exact H].
Qed.
Print Assumptions C122_reports.

(** *** Cases *)
Definition at_day (t : date) (args : list string) (ls : list string) : outcome :=
  main (on_day unset t) (map lit args) (world_of [([lit "j"], text ls)] [[]] []).
Definition thursday : date := mkDate 2024 3 14 eq_refl.
Definition wednesday : date := mkDate 2024 3 20 eq_refl.
Definition eating : list string :=
  ["account a"; "  expense food due every friday"; "    amount 120 EUR"; "account b";
   "2024/03/01 * Salary"; "  a  500 EUR"; "  b  -500 EUR"; "2024/03/14 * Save"; "  envelope a food  50 EUR"]%string.
Definition inside (t : date) (ls : list string) : option (list (f64 * f64)) :=
  match from_file 5 t (lit "/j") (world_of [([lit "j"], text ls)] [[]] []) with
  | Ok (l, _) => Some (map (fun v => (mag (v_now v), mag (v_next v))) (envelopes_of l))
  | _ => None
  end.
Example C122_case :
  inside thursday eating = Some [(fofZ 0, fofZ 50)] /\ inside wednesday eating = Some [(fofZ 50, fofZ 0)]
  /\ at_day thursday ["balance"; "--no-move"; "-f"; "/j"]%string eating = at_day wednesday ["balance"; "--no-move"; "-f"; "/j"]%string eating
  /\ lines (o_out (at_day thursday ["balance"; "--no-move"; "-f"; "/j"]%string eating))
     = map lit ["a                                       550 EUR"; "b                                      -500 EUR"]%string
  /\ o_out (at_day thursday ["envelopes"; "--no-move"; "-f"; "/j"]%string eating)
     <> o_out (at_day wednesday ["envelopes"; "--no-move"; "-f"; "/j"]%string eating).
Proof. split; [vm_compute; reflexivity|]. split; [vm_compute; reflexivity|]. split; [vm_compute; reflexivity|]. split; [vm_compute; reflexivity|]. vm_compute. discriminate. Qed.

(** The condition of [C122_money] for this journal. *)
Lemma plain_full e : SpecEntry.blanks (e_postings e) = 0%nat -> plain_entry e.
Proof.
  intro B. split; [lia|]. intros (p & I & Bp). exfalso. unfold SpecEntry.blanks in B. apply length_zero_iff_nil in B.
  assert (In p (filter (fun p => match get_amount p with None => true | Some _ => false end) (e_postings e))) as Ip by (apply filter_In; split; [exact I|]; rewrite Bp; reflexivity).
  rewrite B in Ip. destruct Ip.
Qed.
Example C122_conditions :
  match from_file 5 thursday (lit "/j") (world_of [([lit "j"], text eating)] [[]] []) with
  | Ok (l, _) => whole_entries (2 * 1050) (l_entries l) /\ (2 * 1050) * (1 + Z.of_nat (List.length (envelopes_of l))) <= 2 ^ 53
  | _ => False
  end.
Proof.
  destruct (from_file 5 thursday (lit "/j") (world_of [([lit "j"], text eating)] [[]] [])) as [(l & w1)| | |] eqn:E; [|vm_compute in E; discriminate..].
  vm_compute in E. injection E as <- _. split; [|vm_compute; discriminate]. apply C121_written; [| |lia].
  - cbn [l_entries]. repeat (apply Forall_cons; [apply plain_full; reflexivity|]). apply Forall_nil.
  - exists [500; -500; 50]. split; [|vm_compute; discriminate].
    match goal with |- Forall2 _ ?l _ => let v := eval vm_compute in l in change l with v end.
    repeat (apply Forall2_cons; [apply fofZ_is; [vm_compute; reflexivity|lia]|]). apply Forall2_nil.
Qed.

(** ** Crashes: whether a journal can be shown at all may depend on the day. *)
Definition rent : list string :=
  ["account a"; "  expense rent due every 31st"; "    amount 120 EUR"; "account b";
   "2024/01/05 * Salary"; "  a  500 EUR"; "  b  -500 EUR"; "2024/01/05 * Save"; "  envelope a rent  50 EUR"]%string.
Theorem C122_refuted : exists x t t' args f w, year t < max_year /\ year t' < max_year
  /\ parse_args args = Some (Ok f) /\ f_no_move f = true /\ f_cmd f = Balance
  /\ o_res (main (on_day x t) args w) = Ok tt /\ o_res (main (on_day x t') args w) = Panic.
Proof.
  exists unset, (mkDate 2024 4 5 eq_refl), (mkDate 2024 3 20 eq_refl), (map lit ["balance"; "--no-move"; "-f"; "/j"]%string),
    (mkFlags (Some (lit "/j")) Balance true None None None None), (world_of [([lit "j"], text rent)] [[]] []).
  repeat split; vm_compute; reflexivity.
Qed.
Print Assumptions C122_refuted.
