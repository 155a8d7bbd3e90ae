(** Facts about journals that are loaded after a run. *)
From Coq Require Import ZArith NArith List Bool String Lia Relations Wellfounded.
From Verif Require Import Base Str F64 Date Amount Posting World Entry Envelope Account Ledger
  SpecAmount SpecDate SpecEntry SpecEnvelope SpecDefinition SpecLedger SpecInclude SpecUnfold SpecMoves
  StrFacts EntryFacts LineFacts EntryText EnvelopeFacts AccountFacts FillFacts DefinitionFacts LedgerFacts LoadFacts IncludeFacts
  UnfoldFacts AmountParse OrderFacts RunFacts PropertiesMoves.
Import ListNotations.
Local Open Scope list_scope.

(** ** No file is opened while it is being read *)
Inductive opens (w : world) : path -> path -> Prop :=
  | opens_here r text cs1 c cs2 g d ys : files w r = Some text -> cut_up text (cs1 ++ c :: cs2) ->
      follows w (removelast r) cs1 d ys -> keyword c "include" -> value c = Some g -> opens w r (located d g).
Definition beneath (w : world) (a b : path) : Prop := opens w b a.

Lemma unfolds_Acc w :
  (forall d p d' xs, unfolds w d p d' xs -> Acc (beneath w) (located d p))
  /\ (forall d cs d' xs, follows w d cs d' xs -> forall cs1 c cs2 g d1 ys, cs = cs1 ++ c :: cs2 ->
       follows w d cs1 d1 ys -> keyword c "include" -> value c = Some g -> Acc (beneath w) (located d1 g)).
Proof.
  apply unfolds_both.
  - intros d p text cs d' xs Fp Ef C F IH. constructor. intros r O. unfold beneath in O.
    inversion O as [? text' cs1 c cs2 g d1 ys Ef' C' F' K V]; subst. rewrite Ef in Ef'. injection Ef' as <-.
    assert (cs = cs1 ++ c :: cs2) as E by exact (chunks_unique _ _ _ _ C C'). exact (IH _ _ _ _ _ _ E F' K V).
  - intros d cs1 c cs2 g d1 ys E. destruct cs1; discriminate.
  - intros d c cs d' xs B F IH cs1 c1 cs2 g d1 ys E F1 K V. destruct cs1 as [|c0 cs1].
    + injection E as <- _. unfold keyword in K. rewrite B in K. discriminate.
    + injection E as <- E. inversion F1; subst; try contradiction; [eauto|].
      match goal with H : keyword c _ |- _ => unfold keyword in H; rewrite B in H; discriminate end.
  - intros d c cs d' xs N Nk F IH cs1 c1 cs2 g d1 ys E F1 K V. destruct cs1 as [|c0 cs1].
    + injection E as <- _. contradiction.
    + injection E as <- E. inversion F1; subst; try contradiction. eauto.
  - intros d c f cs d1 d' xs ys Kc Vc U IHu F IH cs1 c1 cs2 g d2 zs E F1 K V. destruct cs1 as [|c0 cs1].
    + injection E as <- _. inversion F1; subst. rewrite Vc in V. injection V as <-. exact IHu.
    + injection E as <- E. inversion F1 as [| | |? ? f' ? d1' ? ? ? K' V' U' F']; subst.
      * match goal with H : split_ws c = [] |- _ => unfold keyword in Kc; rewrite H in Kc; discriminate end.
      * contradiction.
      * rewrite Vc in V'. injection V' as <-. destruct (proj1 (unfolds_unique w) _ _ _ _ U _ _ U') as [-> _]. eauto.
Qed.
Lemma never_within w d p d' xs : unfolds w d p d' xs -> ~ clos_trans _ (beneath w) (located d p) (located d p).
Proof.
  intro U. pose proof (Acc_clos_trans _ _ _ (proj1 (unfolds_Acc w) _ _ _ _ U)) as A. revert A.
  generalize (located d p) as r. intros r A. induction A as [r _ IH]. intro C. exact (IH r C C).
Qed.

(** ** Another text for a file that is not read *)
Definition except (q : path) (w w' : world) : Prop :=
  (forall r, r <> q -> files w' r = files w r) /\ forall r, dirs w' r = dirs w r.

Lemma chdir_dirs w w' d p d1 : (forall r, dirs w' r = dirs w r) -> chdir_parent (at_dir w d) p = Ok (at_dir w d1) ->
  chdir_parent (at_dir w' d) p = Ok (at_dir w' d1).
Proof.
  intros E H. unfold chdir_parent in *. cbn [at_dir files dirs cwd] in *. destruct (components p) as [|c cs]; [discriminate|].
  cbv zeta in *. rewrite E. destruct (_ && _); injection H as <-; reflexivity.
Qed.
Lemma follows_snoc w d cs d1 xs : follows w d cs d1 xs -> forall c d2 ys, follows w d1 [c] d2 ys -> exists zs, follows w d (cs ++ [c]) d2 zs.
Proof.
  induction 1 as [d|d c cs d1 xs B F IH|d c cs d1 xs N K F IH|d c f cs d1 d' xs ys K V U F IH]; intros c' d2 zs F'; cbn [app].
  - eauto.
  - destruct (IH _ _ _ F') as (us & G). exists us. apply follows_blank; assumption.
  - destruct (IH _ _ _ F') as (us & G). exists (c :: us). apply follows_item; assumption.
  - destruct (IH _ _ _ F') as (us & G). exists (xs ++ us). apply (follows_include w d c f (cs ++ [c']) d1 d2 xs us); assumption.
Qed.

Section Transfer.
Variables (today : date) (w w' : world) (q : path).
Hypothesis P : proper w.
Hypothesis Hf : forall r t g, files w r = Some t -> includes t g -> file_path g.
Hypothesis Ex : except q w w'.
(** The chunks of a file [r] whose includes do not lead to [q]. *)
Lemma chunks_elsewhere fuel r text
  (IH : forall d p l l' u, file_path p -> dirs w d = true ->
    located d p <> q -> ~ clos_trans _ (beneath w) q (located d p) ->
    add_from_file fuel today p (l, at_dir w d) = Ok (l', u) ->
    exists d', dirs w d' = true /\ u = at_dir w d' /\ add_from_file fuel today p (l, at_dir w' d) = Ok (l', at_dir w' d')) :
  files w r = Some text -> ~ clos_trans _ (beneath w) q r -> forall cs2 cs1 d l l' u ys, cut_up text (cs1 ++ cs2) ->
  follows w (removelast r) cs1 d ys -> dirs w d = true ->
  fold_res (parse_chunk today (add_from_file fuel today)) cs2 (l, at_dir w d) = Ok (l', u) ->
  exists d', dirs w d' = true /\ u = at_dir w d'
    /\ fold_res (parse_chunk today (add_from_file fuel today)) cs2 (l, at_dir w' d) = Ok (l', at_dir w' d').
Proof.
  intros Ef Nq. induction cs2 as [|c cs2 IHc]; intros cs1 d l l' u ys C F Dd H.
  - cbn in H. injection H as <- <-. exists d. auto.
  - cbn [fold_res] in *. assert (cut_up text ((cs1 ++ [c]) ++ cs2)) as C' by (rewrite <- app_assoc; exact C).
    destruct (split_ws c) as [|k rr] eqn:Es.
    + rewrite parse_blank_chunk in H by exact Es. rewrite parse_blank_chunk by exact Es. cbn [bind] in *.
      destruct (follows_snoc _ _ _ _ _ F c d [] ltac:(apply follows_blank; [exact Es|constructor])) as (zs & F').
      exact (IHc _ _ _ _ _ _ C' F' Dd H).
    + destruct (str_eqb k (lit "include")) eqn:Ek.
      * apply str_eqb_eq in Ek. subst k. assert (Kc : keyword c "include") by (unfold keyword; rewrite Es; reflexivity).
        destruct (value c) as [f|] eqn:V.
        2: { exfalso. unfold parse_chunk, value in *. rewrite Es in *. cbn [tl hd_error] in V. rewrite V in H. discriminate H. }
        rewrite (parse_include_chunk _ _ _ _ _ Kc V) in H. rewrite (parse_include_chunk _ _ _ _ _ Kc V).
        destruct (add_from_file fuel today f (l, at_dir w d)) as [[l1 u1]| | |] eqn:Ei; try discriminate. cbn [bind] in H.
        assert (file_path f) as Fp.
        { apply (Hf r text f Ef). exists (cs1 ++ c :: cs2), c. split; [exact C|]. split; [apply in_elt|]. auto. }
        assert (beneath w (located d f) r) as O by exact (opens_here w r text cs1 c cs2 f d ys Ef C F Kc V).
        assert (Hn : located d f <> q /\ ~ clos_trans _ (beneath w) q (located d f)).
        { split; [intros <-; apply Nq, t_step, O|]. intro T. apply Nq. exact (t_trans _ _ _ _ _ T (t_step _ _ _ _ O)). }
        destruct (load_unfolds today w P fuel d f l l1 u1 Fp Dd Hf Ei) as (xs & d1 & U & D1 & ->).
        destruct (IH d f l l1 _ Fp Dd (proj1 Hn) (proj2 Hn) Ei) as (d1' & _ & Eu & G).
        assert (d1' = d1) as -> by (unfold at_dir in Eu; congruence). rewrite G. cbn [bind].
        destruct (follows_snoc _ _ _ _ _ F c d1 _ (follows_include w d c f [] d1 d1 xs [] Kc V U (follows_nil w d1))) as (zs & F').
        exact (IHc _ _ _ _ _ _ C' F' D1 H).
      * assert (Nk : ~ keyword c "include").
        { unfold keyword. rewrite Es. intro E. injection E as ->. rewrite str_eqb_refl in Ek. discriminate. }
        assert (Nb : split_ws c <> []) by (rewrite Es; discriminate).
        rewrite parse_item_chunk in H by assumption. rewrite parse_item_chunk by assumption. destruct (item today l c) as [l1| | |]; try discriminate. cbn [bind] in *.
        destruct (follows_snoc _ _ _ _ _ F c d [c] ltac:(apply follows_item; [assumption..|constructor])) as (zs & F').
        exact (IHc _ _ _ _ _ _ C' F' Dd H).
Qed.
Lemma load_elsewhere fuel : forall d p l l' u, file_path p -> dirs w d = true ->
  located d p <> q -> ~ clos_trans _ (beneath w) q (located d p) ->
  add_from_file fuel today p (l, at_dir w d) = Ok (l', u) ->
  exists d', dirs w d' = true /\ u = at_dir w d' /\ add_from_file fuel today p (l, at_dir w' d) = Ok (l', at_dir w' d').
Proof.
  induction fuel as [|fuel IH]; intros d p l l' u Fp Dd Ne Nq H; [discriminate|]. cbn [add_from_file snd fst] in *.
  unfold read_file in *. rewrite resolve_located in *. cbn [at_dir files cwd] in *. rewrite (proj1 Ex _ Ne).
  destruct (files w (located d p)) as [text|] eqn:Ef; [|discriminate]. cbn [bind] in *.
  change (mkWorld (files w) (dirs w) d) with (at_dir w d) in *. change (mkWorld (files w') (dirs w') d) with (at_dir w' d) in *.
  destruct (chdir_exactly w d p text P Dd Fp Ef) as [Ch D1].
  rewrite Ch in H. rewrite (chdir_dirs w w' d p _ (proj2 Ex) Ch). cbn [bind] in *. destruct (cut_up_total text) as (cs & C).
  rewrite (add_from_str_chunks _ _ _ _ _ C) in H. rewrite (add_from_str_chunks _ _ _ _ _ C).
  exact (chunks_elsewhere fuel _ text IH Ef Nq cs [] _ l l' u [] C (follows_nil _ _) D1 H).
Qed.
(** The text of [q] itself. *)
Lemma load_itself fuel d p l l' u : file_path p -> dirs w d = true -> located d p = q ->
  add_from_file (S fuel) today p (l, at_dir w d) = Ok (l', u) ->
  exists text d', files w q = Some text /\ dirs w d' = true /\ u = at_dir w d'
    /\ chdir_parent (at_dir w' d) p = Ok (at_dir w' (removelast q))
    /\ add_from_str today (add_from_file fuel today) text (l, at_dir w' (removelast q)) = Ok (l', at_dir w' d').
Proof.
  intros Fp Dd Eq H. destruct (load_unfolds today w P _ d p l l' u Fp Dd Hf H) as (xs & d2 & U & _ & _).
  pose proof (never_within _ _ _ _ _ U) as Nq. rewrite Eq in Nq. cbn [add_from_file snd fst] in *.
  unfold read_file in *. rewrite resolve_located in *. cbn [at_dir files cwd] in *. rewrite Eq in *.
  destruct (files w q) as [text|] eqn:Ef; [|discriminate]. cbn [bind] in *.
  change (mkWorld (files w) (dirs w) d) with (at_dir w d) in *.
  destruct (chdir_exactly w d p text P Dd Fp ltac:(rewrite Eq; exact Ef)) as [Ch D1]. rewrite Eq in *.
  rewrite Ch in H. cbn [bind] in H. destruct (cut_up_total text) as (cs & C). rewrite (add_from_str_chunks _ _ _ _ _ C) in H.
  destruct (chunks_elsewhere fuel q text (load_elsewhere fuel) Ef Nq cs [] _ l l' u [] C (follows_nil _ _) D1 H) as (d' & D' & Eu & G).
  exists text, d'. split; [reflexivity|]. split; [exact D'|]. split; [exact Eu|]. split; [exact (chdir_dirs w w' d p _ (proj2 Ex) Ch)|].
  rewrite (add_from_str_chunks _ _ _ _ _ C). exact G.
Qed.
End Transfer.

(** ** Names *)
Lemma token_of h ts t : split_ws (remove_comments h) = ts -> In t ts -> name_ok t.
Proof.
  intros E I. assert (is_token t) as T.
  { pose proof (split_ws_tokens (remove_comments h)) as F. rewrite E in F. rewrite Forall_forall in F. exact (F t I). }
  split; [apply token_iff; exact T|]. apply markfree_iff. revert ts E I. pose proof (markfree_remove_comments h) as M. revert M.
  generalize (remove_comments h) as s. clear h. intros s. remember (List.length s) as n eqn:N.
  revert s N. induction n as [n IH] using lt_wf_ind. intros s N M ts E I. destruct ts as [|t0 ts]; [destruct I|].
  apply split_ws_cons in E. destruct E as (w & r & -> & Aw & T0 & Wr & E). apply markfree_app_r in M.
  destruct I as [<-|I]; [exact (markfree_app_l _ _ M)|]. apply markfree_app_r in M.
  refine (IH (List.length r) _ r eq_refl M ts E I). subst n. rewrite !app_length. destruct T0 as [T0 _]. destruct t0; [contradiction|cbn; lia].
Qed.
Definition well_named (l : ledger) : Prop := forall k a, In (k, a) (l_accounts l) ->
  sound a /\ name_ok (a_name a) /\ forall v, In v (all_envelopes a) -> name_ok (v_name v).
Lemma well_named_entry today l e l' : well_named l -> add_entry today l e = Ok l' -> well_named l'.
Proof.
  intros W H k a I. apply add_entry_accounts in H. destruct (Forall2_In_r _ _ _ _ H I) as ((k0 & a0) & I0 & _ & Pa). cbn [snd] in Pa.
  destruct (W _ _ I0) as (S & N & V). split; [exact (acc_process_sound _ _ _ _ Pa S)|].
  rewrite (acc_process_name _ _ _ _ Pa). split; [exact N|]. intros v Iv. destruct (acc_process_envelopes _ _ _ _ _ Pa Iv) as (u & Iu & Hu).
  destruct (env_process_inv _ _ _ _ Hu) as ((-> & _) & _). exact (V u Iu).
Qed.
Lemma well_named_account l c l' : well_named l -> ledger_parse_account l c = Ok l' -> well_named l'.
Proof.
  unfold ledger_parse_account. intros W H. apply bind_Ok in H as (a & Pa & H). injection H as <-. intros k b I. cbn [l_accounts] in I.
  assert ((k, b) = (a_name a, a) \/ In (k, b) (l_accounts l)) as [E|I'].
  { clear -I. induction (l_accounts l) as [|(k0 & b0) m IH]; cbn [map_insert] in I; [destruct I as [I|[]]; auto|].
    destruct (str_eqb k0 (a_name a)) eqn:Ek.
    - apply str_eqb_eq in Ek. subst k0. destruct I as [I|I]; [left; symmetry; exact I|right; right; exact I].
    - destruct I as [I|I]; [right; left; exact I|]. destruct (IH I); auto. right. right. assumption. }
  - injection E as -> ->. split; [exact (parse_account_sound _ _ _ _ Pa)|]. apply parse_account_iff in Pa.
    destruct Pa as (h & body & kw & ss & vs & _ & Hh & _ & F & _ & _ & Ex & Go & _). split.
    + apply (token_of h _ _ Hh). right. left. reflexivity.
    + intros v Iv. unfold all_envelopes in Iv. rewrite Ex, Go in Iv. apply in_app_or in Iv.
      assert (In v vs) as Iv' by (destruct Iv as [Iv|Iv]; apply filter_In in Iv; tauto).
      destruct (Forall2_In_r _ _ _ _ F Iv') as (s & _ & Pv). destruct (envelope_only _ _ _ _ _ Pv) as (hh & b & kind & name & st & f & sl & _ & Hs & _ & (-> & _)).
      destruct Hs as (more & before & Hs & _). apply (token_of hh _ _ Hs). right. left. reflexivity.
  - exact (W _ _ I').
Qed.
Lemma loaded_named fuel today p w l w' : from_file fuel today p w = Ok (l, w') -> well_named l.
Proof.
  intro H. unfold from_file in H. change l with (fst (l, w')). apply (load_invariant well_named today) with (5 := H).
  - exact well_named_account.
  - intros l0 v l' W E k a I. destruct v; [|discriminate]. injection E as <-. exact (W k a I).
  - intros l0 v l' W E k a I. destruct v; [|discriminate]. injection E as <-. exact (W k a I).
  - intros l0 e l' W E. exact (well_named_entry _ _ _ _ W E).
  - intros k a [].
Qed.

(** ** The entry for the moves *)
Lemma same_definition_sym v w : same_definition v w -> same_definition w v.
Proof. unfold same_definition. intuition congruence. Qed.
Lemma moved_rounded today d v l w : moved_all today d v l w -> in_currency v -> Forall positive l ->
  forall v', same_definition v v' -> in_currency v' -> exists w', moved_all today d v' (map to8 l) w'.
Proof.
  induction 1 as [v|v a u l w M K IH]; intros C F v' D C'; [exists v'; constructor|]. inversion F as [|? ? Fa Fl]; subst.
  destruct (proj2 (moved_movable _ _ _ _ _ C M) Fa) as (Sy & o & L).
  assert (symbol (v_amount v') = symbol (v_amount v) /\ v_freq v' = v_freq v) as [Ea Ef] by (unfold same_definition in D; intuition congruence).
  destruct (moved_total today v' (to8 a) d C') as (u' & U').
  { cbn [to8 symbol]. congruence. }
  { rewrite Ef. eauto. }
  apply apply_amount_iff in U'. destruct (IH (moved_currency _ _ _ _ _ M C) Fl u') as (w' & W').
  - apply (same_definition_trans _ v); [apply same_definition_sym, (moved_same _ _ _ _ _ M)|].
    apply (same_definition_trans _ v'); [exact D|exact (moved_same _ _ _ _ _ U')].
  - exact (moved_currency _ _ _ _ _ U' C').
  - exists w'. cbn [map]. econstructor; eassumption.
Qed.
Lemma posted_rounded v ps : posted_to v (map to8_posting ps) = map to8 (posted_to v ps).
Proof.
  unfold posted_to. induction ps as [|p ps IH]; [reflexivity|]. cbn [map flat_map]. rewrite IH, map_app. f_equal.
  destruct p as [c|ep]; [reflexivity|]. cbn [to8_posting ep_account ep_envelope ep_amount].
  destruct (str_dec _ _); [|reflexivity]. destruct (str_dec _ _); reflexivity.
Qed.
Lemma map_res_total {A C} (f : A -> res C) l : (forall a, In a l -> exists b, f a = Ok b) -> exists bs, map_res f l = Ok bs.
Proof.
  induction l as [|a l IH]; intro H; [exists []; reflexivity|]. destruct (H a (or_introl eq_refl)) as (b & E).
  destruct IH as (bs & Eb); [intros; apply H; right; assumption|]. exists (b :: bs). cbn [map_res]. rewrite E. cbn [bind]. rewrite Eb. reflexivity.
Qed.
Lemma real_untouched name e ps : forallb is_envelope ps = true -> forall r, fold_res (real_step name e) ps r = Ok r.
Proof.
  induction ps as [|p ps IH]; intros H r; [reflexivity|]. cbn [forallb] in H. apply andb_true_iff in H as [H1 H2].
  cbn [fold_res]. unfold real_step at 1. rewrite H1. cbn [negb]. rewrite andb_false_r. cbn [bind]. exact (IH H2 r).
Qed.
Lemma add_rounded today l e l' : well_named l -> add_entry today l e = Ok l' -> e_postings e <> [] ->
  (forall p, In p (e_postings e) -> exists ep, p = EnvPosting ep /\ positive (ep_amount ep)) ->
  exists l2, add_entry today l (reread e) = Ok l2.
Proof.
  intros W H Ne Hp. apply add_entry_accounts in H.
  assert (manual e /\ manual (reread e)) as [Me Mr].
  { destruct (e_postings e) as [|p ps] eqn:E; [contradiction|]. destruct (Hp p (or_introl eq_refl)) as (ep & -> & _).
    split; [exists ep; rewrite E; left; reflexivity|]. eexists. unfold reread. cbn [e_postings]. rewrite E. left. reflexivity. }
  assert (forallb is_envelope (e_postings (reread e)) = true) as En.
  { apply forallb_forall. intros p I. unfold reread in I. cbn [e_postings] in I. apply in_map_iff in I as (p0 & <- & I).
    destruct (Hp p0 I) as (ep & -> & _). reflexivity. }
  assert (forall k a, In (k, a) (l_accounts l) -> exists b, acc_process today a (reread e) = Ok b) as G.
  { intros k a I. destruct (W _ _ I) as (S & _). destruct (Forall2_In_l _ _ _ _ H I) as ((k' & b) & _ & _ & Pa). cbn [snd] in Pa.
    assert (forall v w, In v (all_envelopes a) -> env_process today v e = Ok w -> exists w', env_process today v (reread e) = Ok w') as V.
    { intros v w Iv Ev. apply (env_process_manual _ _ _ _ Me) in Ev. destruct (moved_rounded _ _ _ _ _ Ev) with (v' := v) as (w' & Hw).
      - apply (proj1 S v Iv).
      - apply Forall_forall. intros x Ix. apply posted_to_In in Ix. destruct (Hp _ Ix) as (ep & E & Q). injection E as <-. exact Q.
      - apply same_definition_refl.
      - apply (proj1 S v Iv).
      - exists w'. apply (env_process_manual _ _ _ _ Mr). unfold reread at 2. cbn [e_postings]. rewrite posted_rounded. exact Hw. }
    unfold acc_process in *. apply bind_Ok in Pa as (ex & E1 & Pa). apply bind_Ok in Pa as (go & E2 & _).
    apply map_res_Ok in E1, E2.
    destruct (map_res_total (fun v => env_process today v (reread e)) (a_expenses a)) as (ex' & E1').
    { intros v Iv. destruct (Forall2_In_l _ _ _ _ E1 Iv) as (x & _ & Ex). apply (V v x); [apply in_or_app; auto|exact Ex]. }
    destruct (map_res_total (fun v => env_process today v (reread e)) (a_goals a)) as (go' & E2').
    { intros v Iv. destruct (Forall2_In_l _ _ _ _ E2 Iv) as (x & _ & Ex). apply (V v x); [apply in_or_app; auto|exact Ex]. }
    rewrite E1', E2'. cbn [bind]. rewrite real_untouched by exact En. cbn [bind]. eauto. }
  unfold add_entry. destruct (map_res_total (fun ka => let! a := acc_process today (snd ka) (reread e) in Ok (fst ka, a)) (l_accounts l)) as (accs & E).
  { intros (k & a) I. destruct (G k a I) as (b & Eb). cbn [fst snd]. rewrite Eb. cbn [bind]. eauto. }
  rewrite E. cbn [bind]. eauto.
Qed.
