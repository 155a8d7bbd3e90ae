(** Properties C112 and C113: the journal after a run. *)
From Coq Require Import ZArith NArith List Bool String Permutation Lia.
From Verif Require Import Base Str F64 Date Amount Posting Entry Envelope Account World Register Ledger Importer Cli
  SpecAmount SpecDate SpecEntry SpecEnvelope SpecLedger SpecRegister SpecReport SpecImport SpecCli SpecRun SpecInclude SpecMoves SpecAgain
  StrFacts LineFacts EnvelopeFacts AmountFacts EntryFacts AmountParse AccountFacts FillFacts LedgerFacts LoadFacts IncludeFacts UnfoldFacts RunFacts AgainFacts
  PropertiesEntry PropertiesLedger PropertiesImport PropertiesCli PropertiesRun PropertiesMoves.
Import ListNotations.
Local Open Scope list_scope.

Lemma fill_done today l w w' l' : fill_envelopes today l w = (w', Ok l') ->
  exists ms, fill_postings today l = Ok (map move_posting ms)
  /\ let q := resolve w (l_path l) in
     cwd w' = cwd w /\ (forall d, dirs w' d = dirs w d) /\ (forall r, r <> q -> files w' r = files w r)
     /\ files w' q = option_map (fun t => t ++ moves_text (l_format l) today ms) (files w q)
     /\ (ms <> [] -> add_entry today l (fill_entry today (map move_posting ms)) = Ok l').
Proof.
  intros H. unfold fill_envelopes in H. destruct (fill_postings today l) as [ps| | |] eqn:E; try discriminate.
  destruct (fill_moves _ _ _ E) as (mss & _ & ->). exists (List.concat mss). split; [reflexivity|]. cbv zeta.
  destruct (List.concat mss) as [|m ms].
  - cbn [map] in H. injection H as <- <-. split; [reflexivity|]. split; [reflexivity|]. split; [reflexivity|].
    split; [|congruence]. cbn [moves_text]. destruct (files w (resolve w (l_path l))) as [t|]; [cbn; rewrite app_nil_r|]; reflexivity.
  - assert (append_entry today l w (fill_entry today (map move_posting (m :: ms))) = (w', Ok l')) as A by exact H. clear H.
    unfold append_entry, append_file in A. rewrite <- moves_text_shown in A.
    destruct (files w (resolve w (l_path l))) as [t|] eqn:Ft; [|discriminate]. destruct (printable (l_format l)); [|discriminate].
    injection A as <- A. cbn [cwd dirs files]. split; [reflexivity|]. split; [reflexivity|]. split.
    { intros r N. destruct (path_eqb r (resolve w (l_path l))) eqn:Q; [|reflexivity]. apply path_eqb_eq in Q. contradiction. }
    split; [rewrite (proj2 (path_eqb_eq _ _) eq_refl); reflexivity|]. intros _. exact A.
Qed.
Lemma moves_positive today l ms : fill_postings today l = Ok (map move_posting ms) ->
  forall p, In p (map move_posting ms) -> exists ep, p = EnvPosting ep /\ positive (ep_amount ep).
Proof.
  intros F p I. destruct (fill_postings_In _ _ _ _ F I) as (key & acc & v & av & a & _ & _ & Ef & -> & Nz).
  eexists. split; [reflexivity|]. cbn [ep_amount]. destruct (filling_amount_safe _ _ _ _ Ef) as (Nn & Ng & _).
  clear -Nz Nn Ng. unfold positive, fltb, feqb, fis_nan in *. destruct (mag a) as [m ok]. cbn [sf fzero mag] in *. destruct m as [[]|[]| |[] m e]; easy.
Qed.
Lemma moves_writable today l ms : well_named l -> fill_postings today l = Ok (map move_posting ms) ->
  (0 <= year today < 10000)%Z -> Forall (fun m => writable (m_amount m)) ms ->
  writable_entry (account_names l) (fill_entry today (map move_posting ms)).
Proof.
  intros W F Y Wr. unfold fill_entry, new_entry, writable_entry. cbn [e_date e_desc e_payee e_comment e_postings opt_holds].
  split; [exact Y|]. split.
  { exists (map lit ["move"; "to"; "envelopes"]%string). split; [|reflexivity].
    repeat constructor; try discriminate; apply token_iff; split; try discriminate; reflexivity. }
  split; [apply markfree_iff; reflexivity|]. split; [intro I; cbn in I; repeat (destruct I as [I|I]; [discriminate|]); exact I|].
  split; [exact I|]. split; [intro I; cbn in I; repeat (destruct I as [I|I]; [discriminate|]); exact I|]. split.
  - apply Forall_forall. intros p Ip. destruct (fill_postings_In _ _ _ _ F Ip) as (key & acc & v & av & a & Ia & Iv & Ef & E & _).
    apply in_map_iff in Ip as (m & Em & Im). rewrite Forall_forall in Wr. pose proof (Wr m Im) as Wm. subst p. unfold move_posting in E. injection E as E1 E2 E3.
    destruct (W _ _ Ia) as ((Fr & _) & Na & Nv). cbn [writable_posting move_posting ep_account ep_envelope ep_amount].
    rewrite E1, E2. destruct (Fr v Iv) as [-> _]. split; [exact Na|]. split; [exact (Nv v Iv)|exact Wm].
  - split.
    + replace (SpecEntry.blanks _) with O; [lia|]. clear. unfold SpecEntry.blanks. induction ms as [|m ms IH]; [reflexivity|]. cbn [map filter get_amount move_posting]. exact IH.
    + replace (SpecEntry.blanks _) with O; [discriminate|]. clear. unfold SpecEntry.blanks. induction ms as [|m ms IH]; [reflexivity|]. cbn [map filter get_amount move_posting]. exact IH.
Qed.

(** ** The same day *)
Lemma load_again fuel today p w l w1 w2 l' :
  proper w -> file_path p -> (forall r t g, files w r = Some t -> includes t g -> file_path g) ->
  from_file fuel today p w = Ok (l, w1) -> resolve w1 p = resolve w p -> fill_envelopes today l w1 = (w2, Ok l') ->
  (0 <= year today < 10000)%Z -> journal_date (l_format l) today ->
  exists text ms, fill_postings today l = Ok (map move_posting ms) /\ files w (resolve w p) = Some text
  /\ files w2 (resolve w p) = Some (text ++ moves_text (l_format l) today ms)
  /\ (Forall (fun m => writable (m_amount m)) ms -> exists l2,
        from_file fuel today p (later w w2) = Ok (l2, mkWorld (files w2) (dirs w2) (cwd w1))
        /\ fold_res (add_entry today) (map reread (moves_entry today ms)) l = Ok l2).
Proof.
  intros P Fp Hf L R Fi Y J. pose proof (loaded_named _ _ _ _ _ _ L) as W. pose proof (from_file_disk _ _ _ _ _ _ L) as (Df & Dd).
  unfold from_file in *. pose proof (load_path _ _ _ _ _ L) as Ep. cbn [fst new_ledger l_path] in Ep.
  destruct (fill_done _ _ _ _ _ Fi) as (ms & Fm & Ec & Ed & Eo & Ef & Add). rewrite Ep, R in *.
  set (q := resolve w p) in *. destruct fuel as [|fuel]; [discriminate|].
  assert (except q w (later w w2)) as Ex.
  { split; [|intro r; unfold later; cbn [dirs]; rewrite Ed; apply Dd]. intros r N. unfold later. cbn [files]. rewrite (Eo r N). apply Df. }
  rewrite <- (at_cwd w) in L.
  destruct (load_itself today w (later w w2) q P Hf Ex fuel (cwd w) p _ l w1 Fp (proj1 (proj2 P)) (eq_sym (resolve_located w p)) L)
    as (text & d' & Et & _ & Ew1 & Ch & G).
  exists text, ms. split; [exact Fm|]. split; [exact Et|].
  assert (files w2 q = Some (text ++ moves_text (l_format l) today ms)) as Eq by (rewrite Ef, Df, Et; reflexivity).
  split; [exact Eq|]. intro Wr.
  assert (cwd w1 = d') as -> by (rewrite Ew1; reflexivity).
  assert (forall l2, add_from_str today (add_from_file fuel today) (text ++ moves_text (l_format l) today ms)
            (new_ledger p, at_dir (later w w2) (removelast q)) = Ok (l2, at_dir (later w w2) d') ->
          add_from_file (S fuel) today p (new_ledger p, later w w2) = Ok (l2, mkWorld (files w2) (dirs w2) d')) as K.
  { intros l2 H. cbn [add_from_file snd fst]. unfold read_file.
    replace (resolve (later w w2) p) with q by (unfold q; rewrite !resolve_located; reflexivity).
    unfold later at 1. cbn [files]. rewrite Eq. cbn [bind].
    change (later w w2) with (at_dir (later w w2) (cwd w)) at 1. rewrite Ch. cbn [bind]. exact H. }
  destruct ms as [|m ms].
  - exists l. split; [|reflexivity]. apply K. cbn [moves_text]. rewrite app_nil_r. exact G.
  - pose proof (moves_writable _ _ _ W Fm Y Wr) as We. specialize (Add ltac:(discriminate)).
    destruct (add_rounded _ _ _ _ W Add) as (l2 & A2).
    { discriminate. }
    { intros pp I. exact (moves_positive _ _ _ Fm pp I). }
    exists l2. split.
    + apply K. rewrite moves_text_shown.
      pose proof (load_appended today (add_from_file fuel today) text (new_ledger p, at_dir (later w w2) (removelast q)) _
                    (fill_entry today (map move_posting (m :: ms))) G J We) as H. cbn [fst snd] in H. rewrite H.
      unfold on_ledger. cbn [fst snd]. rewrite A2. reflexivity.
    + change (map reread (moves_entry today (m :: ms))) with [reread (fill_entry today (map move_posting (m :: ms)))].
      cbn [fold_res]. rewrite A2. reflexivity.
Qed.

Lemma chosen_unique x f p p' : chosen x f p -> chosen x f p' -> p = p'.
Proof. intros A B. inversion A; inversion B; congruence. Qed.

(** ** C112 *)
Theorem C112_again_partial : forall x args f w p l w1,
  parse_args args = Some (Ok f) -> f_no_move f = false -> f_cmd f <> Import -> o_res (main x args w) = Ok tt ->
  chosen x f p -> from_file (x_fuel x) (x_today x) p w = Ok (l, w1) ->
  proper w -> file_path p -> (forall r t g, files w r = Some t -> includes t g -> file_path g) ->
  resolve w1 p = resolve w p -> (0 <= year (x_today x) < 10000)%Z -> journal_date (l_format l) (x_today x) ->
  exists text ms, files w (resolve w p) = Some text
  /\ files (o_world (main x args w)) (resolve w p) = Some (text ++ moves_text (l_format l) (x_today x) ms)
  /\ (Forall (fun m => writable (m_amount m)) ms -> exists l2 w2,
        from_file (x_fuel x) (x_today x) p (later w (o_world (main x args w))) = Ok (l2, w2)
        /\ fold_res (add_entry (x_today x)) (map reread (moves_entry (x_today x) ms)) l = Ok l2).
Proof.
  intros x args f w p l w1 Pa Nm Ni Ho Ch L P Fp Hf R Y J.
  assert (main x args w = execute x f w) as M by (unfold main; rewrite Pa; reflexivity). rewrite M in *.
  destruct (run_ready x f w) as [(l2 & w2 & Re)|[_ N]]; [|contradiction].
  rewrite (ready_run x f w l2 w2 Re) in *. rewrite (run_world x f l2 w2 Ni).
  inversion Re as [|p' l0 w1' l' w' C F _ Fi]; [congruence|subst].
  assert (p' = p) as -> by exact (chosen_unique _ _ _ _ C Ch). rewrite L in F. injection F as <- <-.
  destruct (load_again _ _ _ _ _ _ _ _ P Fp Hf L R Fi Y J) as (text & ms & _ & Et & Eq & K). exists text, ms.
  split; [exact Et|]. split; [exact Eq|]. intro Wr. destruct (K Wr) as (l3 & A & B). eauto.
Qed.
Print Assumptions C112_again_partial.

(** If eight decimals suffice for the amounts, what is loaded is what the run
    reported, except for the comment of the entry. *)
Lemma same_moves x f w p l w1 l' w2 :
  f_no_move f = false -> ready x f w l' w2 ->
  chosen x f p -> from_file (x_fuel x) (x_today x) p w = Ok (l, w1) ->
  proper w -> file_path p -> (forall r t g, files w r = Some t -> includes t g -> file_path g) ->
  resolve w1 p = resolve w p -> (0 <= year (x_today x) < 10000)%Z -> journal_date (l_format l) (x_today x) ->
  (forall ms, fill_postings (x_today x) l = Ok (map move_posting ms) -> (ms <> [] -> add_entry (x_today x) l (fill_entry (x_today x) (map move_posting ms)) = Ok l') ->
     forall m, In m ms -> writable (m_amount m) /\ to8 (m_amount m) = m_amount m) ->
  exists l2 w3, from_file (x_fuel x) (x_today x) p (later w w2) = Ok (l2, w3) /\ uncommented l' l2.
Proof.
  intros Nm Re Ch L P Fp Hf R Y J Ex.
  inversion Re as [|p' l0 w1' l0' w' C F _ Fi]; [congruence|subst].
  assert (p' = p) as -> by exact (chosen_unique _ _ _ _ C Ch). rewrite L in F. injection F as <- <-.
  destruct (load_again _ _ _ _ _ _ _ _ P Fp Hf L R Fi Y J) as (text & ms & Fm & _ & _ & K).
  destruct (fill_done _ _ _ _ _ Fi) as (ms' & Fm' & _ & _ & _ & _ & Add).
  assert (map move_posting ms' = map move_posting ms) as Em by congruence. rewrite Em in Add.
  assert (ms <> [] -> ms' <> []) as Nn by (destruct ms, ms'; try discriminate; intros H; exact H).
  pose proof (Ex ms Fm (fun H => Add (Nn H))) as Wr.
  destruct K as (l2 & A & B); [apply Forall_forall; intros m Im; apply Wr, Im|]. exists l2. eexists. split; [exact A|].
  destruct ms as [|m ms].
  - cbn in B. injection B as <-. assert (l = l') as ->; [|apply uncommented_refl].
    unfold fill_envelopes in Fi. rewrite Fm in Fi. cbn [map] in Fi. congruence.
  - specialize (Add (Nn ltac:(discriminate))).
    assert (fold_res (add_entry (x_today x)) (moves_entry (x_today x) (m :: ms)) l = Ok l') as Fo.
    { change (moves_entry (x_today x) (m :: ms)) with [fill_entry (x_today x) (map move_posting (m :: ms))]. cbn [fold_res]. rewrite Add. reflexivity. }
    destruct (fold_bare (x_today x) (moves_entry (x_today x) (m :: ms)) l l l' (uncommented_refl l)) with (2 := Fo) as (l3 & G & U).
    2: { assert (l3 = l2) as <- by congruence. exact U. }
    constructor; [|constructor]. cbn [e_postings]. rewrite map_map. apply map_ext_in. intros m1 I1.
    cbn [to8_posting move_posting ep_account ep_envelope ep_amount]. rewrite (proj2 (Wr m1 I1)). reflexivity.
Qed.
Theorem C112_same_partial : forall x f w p l w1 l' w2,
  f_no_move f = false -> ready x f w l' w2 ->
  chosen x f p -> from_file (x_fuel x) (x_today x) p w = Ok (l, w1) ->
  proper w -> file_path p -> (forall r t g, files w r = Some t -> includes t g -> file_path g) ->
  resolve w1 p = resolve w p -> (0 <= year (x_today x) < 10000)%Z -> journal_date (l_format l) (x_today x) ->
  (forall e ep, In e (l_entries l') -> e_date e = x_today x -> In (EnvPosting ep) (e_postings e) -> writable (ep_amount ep) /\ to8 (ep_amount ep) = ep_amount ep) ->
  exists l2 w3, from_file (x_fuel x) (x_today x) p (later w w2) = Ok (l2, w3) /\ uncommented l' l2.
Proof.
  intros x f w p l w1 l' w2 Nm Re Ch L P Fp Hf R Y J Ex. apply (same_moves x f w p l w1 l' w2); try assumption.
  intros ms _ Add m Im. destruct ms as [|m0 ms]; [destruct Im|]. specialize (Add ltac:(discriminate)).
  unfold add_entry in Add. apply bind_Ok in Add as (accs & _ & Add). injection Add as <-.
  apply (Ex (fill_entry (x_today x) (map move_posting (m0 :: ms))) (mkEnvPosting (m_account m) (m_envelope m) (m_amount m))).
  - cbn [l_entries]. apply (Permutation_in _ (sort_entries_perm _)). apply in_or_app. right. left. reflexivity.
  - reflexivity.
  - change (e_postings (fill_entry (x_today x) (map move_posting (m0 :: ms)))) with (map move_posting (m0 :: ms)).
    apply in_map_iff. exists m. split; [reflexivity|exact Im].
Qed.
Print Assumptions C112_same_partial.

(** *** The full statement: the currency [//] of the envelope, from the text
    [/5/], starts a comment in the new entry. *)
Definition slashes : list string :=
  ["account a"; " expense food due every friday"; "  amount /5/"; "  funding aggressive";
   "account b"; "2024/03/01 * pay"; " a /10/"; " b"]%string.
Definition slash_world : world := world_of [(j, text slashes)] [[]] [].
Definition usual : list str := map lit ["envelopes"; "-f"; "/j"]%string.
Definition unset : context := ctx [] (fun _ => []).
Theorem C112_refuted : exists x args f w p, parse_args args = Some (Ok f) /\ f_no_move f = false /\ f_cmd f <> Import
  /\ o_res (main x args w) = Ok tt /\ chosen x f p /\ is_absolute p = true /\ proper w
  /\ journal_date default_format (x_today x)
  /\ forall fuel, match from_file (S fuel) (x_today x) p (later w (o_world (main x args w))) with Err _ => True | _ => False end.
Proof.
  set (f := mkFlags (Some (lit "/j")) Envelopes false None None None None).
  exists unset, usual, f, slash_world, (lit "/j").
  split; [vm_compute; reflexivity|]. split; [reflexivity|]. split; [discriminate|]. split; [vm_compute; reflexivity|].
  split; [apply by_flag; reflexivity|]. split; [reflexivity|]. split; [apply world_of_proper; vm_compute; reflexivity|].
  split; [apply C63_default; cbn; lia|]. intro fuel. vm_compute. exact I.
Qed.
Print Assumptions C112_refuted.

(** The next run finds the entry. *)
Example C112_case :
  let w := moving_world in
  let after := later w (o_world (main unset usual w)) in
  match from_file 5 today (lit "/j") w, from_file 5 today (lit "/j") after with
  | Ok (l, _), Ok (l2, _) =>
      map e_desc (l_entries l) = [lit "one"] /\ map e_desc (l_entries l2) = map lit ["one"; "move to envelopes"]%string
      /\ l_format l = default_format
  | _, _ => False
  end.
Proof. vm_compute. split; [reflexivity|]. split; reflexivity. Qed.

(** ** C113 *)
Theorem C113_twice_partial : forall x args f w x' args' f' p l w1,
  parse_args args = Some (Ok f) -> f_no_move f = false -> f_cmd f <> Import -> o_res (main x args w) = Ok tt ->
  chosen x f p -> from_file (x_fuel x) (x_today x) p w = Ok (l, w1) ->
  proper w -> file_path p -> (forall r t g, files w r = Some t -> includes t g -> file_path g) ->
  resolve w1 p = resolve w p -> (0 <= year (x_today x) < 10000)%Z -> journal_date (l_format l) (x_today x) ->
  parse_args args' = Some (Ok f') -> f_no_move f' = false -> f_cmd f' <> Import -> chosen x' f' p ->
  x_today x' = x_today x -> x_fuel x' = x_fuel x ->
  let after := later w (o_world (main x args w)) in
  o_res (main x' args' after) = Ok tt ->
  exists text ms ms', files w (resolve w p) = Some text
  /\ files (o_world (main x args w)) (resolve w p) = Some (text ++ moves_text (l_format l) (x_today x) ms)
  /\ (Forall (fun m => writable (m_amount m)) ms ->
        files (o_world (main x' args' after)) (resolve w p)
        = Some (text ++ moves_text (l_format l) (x_today x) ms ++ moves_text (l_format l) (x_today x) ms')
        /\ forall m m', In m ms -> In m' ms' -> ~ (m_account m' = m_account m /\ m_envelope m' = m_envelope m)).
Proof.
  intros x args f w x' args' f' p l w1 Pa Nm Ni Ho Ch L P Fp Hf R Y J Pa' Nm' Ni' Ch' Et Ef after Ho'.
  assert (main x args w = execute x f w) as M by (unfold main; rewrite Pa; reflexivity).
  assert (main x' args' after = execute x' f' after) as M' by (unfold main; rewrite Pa'; reflexivity). rewrite M' in *.
  destruct (run_ready x f w) as [(l2 & w2 & Re)|[_ N]]; [|rewrite M in Ho; contradiction].
  assert (o_world (main x args w) = w2) as Ew by (rewrite M, (ready_run x f w l2 w2 Re); apply run_world, Ni).
  unfold after in *. clear after. rewrite Ew in *.
  inversion Re as [|p' l0 w1' l' w' C F _ Fi]; [congruence|subst l' w'].
  assert (p' = p) as -> by exact (chosen_unique _ _ _ _ C Ch). rewrite L in F. injection F as <- <-.
  destruct (load_again _ _ _ _ _ _ _ _ P Fp Hf L R Fi Y J) as (text & ms & Fm & Ex & Eq & K). exists text, ms.
  destruct (run_ready x' f' (later w w2)) as [(l4 & w4 & Re')|[_ N]]; [|contradiction].
  rewrite (ready_run x' f' _ l4 w4 Re') in *. rewrite (run_world x' f' l4 w4 Ni').
  inversion Re' as [|p' l3 w3 l' w' C' F' _ Fi']; [congruence|subst l' w'].
  assert (p' = p) as -> by exact (chosen_unique _ _ _ _ C' Ch'). rewrite Et, Ef in *.
  destruct (fill_done _ _ _ _ _ Fi') as (ms' & Fm' & _ & _ & _ & Ef' & _). exists ms'.
  split; [exact Ex|]. split; [exact Eq|]. intro Wr. destruct (K Wr) as (l5 & A & B). rewrite A in F'. injection F' as <- <-.
  pose proof (load_path _ _ _ _ _ A) as Ep. cbn [fst new_ledger l_path] in Ep.
  assert (l_format l5 = l_format l) as Efm.
  { clear -B. destruct ms as [|m ms]; [cbn in B; congruence|]. cbn [moves_entry map fold_res] in B. apply bind_Ok in B as (l6 & B & E). injection E as <-.
    apply (add_entry_same _ _ _ _ B). }
  assert (resolve (mkWorld (files w2) (dirs w2) (cwd w1)) p = resolve w p) as Er.
  { rewrite <- R, !resolve_located. reflexivity. }
  rewrite Ep, Er, Efm in Ef'. cbn [files] in Ef'. rewrite Eq in Ef'. cbn [option_map] in Ef'. rewrite <- app_assoc in Ef'. split; [exact Ef'|].
  intros m m' Im Im' [Ea En]. destruct ms as [|m0 ms]; [destruct Im|].
  cbn [moves_entry map fold_res] in B. apply bind_Ok in B as (l6 & B & E). injection E as ->.
  destruct (fill_postings_In _ _ _ (move_posting m') Fm') as (key & acc & v & av & a & Ia & Iv & Fa & E & Nz); [apply in_map, Im'|].
  unfold move_posting in E. injection E as E1 E2 E3.
  assert (v_last v = x_today x) as Lt.
  { apply (named_touched _ _ _ _ _ _ _ (mkEnvPosting (m_account m) (m_envelope m) (to8 (m_amount m))) B) with (2 := Ia) (3 := Iv).
    - unfold reread. cbn [e_postings]. apply in_map_iff. exists (move_posting m). split; [reflexivity|].
      change (In (move_posting m) (map move_posting (m0 :: ms))). apply in_map, Im.
    - cbn [ep_account]. congruence.
    - cbn [ep_envelope]. congruence. }
  rewrite (filling_amount_zero _ _ _ _ Fa) in Nz by auto. discriminate.
Qed.
Print Assumptions C113_twice_partial.

(** The full statement: with a relative path the entry can be written to another
    file, and the second run moves the same money again. *)
Definition below : world :=
  world_of [([lit "d"; lit "j"], text filling); ([lit "d"; lit "d"; lit "j"], lit "; other")]
           [[]; [lit "d"]; [lit "d"; lit "d"]] [].
Definition from_above : list str := map lit ["balance"; "-f"; "d/j"]%string.
Theorem C113_refuted : exists x args f w p l w1 q t ms, parse_args args = Some (Ok f) /\ f_no_move f = false /\ f_cmd f <> Import
  /\ chosen x f p /\ proper w /\ file_path p /\ (0 <= year (x_today x) < 10000)%Z /\ journal_date (l_format l) (x_today x)
  /\ from_file (x_fuel x) (x_today x) p w = Ok (l, w1) /\ o_res (main x args w) = Ok tt
  /\ let after := later w (o_world (main x args w)) in
     o_res (main x args after) = Ok tt /\ ms <> [] /\ Forall (fun m => writable (m_amount m)) ms
     /\ files (o_world (main x args after)) q
        = Some (t ++ moves_text (l_format l) (x_today x) ms ++ moves_text (l_format l) (x_today x) ms).
Proof.
  set (f := mkFlags (Some (lit "d/j")) Balance false None None None None).
  destruct (from_file 5 today (lit "d/j") below) as [(l & w1)| | |] eqn:E; [|vm_compute in E; discriminate..].
  exists unset, from_above, f, below, (lit "d/j"), l, w1, [lit "d"; lit "d"; lit "j"], (lit "; other"),
    [mkMove (lit "a") (lit "x") (mkAmount (fofZ 7) None)].
  assert (l_format l = default_format) as Fm by (vm_compute in E; injection E as <- _; reflexivity). rewrite Fm.
  split; [vm_compute; reflexivity|]. split; [reflexivity|]. split; [discriminate|].
  split; [apply by_flag; reflexivity|]. split; [apply world_of_proper; vm_compute; reflexivity|]. split; [discriminate|]. split; [cbn; lia|].
  split; [apply C63_default; cbn; lia|]. split; [exact E|]. split; [vm_compute; reflexivity|]. cbv zeta.
  split; [vm_compute; reflexivity|]. split; [discriminate|]. split; [|vm_compute; reflexivity].
  constructor; [|constructor]. split; [vm_compute; reflexivity|]. split; exact I.
Qed.
Print Assumptions C113_refuted.
Example C113_case :
  let after n := Nat.iter n (fun w => later moving_world (o_world (main unset usual w))) moving_world in
  files (after 1%nat) j <> files moving_world j /\ files (after 2%nat) j = files (after 1%nat) j.
Proof. vm_compute. split; [discriminate|reflexivity]. Qed.
