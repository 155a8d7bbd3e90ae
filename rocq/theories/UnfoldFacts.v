(** Facts about the items of a journal and its files. *)
From Coq Require Import ZArith NArith List Bool String Lia.
From Verif Require Import Base Str Date World Entry Account Ledger SpecDate SpecLedger SpecInclude SpecUnfold
  StrFacts EntryFacts LineFacts EntryText EnvelopeFacts LedgerFacts LoadFacts IncludeFacts.
Import ListNotations.
Local Open Scope list_scope.

Scheme unfolds_ind2 := Induction for unfolds Sort Prop
with follows_ind2 := Induction for follows Sort Prop.
Combined Scheme unfolds_both from unfolds_ind2, follows_ind2.
Scheme meant_ind2 := Induction for meant Sort Prop
with meant_items_ind2 := Induction for meant_items Sort Prop.
Combined Scheme meant_both from meant_ind2, meant_items_ind2.

Definition at_dir (w : world) (d : path) : world := mkWorld (files w) (dirs w) d.
Lemma at_cwd w : at_dir w (cwd w) = w.
Proof. destruct w. reflexivity. Qed.
Definition nowhere_ : world := mkWorld (fun _ => None) (fun _ => false) [].
Definition item (today : date) (l : ledger) (c : str) : res ledger :=
  let! s := parse_chunk today (fun _ _ => Loop) (l, nowhere_) c in Ok (fst s).
Definition items (today : date) (xs : list str) (l : ledger) : res ledger := fold_res (item today) xs l.

Lemma chdir_exactly w d p t : proper w -> dirs w d = true -> file_path p -> files w (located d p) = Some t ->
  chdir_parent (at_dir w d) p = Ok (at_dir w (removelast (located d p))) /\ dirs w (removelast (located d p)) = true.
Proof.
  intros (P1 & P2 & P3 & P4) Dd Fp Ef. pose proof (P4 _ _ Ef) as Dp. split; [|exact Dp].
  unfold chdir_parent. unfold located, file_path in *.
  destruct (components p) as [|c cs] eqn:Ec.
  { exfalso. cbn [resolve_aux] in Ef. destruct (is_absolute p); rewrite P3 in Ef by assumption; discriminate. }
  rewrite resolve_parent in Dp |- * by (exact Fp || discriminate).
  cbv zeta. cbn [at_dir files dirs cwd]. rewrite Dp, andb_true_r. destruct (negb _) eqn:Eb; [reflexivity|].
  apply negb_false_iff, andb_true_iff in Eb as (Ea & Eb). apply negb_true_iff in Ea.
  rewrite Ea. destruct (removelast (c :: cs)); [reflexivity|discriminate].
Qed.
Lemma parse_item_chunk today inc l u c : split_ws c <> [] -> ~ keyword c "include" ->
  parse_chunk today inc (l, u) c = let! l' := item today l c in Ok (l', u).
Proof.
  intros N K. unfold item, parse_chunk, keyword in *. destruct (split_ws c) as [|k r]; [contradiction|]. cbn [hd_error fst] in *.
  destruct (str_eqb k (lit "account")); [unfold on_ledger; destruct (ledger_parse_account l c); reflexivity|].
  destruct (str_eqb k (lit "currency")); [unfold on_ledger; destruct (set_currency l _); reflexivity|].
  destruct (str_eqb k (lit "date_format")); [unfold on_ledger; destruct (set_date_format l _); reflexivity|].
  destruct (str_eqb k (lit "include")) eqn:E; [|unfold on_ledger; destruct (ledger_parse_entry today l c); reflexivity].
  apply str_eqb_eq in E. subst k. contradiction.
Qed.
Lemma parse_blank_chunk today inc s c : split_ws c = [] -> parse_chunk today inc s c = Ok s.
Proof. intro E. unfold parse_chunk. rewrite E. reflexivity. Qed.
Lemma parse_include_chunk today inc s c f : keyword c "include" -> value c = Some f -> parse_chunk today inc s c = inc f s.
Proof.
  unfold keyword, value, parse_chunk. destruct (split_ws c) as [|k r]; [discriminate|]. cbn [hd_error tl]. intros K V. injection K as ->.
  rewrite V. reflexivity.
Qed.
Lemma items_app today xs ys l : items today (xs ++ ys) l = let! l' := items today xs l in items today ys l'.
Proof. unfold items. rewrite fold_res_app. reflexivity. Qed.

Section Reading.
Variables (today : date) (w : world).
Hypothesis P : proper w.
Lemma unfolds_load :
  (forall d p d' xs, unfolds w d p d' xs -> dirs w d = true -> dirs w d' = true /\ exists n, forall fuel, (n <= fuel)%nat -> forall l,
     add_from_file fuel today p (l, at_dir w d) = let! l' := items today xs l in Ok (l', at_dir w d'))
  /\ (forall d cs d' xs, follows w d cs d' xs -> dirs w d = true -> dirs w d' = true /\ exists n, forall fuel, (n <= fuel)%nat -> forall l,
     fold_res (parse_chunk today (add_from_file fuel today)) cs (l, at_dir w d) = let! l' := items today xs l in Ok (l', at_dir w d')).
Proof.
  apply unfolds_both.
  - intros d p text cs d' xs Fp Ef C _ IH Dd. destruct (chdir_exactly w d p text P Dd Fp Ef) as [Ch D1].
    destruct (IH D1) as (D' & n & H). split; [exact D'|]. exists (S n). intros [|fuel] L l; [lia|].
    cbn [add_from_file snd fst]. unfold read_file. rewrite resolve_located. cbn [at_dir files cwd]. rewrite Ef. cbn [bind].
    change (mkWorld (files w) (dirs w) d) with (at_dir w d). rewrite Ch. cbn [bind].
    rewrite (add_from_str_chunks _ _ _ _ _ C). apply H. lia.
  - intros d Dd. split; [exact Dd|]. exists O. reflexivity.
  - intros d c cs d' xs B _ IH Dd. destruct (IH Dd) as (D' & n & H). split; [exact D'|]. exists n. intros fuel L l.
    cbn [fold_res]. rewrite parse_blank_chunk by exact B. cbn [bind]. apply H, L.
  - intros d c cs d' xs N K _ IH Dd. destruct (IH Dd) as (D' & n & H). split; [exact D'|]. exists n. intros fuel L l.
    cbn [fold_res]. rewrite parse_item_chunk by assumption. unfold items. cbn [fold_res]. destruct (item today l c); [|reflexivity..]. cbn [bind]. apply H, L.
  - intros d c f cs d1 d' xs ys K V _ IH1 _ IH2 Dd. destruct (IH1 Dd) as (D1 & n1 & H1). destruct (IH2 D1) as (D' & n2 & H2).
    split; [exact D'|]. exists (Nat.max n1 n2). intros fuel L l. cbn [fold_res].
    rewrite (parse_include_chunk _ _ _ _ _ K V), H1 by lia. rewrite items_app. destruct (items today xs l) as [l'| | |]; [|reflexivity..]. cbn [bind]. apply H2. lia.
Qed.
Lemma load_unfolds fuel : forall d p l l' u, file_path p -> dirs w d = true ->
  (forall q t g, files w q = Some t -> includes t g -> file_path g) ->
  add_from_file fuel today p (l, at_dir w d) = Ok (l', u) -> exists xs d', unfolds w d p d' xs /\ dirs w d' = true /\ u = at_dir w d'.
Proof.
  induction fuel as [|fuel IH]; intros d p l l' u Fp Dd Hf H; [discriminate|]. cbn [add_from_file snd fst] in H.
  unfold read_file in H. rewrite resolve_located in H. cbn [at_dir files cwd] in H.
  destruct (files w (located d p)) as [text|] eqn:Ef; [|discriminate]. cbn [bind] in H.
  change (mkWorld (files w) (dirs w) d) with (at_dir w d) in H. destruct (chdir_exactly w d p text P Dd Fp Ef) as [Ch D1].
  rewrite Ch in H. cbn [bind] in H. destruct (cut_up_total text) as (cs & C). rewrite (add_from_str_chunks _ _ _ _ _ C) in H.
  assert (K : exists xs d', follows w (removelast (located d p)) cs d' xs /\ dirs w d' = true /\ u = at_dir w d').
  { assert (Hi : forall c f, In c cs -> keyword c "include" -> value c = Some f -> file_path f).
    { intros c f I Kc V. apply (Hf _ _ f Ef). exists cs, c. auto. }
    clear C Ef Ch. revert D1 l H. generalize (removelast (located d p)) as e. clear Dd. induction cs as [|c cs IHc]; intros e De l H.
    - cbn in H. injection H as _ <-. exists [], e. split; [constructor|]. auto.
    - cbn [fold_res] in H. destruct (split_ws c) as [|k r] eqn:Es.
      + rewrite parse_blank_chunk in H by exact Es. cbn [bind] in H. destruct (IHc ltac:(intros; eapply Hi; [right|..]; eassumption) e De l H) as (xs & d' & F & D' & ->).
        exists xs, d'. split; [apply follows_blank; assumption|auto].
      + destruct (str_eqb k (lit "include")) eqn:Ek.
        * apply str_eqb_eq in Ek. subst k. assert (Kc : keyword c "include") by (unfold keyword; rewrite Es; reflexivity).
          destruct (value c) as [f|] eqn:V.
          2: { exfalso. unfold parse_chunk, value in *. rewrite Es in *. cbn [tl hd_error] in V. rewrite V in H. discriminate H. }
          rewrite (parse_include_chunk _ _ _ _ _ Kc V) in H. destruct (add_from_file fuel today f (l, at_dir w e)) as [[l1 u1]| | |] eqn:Ei; try discriminate.
          cbn [bind] in H. destruct (IH e f l l1 u1 (Hi c f (or_introl eq_refl) Kc V) De Hf Ei) as (xs & d1 & U & D1 & ->).
          destruct (IHc ltac:(intros; eapply Hi; [right|..]; eassumption) d1 D1 l1 H) as (ys & d' & F & D' & ->).
          exists (xs ++ ys), d'. split; [exact (follows_include w e c f cs d1 d' xs ys Kc V U F)|auto].
        * assert (Nk : ~ keyword c "include").
          { unfold keyword. rewrite Es. intro E. injection E as ->. rewrite str_eqb_refl in Ek. discriminate. }
          assert (Nb : split_ws c <> []) by (rewrite Es; discriminate).
          rewrite parse_item_chunk in H by assumption. destruct (item today l c) as [l1| | |]; try discriminate. cbn [bind] in H.
          destruct (IHc ltac:(intros; eapply Hi; [right|..]; eassumption) e De l1 H) as (xs & d' & F & D' & ->).
          exists (c :: xs), d'. split; [apply follows_item; assumption|auto]. }
  destruct K as (xs & d' & F & D' & Eu). exists xs, d'. split; [exact (unfolds_file w d p text cs d' xs Fp Ef C F)|auto].
Qed.
End Reading.

Lemma meant_load today w :
  (forall d p xs, meant w d p xs -> exists n, forall fuel, (n <= fuel)%nat -> forall l, load fuel today w d p l = items today xs l)
  /\ (forall d cs xs, meant_items w d cs xs -> exists n, forall fuel, (n <= fuel)%nat -> forall l u,
       fold_res (parse_chunk today (fun f s => let! l' := load fuel today w d f (fst s) in Ok (l', snd s))) cs (l, u)
       = let! l' := items today xs l in Ok (l', u)).
Proof.
  apply meant_both.
  - intros d p text cs xs Ef C _ (n & H). exists (S n). intros [|fuel] L l; [lia|]. cbn [load]. rewrite Ef.
    rewrite (add_from_str_chunks _ _ _ _ _ C), H by lia. destruct (items today xs l); reflexivity.
  - intro d. exists O. reflexivity.
  - intros d c cs xs B _ (n & H). exists n. intros fuel L l u. cbn [fold_res]. rewrite parse_blank_chunk by exact B. cbn [bind]. apply H, L.
  - intros d c cs xs N K _ (n & H). exists n. intros fuel L l u. cbn [fold_res]. rewrite parse_item_chunk by assumption.
    unfold items. cbn [fold_res]. destruct (item today l c); [|reflexivity..]. cbn [bind]. apply H, L.
  - intros d c f cs xs ys K V _ (n1 & H1) _ (n2 & H2). exists (Nat.max n1 n2). intros fuel L l u. cbn [fold_res].
    rewrite (parse_include_chunk _ _ _ _ _ K V), H1 by lia. cbn [fst snd]. rewrite items_app.
    destruct (items today xs l) as [l'| | |]; [|reflexivity..]. cbn [bind]. apply H2. lia.
Qed.

Lemma unfolds_unique w :
  (forall d p d1 xs, unfolds w d p d1 xs -> forall d2 ys, unfolds w d p d2 ys -> d1 = d2 /\ xs = ys)
  /\ (forall d cs d1 xs, follows w d cs d1 xs -> forall d2 ys, follows w d cs d2 ys -> d1 = d2 /\ xs = ys).
Proof.
  apply unfolds_both.
  - intros d p text cs d' xs Fp Ef C _ IH d2 ys U. inversion U as [? ? text' cs' ? ? _ Ef' C' F]; subst.
    rewrite Ef in Ef'. injection Ef' as <-. assert (cs' = cs) as -> by exact (chunks_unique _ _ _ _ C' C). exact (IH _ _ F).
  - intros d d2 ys F. inversion F; auto.
  - intros d c cs d' xs B _ IH d2 ys F. inversion F; subst; try contradiction; [eauto|].
    exfalso. unfold keyword in *. rewrite B in *. discriminate.
  - intros d c cs d' xs N K _ IH d2 ys F. inversion F; subst; try contradiction. edestruct IH as [-> ->]; [eassumption|]. auto.
  - intros d c f cs d1 d' xs ys K V _ IH1 _ IH2 d2 zs F. inversion F as [|? ? ? ? ? B|? ? ? ? ? N|? ? f' ? d1' ? xs' ys' K' V' U' F']; subst; try contradiction.
    + exfalso. unfold keyword in K. rewrite B in K. discriminate.
    + rewrite V in V'. injection V' as <-. destruct (IH1 _ _ U') as [<- <-]. destruct (IH2 _ _ F') as [<- <-]. auto.
Qed.
