(** Facts about includes, paths and the journal file. *)
From Coq Require Import ZArith NArith List Bool String Permutation Lia.
From Verif Require Import Base Str F64 Date World Amount Posting Entry Envelope Account Register Ledger
  SpecAmount SpecDate SpecEntry SpecEnvelope SpecLedger StrFacts DateFacts AmountFacts LineFacts
  PostingFacts EntryFacts EnvelopeFacts AccountFacts LedgerFacts LoadFacts.
Import ListNotations.
Local Open Scope Z_scope.
Opaque dayn.

(** ** The world during loading *)
Lemma same_disk_refl w : same_disk w w.
Proof. split; reflexivity. Qed.
Lemma same_disk_trans u v w : same_disk u v -> same_disk v w -> same_disk u w.
Proof. intros (F & D) (F' & D'). split; intro p; [rewrite F'; apply F|rewrite D'; apply D]. Qed.
Lemma chdir_disk w p w' : chdir_parent w p = Ok w' -> same_disk w w'.
Proof.
  unfold chdir_parent. destruct (components p); [discriminate|].
  destruct (_ && _); intro H; injection H as <-; apply same_disk_refl || (split; reflexivity).
Qed.

(** A fold over chunks preserves what the includes preserve. *)
Lemma chunks_invariant (J : lw -> Prop) today inc cs : 
  (forall s s', J s -> snd s' = snd s -> J s') ->
  (forall f s s', (exists c, In c cs /\ keyword c "include" /\ value c = Some f) ->
     J s -> inc f s = Ok s' -> J s') ->
  forall s s', fold_res (parse_chunk today inc) cs s = Ok s' -> J s -> J s'.
Proof.
  intro JS. induction cs as [|c cs IH]; intros JI s s' H J0.
  - injection H as <-. exact J0.
  - cbn [fold_res] in H. apply bind_Ok in H as (s1 & H1 & H).
    apply (IH) with s1; [|exact H|].
    { intros f a b (c' & I & K) Ja E. apply (JI f a b); auto. exists c'. split; [right; exact I|exact K]. }
    unfold parse_chunk in H1. destruct (split_ws c) as [|kw rest] eqn:E; [injection H1 as <-; exact J0|].
    unfold on_ledger in H1.
    destruct (str_eqb kw (lit "account")).
    { apply bind_Ok in H1 as (l' & _ & Q). injection Q as <-. apply (JS s); auto. }
    destruct (str_eqb kw (lit "currency")).
    { apply bind_Ok in H1 as (l' & _ & Q). injection Q as <-. apply (JS s); auto. }
    destruct (str_eqb kw (lit "date_format")).
    { apply bind_Ok in H1 as (l' & _ & Q). injection Q as <-. apply (JS s); auto. }
    destruct (str_eqb_spec kw (lit "include")) as [->|N].
    { destruct (hd_error rest) as [f|] eqn:Ef; [|discriminate].
      apply (JI f s s1); auto. exists c. split; [left; reflexivity|].
      unfold keyword, value. rewrite E. auto. }
    apply bind_Ok in H1 as (l' & _ & Q). injection Q as <-. apply (JS s); auto.
Qed.
Lemma load_disk today fuel : forall p s s', add_from_file fuel today p s = Ok s' ->
  same_disk (snd s) (snd s').
Proof.
  induction fuel as [|k IH]; intros p s s' H; [discriminate|].
  cbn [add_from_file] in H. apply bind_Ok in H as (t & _ & H). apply bind_Ok in H as (w & Hw & H).
  destruct (cut_up_total t) as (cs & C). rewrite (add_from_str_chunks _ _ _ _ _ C) in H.
  apply (chunks_invariant (fun s1 => same_disk (snd s) (snd s1)) _ _ _) in H.
  - exact H.
  - intros a b Ja E. rewrite E. exact Ja.
  - intros f a b _ Ja E. eapply same_disk_trans; [exact Ja|]. eapply IH; eauto.
  - cbn [snd]. eapply chdir_disk; eauto.
Qed.
Lemma load_path today fuel p s s' : add_from_file fuel today p s = Ok s' ->
  l_path (fst s') = l_path (fst s).
Proof.
  intro H. apply (load_invariant (fun l => l_path l = l_path (fst s)) today) in H; [exact H|..]; auto.
  - intros l c l' J E. unfold ledger_parse_account in E. apply bind_Ok in E as (a & _ & E).
    injection E as <-. exact J.
  - intros l v l' J E. destruct v; [|discriminate]. injection E as <-. exact J.
  - intros l v l' J E. destruct v; [|discriminate]. injection E as <-. exact J.
  - intros l e l' J E. rewrite add_entry_accounts_eq in E. apply bind_Ok in E as (a & _ & E).
    injection E as <-. exact J.
Qed.

(** ** Fuel *)
Definition refines (inc inc' : str -> lw -> res lw) : Prop :=
  forall f s, inc f s <> Loop -> inc' f s = inc f s.
Lemma chunks_refine today inc inc' cs : refines inc inc' -> forall s,
  fold_res (parse_chunk today inc) cs s <> Loop ->
  fold_res (parse_chunk today inc') cs s = fold_res (parse_chunk today inc) cs s.
Proof.
  intro Rf. induction cs as [|c cs IH]; intros s H; [reflexivity|]. cbn [fold_res] in *.
  assert (parse_chunk today inc s c <> Loop) as Hc by (intro E; apply H; rewrite E; reflexivity).
  assert (parse_chunk today inc' s c = parse_chunk today inc s c) as ->.
  { unfold parse_chunk in *. destruct (split_ws c) as [|kw rest]; [reflexivity|].
    destruct (str_eqb kw (lit "account")); [reflexivity|].
    destruct (str_eqb kw (lit "currency")); [reflexivity|].
    destruct (str_eqb kw (lit "date_format")); [reflexivity|].
    destruct (str_eqb kw (lit "include")); [|reflexivity].
    destruct (hd_error rest); [apply Rf, Hc|reflexivity]. }
  destruct (parse_chunk today inc s c); cbn [bind] in *; try reflexivity. apply IH, H.
Qed.
Lemma add_from_file_more today k : refines (add_from_file k today) (add_from_file (S k) today).
Proof.
  induction k as [|k IH]; intros f s H; [contradiction|].
  assert (forall n, add_from_file (S n) today f s =
    let! text := read_file (snd s) f in let! w := chdir_parent (snd s) f in
    add_from_str today (add_from_file n today) text (fst s, w)) as U by reflexivity.
  rewrite U in H. rewrite (U (S k)), (U k).
  destruct (read_file (snd s) f) as [t| | |]; cbn [bind] in *; try reflexivity.
  destruct (chdir_parent (snd s) f) as [w| | |]; cbn [bind] in *; try reflexivity.
  destruct (cut_up_total t) as (cs & C). rewrite (add_from_str_chunks today (add_from_file k today) _ _ _ C) in *.
  rewrite (add_from_str_chunks today (add_from_file (S k) today) _ _ _ C). apply chunks_refine; assumption.
Qed.
Lemma add_from_file_mono today k n p s : (k <= n)%nat -> add_from_file k today p s <> Loop ->
  add_from_file n today p s = add_from_file k today p s.
Proof.
  induction 1 as [|n L IH]; intro H; [reflexivity|].
  rewrite add_from_file_more; [auto|]. rewrite IH; assumption.
Qed.

(** ** Cycles *)
Lemma fold_stuck {A S} (f : S -> A -> res S) l1 a l2 s s' :
  (forall s1, fold_res f l1 s = Ok s1 -> forall s2, f s1 a <> Ok s2) ->
  fold_res f (l1 ++ a :: l2) s <> Ok s'.
Proof.
  intros H E. rewrite fold_res_app in E. apply bind_Ok in E as (s1 & E1 & E).
  cbn [fold_res] in E. apply bind_Ok in E as (s2 & E2 & _). exact (H s1 E1 s2 E2).
Qed.
Lemma cycle_never today w (C : str -> Prop) :
  (forall p, C p -> is_absolute p = true /\ exists text q, files w (located [] p) = Some text
             /\ includes text q /\ C q) ->
  forall fuel p s s', C p -> same_disk w (snd s) -> add_from_file fuel today p s <> Ok s'.
Proof.
  intro H. induction fuel as [|k IH]; intros p s s' Cp Sd E; [discriminate|].
  destruct (H p Cp) as (Ab & text & q & Ft & (cs & c & Cu & Ic & Kc & Vc) & Cq).
  cbn [add_from_file] in E. apply bind_Ok in E as (t & Ht & E). apply bind_Ok in E as (w1 & Hw & E).
  assert (t = text) as ->.
  { unfold read_file, resolve in Ht. rewrite Ab in Ht. unfold located in Ft. rewrite Ab in Ft.
    rewrite (proj1 Sd), Ft in Ht. congruence. }
  rewrite (add_from_str_chunks _ _ _ _ _ Cu) in E.
  apply in_split in Ic as (cs1 & cs2 & ->). revert E. apply fold_stuck.
  intros s1 E1 s2 E2. unfold keyword, value in *. unfold parse_chunk in E2.
  destruct (split_ws c) as [|kw rest]; [discriminate|]. cbn [hd_error tl] in *.
  injection Kc as ->. rewrite Vc in E2. cbn in E2.
  apply (IH q s1 s2 Cq); [|exact E2].
  apply (chunks_invariant (fun s1 => same_disk w (snd s1))) in E1; auto.
  - intros a b Ja Eb. rewrite Eb. exact Ja.
  - intros f a b _ Ja Eb. eapply same_disk_trans; [exact Ja|]. eapply load_disk; eauto.
  - cbn [snd]. eapply same_disk_trans; [exact Sd|]. eapply chdir_disk; eauto.
Qed.

(** ** Paths *)
Lemma resolve_aux_app base a b : resolve_aux base (a ++ b) = resolve_aux (resolve_aux base a) b.
Proof.
  revert base. induction a as [|c a IH]; intro base; [reflexivity|]. cbn [app resolve_aux].
  destruct (str_eqb c (lit "..")); apply IH.
Qed.
Lemma resolve_located w p : resolve w p = located (cwd w) p.
Proof. reflexivity. Qed.
Lemma located_absolute d d' p : is_absolute p = true -> located d p = located d' p.
Proof. unfold located. intros ->. reflexivity. Qed.
Lemma proper_same w w' : same_disk w w' -> dirs w (cwd w') = true -> proper w -> proper w'.
Proof.
  intros (F & D) H (P1 & P2 & P3 & P4). unfold proper. rewrite !D. split; [exact P1|]. split; [exact H|].
  split; intros p; [rewrite D, F; auto|intros t; rewrite D, F; apply P4].
Qed.

Lemma resolve_parent (base : path) (cs : list str) : cs <> [] -> List.last cs [] <> lit ".." ->
  @removelast str (resolve_aux base cs) = resolve_aux base (@removelast str cs).
Proof.
  intros N L. rewrite (app_removelast_last [] N) at 1. rewrite resolve_aux_app. cbn [resolve_aux].
  match goal with |- context [str_eqb ?a ?b] => destruct (str_eqb_spec a b) as [E|_] end.
  - destruct L. exact E.
  - apply removelast_last.
Qed.
Lemma chdir_parent_proper w p t : proper w -> file_path p -> read_file w p = Ok t ->
  exists w', chdir_parent w p = Ok w' /\ same_disk w w'
  /\ cwd w' = removelast (located (cwd w) p) /\ proper w'.
Proof.
  intros (P1 & P2 & P3 & P4) Fp Rd. unfold read_file in Rd. rewrite resolve_located in Rd.
  destruct (files w (located (cwd w) p)) as [t'|] eqn:Ef; [|discriminate].
  pose proof (P4 _ _ Ef) as Dd.
  assert (exists w', chdir_parent w p = Ok w' /\ same_disk w w'
          /\ cwd w' = removelast (located (cwd w) p)) as (w' & H1 & H2 & H3).
  { unfold chdir_parent. unfold located, file_path in *.
    destruct (components p) as [|c cs] eqn:Ec.
    { exfalso. cbn [resolve_aux] in Ef.
      destruct (is_absolute p); rewrite P3 in Ef by assumption; discriminate. }
    rewrite resolve_parent in Dd |- * by (exact Fp || discriminate).
    cbv zeta. rewrite Dd, andb_true_r.
    destruct (negb _) eqn:Eb.
    - eexists. split; [reflexivity|]. split; [split; reflexivity|reflexivity].
    - exists w. split; [reflexivity|]. split; [apply same_disk_refl|].
      apply negb_false_iff, andb_true_iff in Eb as (Ea & Eb). apply negb_true_iff in Ea.
      rewrite Ea. destruct (removelast (c :: cs)); [reflexivity|discriminate]. }
  exists w'. split; [exact H1|]. split; [exact H2|]. split; [exact H3|].
  apply (proper_same w); [exact H2|rewrite H3; exact Dd|]. unfold proper. auto.
Qed.

(** ** The reference loader *)
Definition drop (r : res lw) : res ledger := let! s := r in Ok (fst s).

(** [inc] and [inc'] agree on the included files of a text, as long as [J]
    holds of the world. *)
Lemma chunks_agree (J : world -> Prop) today inc inc' cs :
  (forall f l w w0, (exists c, In c cs /\ keyword c "include" /\ value c = Some f) -> J w ->
     drop (inc f (l, w)) = drop (inc' f (l, w0))
     /\ forall s', inc f (l, w) = Ok s' -> J (snd s')) ->
  forall l w w0, J w ->
  drop (fold_res (parse_chunk today inc) cs (l, w)) = drop (fold_res (parse_chunk today inc') cs (l, w0))
  /\ forall s', fold_res (parse_chunk today inc) cs (l, w) = Ok s' -> J (snd s').
Proof.
  induction cs as [|c cs IH]; intros HI l w w0 Jw.
  - split; [reflexivity|]. intros s' E. injection E as <-. exact Jw.
  - cbn [fold_res].
    assert (drop (parse_chunk today inc (l, w) c) = drop (parse_chunk today inc' (l, w0) c)
            /\ forall s', parse_chunk today inc (l, w) c = Ok s' -> J (snd s')) as (Hc & Jc).
    { unfold parse_chunk. destruct (split_ws c) as [|kw rest] eqn:E.
      { split; [reflexivity|]. intros s' Q. injection Q as <-. exact Jw. }
      cbn [fst].
      assert (forall r : res ledger, drop (on_ledger (l, w) r) = drop (on_ledger (l, w0) r)
              /\ forall s', on_ledger (l, w) r = Ok s' -> J (snd s')) as OL.
      { intros r. unfold on_ledger, drop. destruct r as [x| | |]; (split; [reflexivity|]); intros s' Q;
          try discriminate. cbn [bind] in Q. injection Q as <-. exact Jw. }
      destruct (str_eqb kw (lit "account")); [apply OL|].
      destruct (str_eqb kw (lit "currency")); [apply OL|].
      destruct (str_eqb kw (lit "date_format")); [apply OL|].
      destruct (str_eqb_spec kw (lit "include")) as [->|N]; [|apply OL].
      destruct (hd_error rest) as [f|] eqn:Ef.
      - apply HI; [|exact Jw]. exists c. split; [left; reflexivity|].
        unfold keyword, value. rewrite E. auto.
      - split; [reflexivity|]. discriminate. }
    assert (forall f l w w0, (exists c, In c cs /\ keyword c "include" /\ value c = Some f) -> J w ->
     drop (inc f (l, w)) = drop (inc' f (l, w0))
     /\ forall s', inc f (l, w) = Ok s' -> J (snd s')) as HI'.
    { intros f l1 w1 w2 (c' & I & K). apply HI. exists c'. split; [right; exact I|exact K]. }
    destruct (parse_chunk today inc (l, w) c) as [[l1 w1]| | |] eqn:E1;
    destruct (parse_chunk today inc' (l, w0) c) as [[l2 w2]| | |] eqn:E2;
      cbn in Hc; try discriminate; cbn [bind].
    + injection Hc as ->. apply IH; [exact HI'|]. apply (Jc _ eq_refl).
    + split; [exact Hc|discriminate].
    + split; [reflexivity|discriminate].
    + split; [reflexivity|discriminate].
Qed.

Section Reference.
Variables (today : date) (w : world).
Hypothesis Proper : proper w.
Hypothesis Paths : forall p text f, files w p = Some text -> includes text f -> file_path f.

(** A world that differs in the current directory only, which exists. *)
Definition moved_world (w' : world) : Prop := same_disk w w' /\ dirs w (cwd w') = true.
Lemma moved_proper w' : moved_world w' -> proper w'.
Proof. intros (S & D). apply (proper_same w); assumption. Qed.

Lemma drop_bind (r : res lw) : (let! s := r in Ok (fst s)) = drop r.
Proof. reflexivity. Qed.

Lemma absolute_agree :
  (forall p text f, files w p = Some text -> includes text f -> is_absolute f = true) ->
  forall fuel p l w', file_path p -> moved_world w' ->
  drop (add_from_file fuel today p (l, w')) = load fuel today w (cwd w') p l
  /\ forall s', add_from_file fuel today p (l, w') = Ok s' -> moved_world (snd s').
Proof.
  intros Abs. induction fuel as [|k IH]; intros p l w' Fp Mw; [split; [reflexivity|discriminate]|].
  cbn [add_from_file load snd fst].
  unfold read_file at 1 2. rewrite resolve_located. rewrite (proj1 (proj1 Mw)).
  destruct (files w (located (cwd w') p)) as [t|] eqn:Ef; [|split; [reflexivity|discriminate]].
  cbn [bind].
  destruct (chdir_parent_proper w' p t) as (w1 & E1 & S1 & C1 & P1); [apply moved_proper, Mw|exact Fp| |].
  { unfold read_file. rewrite resolve_located, (proj1 (proj1 Mw)), Ef. reflexivity. }
  rewrite E1. cbn [bind]. destruct (cut_up_total t) as (cs & C).
  rewrite !(add_from_str_chunks _ _ _ _ _ C), drop_bind.
  apply (chunks_agree moved_world).
  - intros f l1 u u0 Hc Mu.
    assert (includes t f) as It by (destruct Hc as (c & Ic & K); exists cs, c; auto).
    cbn [fst snd]. destruct (IH f l1 u (Paths _ _ _ Ef It) Mu) as (Ea & Eb). split; [|exact Eb].
    rewrite Ea. unfold drop at 1.
    assert (load k today w (cwd u) f l1 = load k today w (removelast (located (cwd w') p)) f l1) as ->.
    { destruct k; [reflexivity|]. cbn [load].
      rewrite (located_absolute (cwd u) (removelast (located (cwd w') p)) f (Abs _ _ _ Ef It)). reflexivity. }
    destruct (load k today w (removelast (located (cwd w') p)) f l1); reflexivity.
  - split; [eapply same_disk_trans; [apply Mw|exact S1]|].
    rewrite C1. destruct Proper as (_ & _ & _ & P4). eapply P4; eauto.
Qed.

Lemma beside_agree :
  (forall p text f, files w p = Some text -> includes text f ->
     removelast (located (removelast p) f) = removelast p) ->
  forall fuel p l w', file_path p -> moved_world w' ->
  drop (add_from_file fuel today p (l, w')) = load fuel today w (cwd w') p l
  /\ forall s', add_from_file fuel today p (l, w') = Ok s' ->
       moved_world (snd s') /\ cwd (snd s') = removelast (located (cwd w') p).
Proof.
  intros Bes. induction fuel as [|k IH]; intros p l w' Fp Mw; [split; [reflexivity|discriminate]|].
  cbn [add_from_file load snd fst].
  unfold read_file at 1 2. rewrite resolve_located. rewrite (proj1 (proj1 Mw)).
  destruct (files w (located (cwd w') p)) as [t|] eqn:Ef; [|split; [reflexivity|discriminate]].
  cbn [bind].
  destruct (chdir_parent_proper w' p t) as (w1 & E1 & S1 & C1 & P1); [apply moved_proper, Mw|exact Fp| |].
  { unfold read_file. rewrite resolve_located, (proj1 (proj1 Mw)), Ef. reflexivity. }
  rewrite E1. cbn [bind]. destruct (cut_up_total t) as (cs & C).
  rewrite !(add_from_str_chunks _ _ _ _ _ C), drop_bind.
  apply (chunks_agree (fun u => moved_world u /\ cwd u = removelast (located (cwd w') p))).
  - intros f l1 u u0 Hc (Mu & Cu).
    assert (includes t f) as It by (destruct Hc as (c & Ic & K); exists cs, c; auto).
    cbn [fst snd]. destruct (IH f l1 u (Paths _ _ _ Ef It) Mu) as (Ea & Eb). split.
    + rewrite Ea, Cu. unfold drop.
      destruct (load k today w (removelast (located (cwd w') p)) f l1); reflexivity.
    + intros s' E. destruct (Eb s' E) as (M' & C'). split; [exact M'|].
      rewrite C', Cu. exact (Bes _ _ _ Ef It).
  - split; [|exact C1]. split; [eapply same_disk_trans; [apply Mw|exact S1]|].
    rewrite C1. destruct Proper as (_ & _ & _ & P4). eapply P4; eauto.
Qed.
End Reference.

(** ** Appending *)
Lemma path_eqb_eq p q : path_eqb p q = true <-> p = q.
Proof.
  revert q. induction p as [|a p IH]; intros [|b q]; cbn [path_eqb]; try easy.
  rewrite andb_true_iff, str_eqb_eq, IH. split.
  - intros [-> ->]. reflexivity.
  - intro H. injection H as -> ->. auto.
Qed.
Lemma append_file_spec w s t : 
  match files w (resolve w s) with
  | None => append_file w s t = Err (EFile s)
  | Some old => exists w', append_file w s t = Ok w' /\ cwd w' = cwd w /\ (forall q, dirs w' q = dirs w q)
      /\ files w' (resolve w s) = Some (old ++ t)
      /\ forall q, q <> resolve w s -> files w' q = files w q
  end.
Proof.
  unfold append_file. destruct (files w (resolve w s)) as [old|]; [|reflexivity].
  eexists. split; [reflexivity|]. cbn [files dirs cwd]. split; [reflexivity|]. split; [reflexivity|].
  assert (path_eqb (resolve w s) (resolve w s) = true) as -> by (apply path_eqb_eq; reflexivity).
  split; [reflexivity|]. intros q N. destruct (path_eqb q (resolve w s)) eqn:E; [|reflexivity].
  apply path_eqb_eq in E. contradiction.
Qed.
