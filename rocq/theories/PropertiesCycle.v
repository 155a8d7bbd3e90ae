(** Property C31: when loading does not end. *)
From Coq Require Import ZArith NArith List Bool String Lia.
From Verif Require Import Base Str Date World Entry Account Ledger SpecDate SpecLedger SpecInclude SpecUnfold
  StrFacts EntryFacts LedgerFacts LoadFacts IncludeFacts TermFacts UnfoldFacts EnvelopeFacts PropertiesLedger PropertiesUnfold.
Import ListNotations.
Local Open Scope list_scope.

Lemma calm_item today l c : (year today < max_year)%Z -> split_ws c <> [] -> ~ keyword c "include" -> calm (item today l c).
Proof.
  intros T N K. pose proof (calm_chunks today T (fun _ => True) (fun _ _ => Loop) [c] ltac:(auto)) as H.
  specialize (H ltac:(intros f s (c' & [<-|[]] & Kc & _); contradiction) ltac:(auto) (l, nowhere_) I).
  cbn [fold_res] in H. unfold item. destruct (parse_chunk _ _ _ c); [discriminate..|]. contradiction H. reflexivity.
Qed.

Section Nested.
Variables (today : date) (w : world).
Hypothesis T : (year today < max_year)%Z.
Hypothesis P : proper w.
Hypothesis Hf : forall q t g, files w q = Some t -> includes t g -> file_path g.
Lemma loop_nested n : forall d p l, file_path p -> dirs w d = true -> add_from_file n today p (l, at_dir w d) = Loop ->
  exists xs l', descends w n d p xs /\ items today xs l = Ok l'.
Proof.
  induction n as [|n IH]; intros d p l Fp Dd H; [exists [], l; split; [constructor|reflexivity]|]. cbn [add_from_file snd fst] in H.
  unfold read_file in H. rewrite resolve_located in H. cbn [at_dir files cwd] in H.
  destruct (files w (located d p)) as [text|] eqn:Ef; [|discriminate]. cbn [bind] in H.
  change (mkWorld (files w) (dirs w) d) with (at_dir w d) in H. destruct (chdir_exactly w d p text P Dd Fp Ef) as [Ch D1].
  rewrite Ch in H. cbn [bind] in H. destruct (cut_up_total text) as (cs & C). rewrite (add_from_str_chunks _ _ _ _ _ C) in H.
  assert (Hi : forall c f, In c cs -> keyword c "include" -> value c = Some f -> file_path f).
  { intros c f I Kc V. apply (Hf _ _ f Ef). exists cs, c. auto. }
  assert (K : exists cs1 c cs2 g d1 xs ys l', cs = cs1 ++ c :: cs2 /\ follows w (removelast (located d p)) cs1 d1 xs
    /\ keyword c "include" /\ value c = Some g /\ descends w n d1 g ys /\ items today (xs ++ ys) l = Ok l').
  { clear C Ef Ch. revert D1 l H. generalize (removelast (located d p)) as e. clear Dd.
    induction cs as [|c cs IHc]; intros e De l H; [discriminate|]. cbn [fold_res] in H.
    assert (Hi' : forall c f, In c cs -> keyword c "include" -> value c = Some f -> file_path f)
      by (intros; eapply Hi; [right|..]; eassumption).
    destruct (split_ws c) as [|k r] eqn:Es.
    - rewrite parse_blank_chunk in H by exact Es. cbn [bind] in H.
      destruct (IHc Hi' e De l H) as (cs1 & c1 & cs2 & g & d1 & xs & ys & l' & -> & F & R).
      exists (c :: cs1), c1, cs2, g, d1, xs, ys, l'. split; [reflexivity|]. split; [apply follows_blank; assumption|exact R].
    - destruct (str_eqb k (lit "include")) eqn:Ek.
      + apply str_eqb_eq in Ek. subst k. assert (Kc : keyword c "include") by (unfold keyword; rewrite Es; reflexivity).
        destruct (value c) as [f|] eqn:V.
        2: { exfalso. unfold parse_chunk, value in *. rewrite Es in *. cbn [tl hd_error] in V. rewrite V in H. discriminate H. }
        rewrite (parse_include_chunk _ _ _ _ _ Kc V) in H. pose proof (Hi c f (or_introl eq_refl) Kc V) as Ff.
        destruct (add_from_file n today f (l, at_dir w e)) as [[l1 u1]| | |] eqn:Ei; try discriminate; cbn [bind] in H.
        * destruct (load_unfolds today w P n e f l l1 u1 Ff De Hf Ei) as (xs & d1 & U & D1 & ->).
          assert (items today xs l = Ok l1) as Ex.
          { destruct (proj1 (unfolds_load today w P) _ _ _ _ U De) as (_ & m & G). specialize (G (Nat.max m n) ltac:(lia) l).
            rewrite (add_from_file_mono today n (Nat.max m n) f _ ltac:(lia)) in G by (rewrite Ei; discriminate). rewrite Ei in G.
            destruct (items today xs l); try discriminate. cbn [bind] in G. injection G as <-. reflexivity. }
          destruct (IHc Hi' d1 D1 l1 H) as (cs1 & c1 & cs2 & g & d2 & xs2 & ys & l' & -> & F & Kc1 & V1 & N & E).
          exists (c :: cs1), c1, cs2, g, d2, (xs ++ xs2), ys, l'. split; [reflexivity|].
          split; [exact (follows_include w e c f cs1 d1 d2 xs xs2 Kc V U F)|]. split; [exact Kc1|]. split; [exact V1|]. split; [exact N|].
          rewrite <- app_assoc, items_app, Ex. exact E.
        * destruct (IH e f l Ff De Ei) as (ys & l' & N & E).
          exists [], c, cs, f, e, [], ys, l'. split; [reflexivity|]. split; [constructor|]. auto.
      + assert (Nk : ~ keyword c "include").
        { unfold keyword. rewrite Es. intro E. injection E as ->. rewrite str_eqb_refl in Ek. discriminate. }
        assert (Nb : split_ws c <> []) by (rewrite Es; discriminate).
        rewrite parse_item_chunk in H by assumption. pose proof (calm_item today l c T Nb Nk) as Ca.
        destruct (item today l c) as [l1| | |] eqn:Ei; try discriminate; [|contradiction Ca; reflexivity]. cbn [bind] in H.
        destruct (IHc Hi' e De l1 H) as (cs1 & c1 & cs2 & g & d1 & xs & ys & l' & -> & F & Kc1 & V1 & N & E).
        exists (c :: cs1), c1, cs2, g, d1, (c :: xs), ys, l'. split; [reflexivity|]. split; [apply follows_item; assumption|].
        split; [exact Kc1|]. split; [exact V1|]. split; [exact N|]. cbn [app]. unfold items. cbn [fold_res]. rewrite Ei. exact E. }
  destruct K as (cs1 & c & cs2 & g & d1 & xs & ys & l' & -> & F & Kc & V & N & E).
  exists (xs ++ ys), l'. split; [exact (descends_in w n d p text cs1 c cs2 d1 g xs ys Ef C F Kc V N)|exact E].
Qed.

(** Less fuel gives the same result or none. *)
Lemma chunks_less k n cs : (k <= n)%nat -> forall s, fold_res (parse_chunk today (add_from_file k today)) cs s = Loop
  \/ fold_res (parse_chunk today (add_from_file k today)) cs s = fold_res (parse_chunk today (add_from_file n today)) cs s.
Proof.
  intro L. induction cs as [|c cs IHc]; intro s; cbn [fold_res]; [auto|].
  assert (E : parse_chunk today (add_from_file k today) s c = Loop
    \/ parse_chunk today (add_from_file k today) s c = parse_chunk today (add_from_file n today) s c).
  { unfold parse_chunk. destruct (split_ws c) as [|x r]; [auto|]. repeat (destruct (str_eqb x _); [|]); auto.
    destruct (hd_error r) as [f|]; [|auto]. destruct (add_from_file k today f s) eqn:E; [right|right|right|left; reflexivity];
      rewrite (add_from_file_mono today k n f s L); congruence. }
  destruct E as [E|E]; rewrite E; [left; reflexivity|]. destruct (parse_chunk today (add_from_file n today) s c); cbn [bind]; auto.
Qed.
Lemma nested_loop n d p xs : descends w n d p xs -> forall l l', file_path p -> dirs w d = true -> items today xs l = Ok l' ->
  add_from_file n today p (l, at_dir w d) = Loop.
Proof.
  induction 1 as [|n d p text cs1 c cs2 d1 g xs ys Ef C F Kc V N IH]; intros l l' Fp Dd E; [reflexivity|]. cbn [add_from_file snd fst].
  unfold read_file. rewrite resolve_located. cbn [at_dir files cwd]. rewrite Ef. cbn [bind].
  change (mkWorld (files w) (dirs w) d) with (at_dir w d). destruct (chdir_exactly w d p text P Dd Fp Ef) as [Ch D1].
  rewrite Ch. cbn [bind]. rewrite (add_from_str_chunks _ _ _ _ _ C), fold_res_app.
  rewrite items_app in E. destruct (items today xs l) as [l1| | |] eqn:E1; try discriminate. cbn [bind] in E.
  destruct (proj2 (unfolds_load today w P) _ _ _ _ F D1) as (D2 & m & G). specialize (G (Nat.max m n) ltac:(lia) l). rewrite E1 in G. cbn [bind] in G.
  destruct (chunks_less n (Nat.max m n) cs1 ltac:(lia) (l, at_dir w (removelast (located d p)))) as [L|L]; rewrite L; [reflexivity|].
  rewrite G. cbn [bind fold_res]. rewrite (parse_include_chunk _ _ _ _ _ Kc V).
  rewrite (IH l1 l'); [reflexivity| |exact D2|exact E]. apply (Hf _ _ g Ef). exists (cs1 ++ c :: cs2), c.
  split; [exact C|]. split; [apply in_or_app; right; left; reflexivity|auto].
Qed.
End Nested.

(** Loading goes on for ever if and only if files are opened one inside another
    without end, and what stands before the includes is accepted. *)
Theorem C31_exact : forall today w p, (year today < max_year)%Z -> proper w -> file_path p ->
  (forall q t g, files w q = Some t -> includes t g -> file_path g) ->
  (forall fuel, from_file fuel today p w = Loop)
  <-> (forall n, exists xs l, descends w n (cwd w) p xs /\ items today xs (new_ledger p) = Ok l).
Proof.
  intros today w p T P Fp Hf. unfold from_file. split.
  - intros H n. apply (loop_nested today w T P Hf n); [exact Fp|exact (proj1 (proj2 P))|]. rewrite at_cwd. exact (H n).
  - intros H n. rewrite <- (at_cwd w). destruct (H n) as (xs & l & N & E). exact (nested_loop today w P Hf n _ _ _ N _ l Fp (proj1 (proj2 P)) E).
Qed.
Print Assumptions C31_exact.

(** A journal that includes itself below a definition, and one with an error
    above the include, which is reported. *)
Example C31_exact_case :
  let w := world_of [([lit "j"], text ["account a"; "include j"]%string)] [[]] [] in
  let v := world_of [([lit "j"], text ["2024/01/01 * x"; " b 1"; " c"; "include j"]%string)] [[]] [] in
  descends w 2 [] (lit "j") [lit "account a"; lit "account a"]
  /\ from_file 50 today (lit "j") w = Loop
  /\ from_file 50 today (lit "j") v = Err (EValidation (UndefinedAccount (lit "b"))).
Proof.
  cbv zeta. split; [|vm_compute; auto].
  assert (forall n xs, descends (world_of [([lit "j"], text ["account a"; "include j"]%string)] [[]] []) n [] (lit "j") xs ->
    descends (world_of [([lit "j"], text ["account a"; "include j"]%string)] [[]] []) (S n) [] (lit "j") ([lit "account a"] ++ xs)) as S.
  { intros n xs D. apply (descends_in _ n [] (lit "j") (text ["account a"; "include j"]%string) [[]; lit "account a"] (lit "include j") [] [] (lit "j") [lit "account a"] xs).
    - vm_compute. reflexivity.
    - unfold cut_up. remember (contents _) as ls eqn:E. vm_compute in E. subst ls.
      repeat first [apply chunks_nil|apply chunks_new; [intros (c & r & Q & B); injection Q as <- _; discriminate|]].
    - apply follows_blank; [reflexivity|]. apply follows_item; [discriminate|discriminate|constructor].
    - reflexivity.
    - reflexivity.
    - exact D. }
  apply (S 1%nat [lit "account a"]), (S O []), descends_end.
Qed.
