(** Property C101: a journal in several files. *)
From Coq Require Import ZArith NArith List Bool String Lia.
From Verif Require Import Base Str Date World Entry Account Ledger SpecDate SpecLedger SpecInclude
  StrFacts EntryFacts LineFacts EntryText EnvelopeFacts LedgerFacts LoadFacts IncludeFacts PropertiesLedger.
Import ListNotations.
Local Open Scope list_scope.

Lemma chunks_app cur A cs B cs' : chunks cur A cs -> match B with l :: _ => ~ indented l | [] => True end -> chunks [] B cs' ->
  exists rest, cs' = [] :: rest /\ chunks cur (A ++ B) (cs ++ rest).
Proof.
  intros C F D. destruct B as [|l B].
  - inversion D; subst. exists []. rewrite !app_nil_r. split; [reflexivity|exact C].
  - inversion D as [|? ? ? cs1 N D1|? ? ? ? I]; subst; [|contradiction]. exists cs1. split; [reflexivity|].
    induction C as [cur|cur m ls cs H C IH|cur m ls cs H C IH]; cbn [app].
    + apply chunks_new; assumption.
    + apply chunks_new; assumption.
    + apply chunks_more; assumption.
Qed.
Lemma cut_above t1 cs t2 cs' : cut_up t1 cs -> flush t2 -> cut_up t2 cs' -> exists rest, cs' = [] :: rest /\ cut_up (above t1 t2) (cs ++ rest).
Proof. intros C F D. unfold cut_up, above. rewrite contents_lines_app. apply chunks_app; assumption. Qed.

(** A journal can be cut in two before any line that is not indented. *)
Theorem C101_parts : forall today inc t1 t2 s, flush t2 ->
  add_from_str today inc (above t1 t2) s
  = let! s1 := add_from_str today inc t1 s in add_from_str today inc t2 s1.
Proof.
  intros today inc t1 t2 s F. destruct (cut_up_total t1) as (cs & C). destruct (cut_up_total t2) as (cs' & D).
  destruct (cut_above _ _ _ _ C F D) as (rest & -> & E).
  rewrite (add_from_str_chunks today inc _ s (cs ++ rest) E).
  rewrite (add_from_str_chunks today inc _ s cs C), fold_res_app.
  destruct (fold_res _ cs s) as [s1| | |]; [|reflexivity..]. cbn [bind].
  rewrite (add_from_str_chunks today inc _ s1 _ D). reflexivity.
Qed.
Print Assumptions C101_parts.

Lemma includes_above t1 t2 g : flush t2 -> (includes (above t1 t2) g <-> includes t1 g \/ includes t2 g).
Proof.
  intro F. destruct (cut_up_total t1) as (cs & C). destruct (cut_up_total t2) as (cs' & D).
  destruct (cut_above _ _ _ _ C F D) as (rest & -> & E). split.
  - intros (xs & c & X & I & K). assert (xs = cs ++ rest) as -> by exact (chunks_unique _ _ _ _ X E).
    apply in_app_or in I as [I|I]; [left; exists cs, c; auto|right; exists ([] :: rest), c].
    split; [exact D|]. split; [right; exact I|exact K].
  - intros [(xs & c & X & I & K)|(xs & c & X & I & K)].
    + assert (xs = cs) as -> by exact (chunks_unique _ _ _ _ X C). exists (cs ++ rest), c. split; [exact E|].
      split; [apply in_or_app; left; exact I|exact K].
    + assert (xs = [] :: rest) as -> by exact (chunks_unique _ _ _ _ X D). exists (cs ++ rest), c. split; [exact E|].
      destruct I as [<-|I]; [destruct K; discriminate|]. split; [apply in_or_app; right; exact I|exact K].
Qed.
Lemma line_contents line f : include_line line f -> contents (lines line) = [content line].
Proof.
  intros (N & _ & K & _). destruct line as [|c r]; [discriminate|]. rewrite lines_one; [|exact N|discriminate].
  unfold contents. cbn [map filter]. destruct (content (c :: r)); [discriminate|reflexivity].
Qed.
Lemma line_flush line f t : include_line line f -> flush (above line t).
Proof. intro H. unfold flush, above. rewrite contents_lines_app, (line_contents line f H). apply H. Qed.
Lemma line_cut line f : include_line line f -> cut_up line [[]; content line].
Proof.
  intro H. unfold cut_up. rewrite (line_contents line f H). apply chunks_new; [apply H|]. apply chunks_nil.
Qed.
Lemma line_includes line f : include_line line f -> includes line f.
Proof. intro H. exists [[]; content line], (content line). split; [exact (line_cut _ _ H)|]. split; [right; left; reflexivity|]. destruct H as (_ & _ & K & V). auto. Qed.
Lemma line_loads today inc line f s : include_line line f -> add_from_str today inc line s = inc f s.
Proof.
  intro H. rewrite (add_from_str_chunks today inc _ s _ (line_cut _ _ H)). cbn [fold_res].
  change (parse_chunk today inc s []) with (@Ok lw s). cbn [bind]. destruct H as (_ & _ & K & V).
  unfold parse_chunk, keyword, value in *. destruct (split_ws (content line)) as [|k r]; [discriminate|].
  cbn [hd_error tl] in K, V. injection K as ->. rewrite V. cbn. destruct (inc f s); reflexivity.
Qed.

(** The text of a file for the line that includes it. *)
Lemma insert today inc t1 line f T t2 s : include_line line f -> flush T -> flush t2 ->
  (forall s1, add_from_str today inc t1 s = Ok s1 -> inc f s1 <> Loop -> add_from_str today inc T s1 = inc f s1) ->
  add_from_str today inc (above t1 (above line t2)) s <> Loop ->
  add_from_str today inc (above t1 (above T t2)) s = add_from_str today inc (above t1 (above line t2)) s.
Proof.
  intros L FT F2 E. assert (flush (above T t2)) as FT2.
  { unfold flush, above in *. rewrite contents_lines_app. destruct (contents (lines T)); [exact F2|exact FT]. }
  rewrite (C101_parts today inc t1 (above line t2) s (line_flush _ _ _ L)), (C101_parts today inc t1 (above T t2) s FT2).
  destruct (add_from_str today inc t1 s) as [s1| | |]; [|reflexivity..]. cbn [bind].
  rewrite (C101_parts today inc T t2 s1 F2), (C101_parts today inc line t2 s1 F2), (line_loads _ _ _ _ _ L).
  intro N. rewrite (E s1 eq_refl); [reflexivity|]. intro X. rewrite X in N. apply N. reflexivity.
Qed.

(** Whatever is included elsewhere, and whatever the file includes. *)
Theorem C101_text : forall today fuel t1 line f T t2 s, include_line line f -> flush T -> flush t2 ->
  (forall s1, add_from_str today (add_from_file fuel today) t1 s = Ok s1 ->
     read_file (snd s1) f = Ok T /\ chdir_parent (snd s1) f = Ok (snd s1)) ->
  add_from_str today (add_from_file fuel today) (above t1 (above line t2)) s <> Loop ->
  add_from_str today (add_from_file fuel today) (above t1 (above T t2)) s
  = add_from_str today (add_from_file fuel today) (above t1 (above line t2)) s.
Proof.
  intros today fuel t1 line f T t2 s L FT F2 E. apply insert with f; [exact L|exact FT|exact F2|].
  intros s1 H N. destruct (E s1 H) as (R & C). destruct fuel as [|k]; [contradiction|].
  change (add_from_file (S k) today f s1) with (let! text := read_file (snd s1) f in let! w := chdir_parent (snd s1) f in
      add_from_str today (add_from_file k today) text (fst s1, w)) in N |- *.
  rewrite R, C in *. cbn [bind] in *. destruct s1 as [l1 w1]. cbn [fst snd] in *.
  destruct (cut_up_total T) as (cs & Cs). rewrite !(add_from_str_chunks today _ T _ cs Cs) in *.
  apply chunks_refine; [apply add_from_file_more|exact N].
Qed.
Print Assumptions C101_text.

(** In terms of files. *)
Section Files.
Variable today : date.
Definition inside (w : world) (k : nat) (D : path) (f : str) (s : lw) : res lw :=
  let! l' := load k today w D f (fst s) in Ok (l', snd s).
Lemma load_step w k D p l : load (S k) today w D p l =
  match files w (located D p) with
  | None => Err (EFile p)
  | Some text => drop (add_from_str today (inside w k (removelast (located D p))) text (l, w))
  end.
Proof. reflexivity. Qed.
Lemma load_more w k : forall D p l, load k today w D p l <> Loop -> load (S k) today w D p l = load k today w D p l.
Proof.
  induction k as [|k IH]; intros D p l N; [contradiction|]. rewrite (load_step w (S k)). rewrite (load_step w k) in *.
  destruct (files w (located D p)) as [t|]; [|reflexivity]. destruct (cut_up_total t) as (cs & C).
  rewrite !(add_from_str_chunks today _ t _ cs C) in *. f_equal. apply chunks_refine.
  - intros g s M. unfold inside in *. rewrite IH; [reflexivity|]. intro X. rewrite X in M. apply M. reflexivity.
  - intro X. rewrite X in N. apply N. reflexivity.
Qed.
Lemma inside_world w k D cs : forall s s', fold_res (parse_chunk today (inside w k D)) cs s = Ok s' -> snd s' = snd s.
Proof.
  intros s s' H. apply (chunks_invariant (fun u => snd u = snd s) today (inside w k D) cs) with s; [| |exact H|reflexivity].
  - cbv beta. intros u u' E1 E2. congruence.
  - cbv beta. intros g u u' _ E K. unfold inside in K. apply bind_Ok in K as (l & _ & K). injection K as <-. exact E.
Qed.
Lemma load_outside w w' P : (forall q, q <> P -> files w' q = files w q) -> not_included w P ->
  forall k D q l, located D q <> P -> load k today w' D q l = load k today w D q l.
Proof.
  intros E N. induction k as [|k IH]; intros D q l Q; [reflexivity|]. rewrite !load_step, (E _ Q).
  destruct (files w (located D q)) as [t|] eqn:Ft; [|reflexivity]. destruct (cut_up_total t) as (cs & C).
  rewrite !(add_from_str_chunks today _ t _ cs C).
  refine (proj1 (chunks_agree (fun _ => True) today _ _ cs _ l w' w I)).
  intros g l1 u u0 (c & Ic & K). intros _. split; [|intros; exact I].
  assert (includes t g) as It by (exists cs, c; auto). unfold inside, drop. cbn [fst snd].
  rewrite (IH _ g l1 (N _ _ _ Ft It)). destruct (load k today w _ g l1); reflexivity.
Qed.
End Files.

Lemma ledger_drop r : ledger_of r = drop r.
Proof. destruct r as [[l w]| | |]; reflexivity. Qed.
(** With all files in one directory, the text of a file can stand in the place
    of the line that includes it. *)
Theorem C101_partial : forall today fuel w w' j f, proper w -> one_directory w -> file_path j ->
  not_included w (resolve w j) -> inserted (resolve w j) f w w' -> from_file fuel today j w <> Loop ->
  ledger_of (from_file fuel today j w') = ledger_of (from_file fuel today j w).
Proof.
  intros today fuel w w' j f Pw Od Fj Ni (t1 & line & T & t2 & L & FT & F2 & Fp & Ff & Fp' & Eq & Dr & Cw) Nl.
  set (P := resolve w j) in *. assert (P = located (cwd w) j) as EP by apply resolve_located.
  set (D := removelast P) in *. assert (flush (above T t2)) as FT2.
  { unfold flush, above in *. rewrite contents_lines_app. destruct (contents (lines T)); [exact F2|exact FT]. }
  assert (forall g, includes (above t1 (above T t2)) g -> exists q t, files w q = Some t /\ includes t g /\ removelast q = D) as Part.
  { intros g I. apply includes_above in I; [|exact FT2]. rewrite includes_above in I by exact F2.
    assert (forall g, includes t1 g \/ includes t2 g -> includes (above t1 (above line t2)) g) as Outer.
    { intros h K. apply includes_above; [exact (line_flush _ _ _ L)|]. destruct K as [K|K]; [left; exact K|right].
      apply includes_above; [exact F2|]. right. exact K. }
    assert (includes (above t1 (above line t2)) f) as If.
    { apply includes_above; [exact (line_flush _ _ _ L)|]. right. apply includes_above; [exact F2|]. left. exact (line_includes _ _ L). }
    destruct I as [I|[I|I]].
    - exists P, (above t1 (above line t2)). split; [exact Fp|]. split; [apply Outer; left; exact I|reflexivity].
    - exists (located D f), T. split; [exact Ff|]. split; [exact I|]. exact (proj2 (Od _ _ _ Fp If)).
    - exists P, (above t1 (above line t2)). split; [exact Fp|]. split; [apply Outer; right; exact I|reflexivity]. }
  assert (forall p : path, {p = P} + {p <> P}) as Dec by (intro p; apply (list_eq_dec (list_eq_dec N.eq_dec))).

  assert (one_directory w') as Od'.
  { intros q t g Fq I. destruct (Dec q) as [->|Nq].
    - rewrite Fp' in Fq. injection Fq as <-. destruct (Part g I) as (q & t & Fq & Iq & Rq).
      assert (H := Od q t g Fq Iq). rewrite Rq in H. exact H.
    - rewrite (Eq q Nq) in Fq. exact (Od q t g Fq I). }
  assert (proper w') as Pw'.
  { destruct Pw as (P1 & P2 & P3 & P4). split; [rewrite Dr; exact P1|]. split; [rewrite Dr, Cw; exact P2|]. split.
    - intros q H. rewrite Dr in H. rewrite (Eq q); [apply P3, H|]. intros ->. rewrite (P3 _ H) in Fp. discriminate.
    - intros q t H. rewrite Dr. destruct (Dec q) as [->|Nq]; [exact (P4 _ _ Fp)|]. rewrite (Eq q Nq) in H. exact (P4 _ _ H). }
  unfold from_file in *. rewrite !ledger_drop.
  assert (forall u, proper u -> one_directory u -> drop (add_from_file fuel today j (new_ledger j, u)) = load fuel today u (cwd u) j (new_ledger j)) as Ag.
  { intros u Pu Ou. apply (beside_agree today u Pu (fun q t g A B => proj1 (Ou q t g A B)) (fun q t g A B => proj2 (Ou q t g A B)) fuel j (new_ledger j) u Fj).
    split; [apply same_disk_refl|apply Pu]. }
  assert (load fuel today w (cwd w) j (new_ledger j) <> Loop) as Nl'.
  { rewrite <- (Ag w Pw Od). intro X. apply Nl. destruct (add_from_file fuel today j _); try discriminate X. reflexivity. }
  rewrite (Ag w Pw Od), (Ag w' Pw' Od'), Cw. destruct fuel as [|k]; [contradiction|].
  rewrite !load_step in *. rewrite <- EP in *. fold D in Nl' |- *. rewrite Fp in *. rewrite Fp'.
  assert (drop (add_from_str today (inside today w' k D) (above t1 (above T t2)) (new_ledger j, w'))
    = drop (add_from_str today (inside today w k D) (above t1 (above T t2)) (new_ledger j, w))) as ->.
  { destruct (cut_up_total (above t1 (above T t2))) as (cs & C). rewrite !(add_from_str_chunks today _ _ _ cs C).
    refine (proj1 (chunks_agree (fun _ => True) today _ _ cs _ (new_ledger j) w' w I)).
    intros g l1 u u0 (c & Ic & K). intros _. split; [|intros; exact I].
    assert (includes (above t1 (above T t2)) g) as It by (exists cs, c; auto). destruct (Part g It) as (q & t & Fq & Iq & Rq).
    unfold inside, drop. cbn [fst snd]. rewrite (load_outside today w w' P Eq Ni k D g l1); [destruct (load k today w _ g l1); reflexivity|].
    rewrite <- Rq. exact (Ni q t g Fq Iq). }
  f_equal. apply insert with f; [exact L|exact FT|exact F2| |intro X; rewrite X in Nl'; apply Nl'; reflexivity].
  intros s1 H N. destruct (cut_up_total t1) as (c1 & C1). rewrite (add_from_str_chunks today _ _ _ c1 C1) in H.
  apply inside_world in H. destruct s1 as [l1 w1]. cbn [snd] in H. subst w1.
  unfold inside at 2. unfold inside in N. cbn [fst snd] in *. destruct k as [|k]; [contradiction|]. rewrite load_step, Ff in *.
  assert (removelast (located D f) = D) as RD.
  { apply (Od P _ f Fp). apply includes_above; [exact (line_flush _ _ _ L)|]. right. apply includes_above; [exact F2|]. left. exact (line_includes _ _ L). }
  rewrite RD in *. destruct (cut_up_total T) as (cs & C). rewrite !(add_from_str_chunks today _ T _ cs C) in *.
  rewrite (chunks_refine today (inside today w k D) (inside today w (S k) D) cs).
  - destruct (fold_res (parse_chunk today (inside today w k D)) cs (l1, w)) as [[l2 w2]| | |] eqn:X; try reflexivity.
    apply inside_world in X. cbn [snd] in X. subst w2. reflexivity.
  - intros g s M. unfold inside in *. rewrite (load_more today w k); [reflexivity|]. intro X. rewrite X in M. apply M. reflexivity.
  - intro X. rewrite X in N. apply N. reflexivity.
Qed.
Print Assumptions C101_partial.

(** Not so with a file in another directory: what is included after it is
    looked for there. *)
Fixpoint cut (cur : str) (ls : list str) : list str :=
  match ls with
  | [] => [cur]
  | l :: r => if match l with c :: _ => is_ws c | [] => false end then cut (cur ++ 10%N :: l) r else cur :: cut l r
  end.
Lemma cut_chunks ls : forall cur, chunks cur ls (cut cur ls).
Proof.
  induction ls as [|l r IH]; intro cur; cbn [cut]; [constructor|]. destruct l as [|c l].
  - apply chunks_new; [intros (? & ? & E & _); discriminate|apply IH].
  - destruct (is_ws c) eqn:W; [apply chunks_more; [exists c, l; auto|apply IH]|].
    apply chunks_new; [|apply IH]. rewrite indented_iff. congruence.
Qed.
Definition included (t : str) : list str :=
  flat_map (fun c => match split_ws c with k :: f :: _ => if str_eqb k (lit "include") then [f] else [] | _ => [] end)
    (cut [] (contents (lines t))).
Lemma includes_included t g : includes t g -> In g (included t).
Proof.
  intros (cs & c & C & I & K & V). assert (cs = cut [] (contents (lines t))) as -> by exact (chunks_unique _ _ _ _ C (cut_chunks _ _)).
  apply in_flat_map. exists c. split; [exact I|]. unfold keyword, value in *. destruct (split_ws c) as [|k [|h r]]; try discriminate.
  injection K as ->. injection V as ->. rewrite str_eqb_refl. left. reflexivity.
Qed.
Definition in_files (main : list string) : world :=
  world_of [([lit "j"], text main); ([lit "d"; lit "k"], lit "account a"); ([lit "l"], lit "account b")] [[]; [lit "d"]] [].
Theorem C101_refuted : exists w w' f l, proper w /\ file_path (lit "j") /\ not_included w (resolve w (lit "j"))
  /\ inserted (resolve w (lit "j")) f w w'
  /\ ledger_of (from_file 5 today (lit "j") w) = Err (EFile (lit "l"))
  /\ ledger_of (from_file 5 today (lit "j") w') = Ok l /\ account_names l = map lit ["a"; "b"]%string.
Proof.
  exists (in_files [""; "include d/k"; "include l"]%string), (in_files [""; "account a"; "include l"]%string), (lit "d/k").
  eexists. split; [apply world_of_proper; vm_compute; reflexivity|]. split; [discriminate|]. split; [|split].
  - intros q t g Fq I. apply includes_included in I. cbn [files in_files world_of] in Fq.
    destruct (List.find _ _) as [[p u]|] eqn:Fi; [|discriminate]. injection Fq as <-. apply find_some in Fi as [Ip Eq]. apply path_eqb_eq in Eq.
    cbn [fst snd] in *. subst q. destruct Ip as [E|[E|[E|[]]]]; injection E as <- <-.
    + change (In g (map lit ["d/k"; "l"]%string)) in I. destruct I as [<-|[<-|[]]]; discriminate.
    + destruct I.
    + destruct I.
  - exists [], (lit "include d/k"), (lit "account a"), (lit "include l"). split; [|split; [|split]].
    + split; [cbn; intuition discriminate|]. split; [change (content _) with (lit "include d/k"); intros (c & r & E & W); injection E as <- <-; discriminate|]. split; reflexivity.
    + unfold flush. change (contents _) with [lit "account a"]. intros (c & r & E & W). injection E as <- <-. discriminate.
    + unfold flush. change (contents _) with [lit "include l"]. intros (c & r & E & W). injection E as <- <-. discriminate.
    + split; [reflexivity|]. split; [reflexivity|]. split; [reflexivity|]. split; [|split; reflexivity].
      intros q N. cbn [files in_files world_of]. cbn [List.find fst]. destruct (path_eqb [lit "j"] q) eqn:E; [|reflexivity].
      apply path_eqb_eq in E. subst q. exfalso. apply N. reflexivity.
  - split; [vm_compute; reflexivity|]. split; [vm_compute; reflexivity|reflexivity].
Qed.
Print Assumptions C101_refuted.

(** Indented lines below the line that includes a file are lost. *)
Theorem C101_lost : forall today inc line f t s, include_line line f -> Forall indented (contents (lines t)) ->
  add_from_str today inc (above line t) s = inc f s.
Proof.
  intros today0 inc line f t s L F. assert (cut_up (above line t) [[]; chunk_of (content line) (contents (lines t))]) as C.
  { unfold cut_up, above. rewrite contents_lines_app, (line_contents _ _ L). cbn [app]. apply chunks_new; [apply L|]. apply chunks_indented, F. }
  rewrite (add_from_str_chunks today0 inc _ s _ C). cbn [fold_res]. change (parse_chunk today0 inc s []) with (@Ok lw s). cbn [bind].
  destruct L as (_ & _ & K & V). unfold parse_chunk, keyword, value in *.
  assert (exists r, split_ws (chunk_of (content line) (contents (lines t))) = split_ws (content line) ++ r) as (r & ->).
  { unfold chunk_of. destruct (contents (lines t)) as [|m ms]; [exists []; rewrite app_nil_r; cbn; rewrite app_nil_r; reflexivity|].
    cbn [map List.concat app]. eexists. apply split_ws_app_ws. reflexivity. }
  destruct (split_ws (content line)) as [|k ws]; [discriminate|]. cbn [hd_error tl] in K, V. injection K as ->. destruct ws as [|h ws]; [discriminate|].
  injection V as ->. cbn. destruct (inc f s); reflexivity.
Qed.
Print Assumptions C101_lost.

Example C101_case : forall l, ledger_of (from_file 5 today (lit "j") (world_of [([lit "j"], text ["account a"; "include k"; "2024/03/01 * x"; " a $3"; " b"]%string);
     ([lit "k"], text ["account b"; "include m"]%string); ([lit "m"], text ["// nothing"]%string)] [[]] [])) = Ok l ->
  ledger_of (from_file 5 today (lit "j") (world_of [([lit "j"], text ["account a"; "account b"; "include m"; "2024/03/01 * x"; " a $3"; " b"]%string);
     ([lit "m"], text ["// nothing"]%string)] [[]] [])) = Ok l
  /\ map (fun e => List.length (e_postings e)) (l_entries l) = [2%nat].
Proof. intros l H. vm_compute in H. injection H as <-. split; vm_compute; reflexivity. Qed.
