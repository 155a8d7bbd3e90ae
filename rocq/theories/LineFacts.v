(** Lines, and texts without comment marks. *)
From Coq Require Import ZArith NArith List Bool String Lia.
From Verif Require Import Base Str StrFacts Amount SpecAmount AmountFacts.
Import ListNotations.

(** ** Comment marks *)

Fixpoint markfree (s : str) : bool :=
  match s with
  | [] => true
  | c :: s' =>
      negb (N.eqb c 59) && negb (N.eqb c 47 && match s' with d :: _ => N.eqb d 47 | [] => false end)
      && markfree s'
  end.

Lemma markfree_cons c s :
  markfree (c :: s) = true <-> ~ mark_at (c :: s) /\ markfree s = true.
Proof.
  cbn [markfree]. rewrite !andb_true_iff, !negb_true_iff. split.
  - intros [[A B] C]. split; [|exact C]. intros [[r E]|[r E]].
    + injection E as -> ->. rewrite N.eqb_refl in A. discriminate.
    + injection E as -> ->. rewrite !N.eqb_refl in B. discriminate.
  - intros [M C]. repeat split; [| |exact C].
    + apply N.eqb_neq. intros ->. apply M. left. eauto.
    + destruct (N.eqb_spec c 47) as [->|]; [|reflexivity]. destruct s as [|d s]; [reflexivity|].
      apply N.eqb_neq. intros ->. apply M. right. eauto.
Qed.

Lemma markfree_iff s : markfree s = true <-> unmarked s.
Proof.
  induction s as [|c s IH].
  - split; [|reflexivity]. intros _ a b E. symmetry in E. apply app_eq_nil in E.
    destruct E as [-> ->]. intros [[r E]|[r E]]; discriminate.
  - rewrite markfree_cons, IH. split.
    + intros [M U] [|x a] b E; [cbn in E; subst b; exact M|].
      injection E as -> E. eapply U, E.
    + intro U. split; [apply (U [] (c :: s)); reflexivity|]. intros a b E.
      apply (U (c :: a) b). rewrite E. reflexivity.
Qed.

Definition no_slash_start (s : str) : Prop := match s with c :: _ => c <> 47%N | [] => True end.
Lemma markfree_app a b :
  markfree a = true -> markfree b = true -> no_slash_start b -> markfree (a ++ b) = true.
Proof.
  intros A B N. induction a as [|c a IH]; [exact B|].
  apply markfree_cons in A. destruct A as [M A]. cbn [app]. apply markfree_cons.
  split; [|apply IH, A]. intros [[r E]|[r E]]; injection E as E1 E2; subst c.
  - apply M. left. eauto.
  - destruct a as [|d a].
    + cbn [app] in E2. subst b. apply N. reflexivity.
    + injection E2 as -> _. apply M. right. eauto.
Qed.
Lemma markfree_app_l a b : markfree (a ++ b) = true -> markfree a = true.
Proof.
  rewrite !markfree_iff. intros U x y E M. apply (U x (y ++ b)).
  - rewrite E, <- app_assoc. reflexivity.
  - destruct M as [[r ->]|[r ->]]; [left|right]; eexists; reflexivity.
Qed.
Lemma markfree_app_r a b : markfree (a ++ b) = true -> markfree b = true.
Proof.
  rewrite !markfree_iff. intros U x y E. apply (U (a ++ x) y). rewrite E, app_assoc. reflexivity.
Qed.
Lemma markfree_Forall s : Forall (fun c => c <> 59%N /\ c <> 47%N) s -> markfree s = true.
Proof.
  induction 1 as [|c s [H1 H2] F IH]; [reflexivity|]. cbn [markfree].
  rewrite (proj2 (N.eqb_neq _ _) H1), (proj2 (N.eqb_neq _ _) H2). exact IH.
Qed.

Lemma remove_comments_markfree s : markfree s = true -> remove_comments s = s.
Proof.
  intro M. apply remove_comments_iff. exists []. rewrite app_nil_r. repeat split; [|left; reflexivity].
  intros i Hi. apply markfree_iff in M. apply (M (firstn i s)). symmetry. apply firstn_skipn.
Qed.
Lemma skipn_app_l {A} i (a b : list A) : (i <= List.length a)%nat -> skipn i (a ++ b) = skipn i a ++ b.
Proof. intro H. rewrite skipn_app. replace (i - List.length a)%nat with 0%nat by lia. reflexivity. Qed.
Lemma mark_at_app_l a b : mark_at a -> mark_at (a ++ b).
Proof. intros [[r ->]|[r ->]]; [left|right]; eexists; reflexivity. Qed.
(** A text cut at its first mark. *)
Lemma remove_comments_cut s r :
  markfree s = true -> mark_at r -> (s = [] \/ List.last s 0%N <> 47%N) ->
  remove_comments (s ++ r) = s.
Proof.
  intros M K L. apply remove_comments_iff. exists r. repeat split; [|right; exact K].
  intros i Hi H. apply markfree_iff in M. rewrite skipn_app_l in H by lia.
  destruct (skipn i s) as [|c t] eqn:E.
  - assert (List.length (skipn i s) = 0)%nat as Z by (rewrite E; reflexivity).
    rewrite skipn_length in Z. lia.
  - destruct (list_eq_dec N.eq_dec t []) as [->|Nt].
    + assert (s = firstn i s ++ [c]) as Es by (rewrite <- E; symmetry; apply firstn_skipn).
      destruct H as [[q H]|[q H]].
      * injection H as -> _. apply (M (firstn i s) [59%N] Es). left. eauto.
      * injection H as -> _. destruct L as [->|L]; [destruct i; discriminate|].
        apply L. rewrite Es, last_last. reflexivity.
    + destruct t as [|d t]; [contradiction|].
      assert (s = firstn i s ++ c :: d :: t) as Es by (rewrite <- E; symmetry; apply firstn_skipn).
      apply (M _ _ Es). destruct H as [[q H]|[q H]].
      * injection H as -> _. left. eauto.
      * injection H as -> -> _. right. eauto.
Qed.
Lemma markfree_remove_comments s : markfree (remove_comments s) = true.
Proof.
  destruct (remove_comments_spec s) as (rest & E & M & K). apply markfree_iff.
  intros a b Eb H. apply (M (List.length a)).
  - rewrite Eb, app_length. destruct b; [destruct H as [[r H]|[r H]]; discriminate|]. cbn. lia.
  - rewrite E, Eb, <- app_assoc, skipn_app, skipn_all, Nat.sub_diag. cbn [app skipn].
    apply mark_at_app_l, H.
Qed.
Lemma remove_comments_idem s : remove_comments (remove_comments s) = remove_comments s.
Proof. apply remove_comments_markfree, markfree_remove_comments. Qed.

Lemma markfree_trim s : markfree s = true -> markfree (trim s) = true.
Proof.
  intro M. destruct (trim_spec s) as (w1 & w2 & E & _). rewrite E in M.
  apply markfree_app_r in M. apply markfree_app_l in M. exact M.
Qed.
Lemma all_ws_markfree w : all_ws w -> markfree w = true.
Proof.
  intro H. apply markfree_Forall, Forall_forall. intros c I. rewrite all_ws_In in H.
  specialize (H c I). split; intros ->; discriminate.
Qed.
Lemma markfree_spaces n : markfree (spaces n) = true.
Proof. apply all_ws_markfree, all_ws_spaces. Qed.

(** ** Lines *)

Lemma split_on_nonempty d s : split_on d s <> [].
Proof.
  destruct s as [|c s]; [discriminate|]. cbn [split_on].
  destruct (N.eqb c d); [discriminate|]. destruct (split_on d s); discriminate.
Qed.
Lemma split_on_app d a b : ~ In d a -> split_on d (a ++ d :: b) = a :: split_on d b.
Proof.
  induction a as [|c a IH]; intro H; cbn [app split_on].
  - rewrite N.eqb_refl. reflexivity.
  - destruct (N.eqb_spec c d) as [->|_]; [exfalso; apply H; left; reflexivity|].
    rewrite IH by (intro I; apply H; right; exact I). reflexivity.
Qed.
Lemma split_on_none d a : ~ In d a -> split_on d a = [a].
Proof.
  induction a as [|c a IH]; intro H; cbn [split_on]; [reflexivity|].
  destruct (N.eqb_spec c d) as [->|_]; [exfalso; apply H; left; reflexivity|].
  rewrite IH by (intro I; apply H; right; exact I). reflexivity.
Qed.

Lemma lines_app a b : ~ In 10%N a -> lines (a ++ 10%N :: b) = strip_cr a :: lines b.
Proof.
  intro H. unfold lines. rewrite split_on_app by exact H.
  destruct (split_on 10 b) as [|p ps] eqn:E; [destruct (split_on_nonempty _ _ E)|reflexivity].
Qed.
Lemma lines_one a : ~ In 10%N a -> a <> [] -> lines a = [a].
Proof.
  intros H N. unfold lines. rewrite split_on_none by exact H. destruct a; [contradiction|reflexivity].
Qed.
Lemma lines_nil : lines [] = [].
Proof. reflexivity. Qed.

(** Cut a text at its first newline. *)
Lemma newline_cut s : (~ In 10%N s) \/ exists a b, s = a ++ 10%N :: b /\ ~ In 10%N a.
Proof.
  induction s as [|c s IH]; [left; easy|].
  destruct (N.eq_dec c 10) as [->|Nc]; [right; exists [], s; split; [reflexivity|easy]|].
  destruct IH as [IH|(a & b & -> & H)].
  - left. intros [E|I]; congruence.
  - right. exists (c :: a), b. split; [reflexivity|]. intros [E|I]; congruence.
Qed.

Lemma strip_cr_spec s : strip_cr s = s \/ s = strip_cr s ++ [13%N].
Proof.
  unfold strip_cr. destruct (rev s) as [|c r] eqn:E; [left; reflexivity|].
  destruct (N.eq_dec c 13) as [->|Nc].
  - right. rewrite <- (rev_involutive s), E. reflexivity.
  - left. destruct c as [|p]; [reflexivity|].
    do 4 (try (destruct p as [p|p|]; try reflexivity)). contradiction.
Qed.
Lemma strip_cr_snoc s : strip_cr (s ++ [13%N]) = s.
Proof. unfold strip_cr. rewrite rev_app_distr. cbn. apply rev_involutive. Qed.
Lemma strip_cr_id s : List.last s 0%N <> 13%N -> strip_cr s = s.
Proof.
  intro H. destruct (strip_cr_spec s) as [E|E]; [exact E|].
  exfalso. apply H. rewrite E. apply last_last.
Qed.
Lemma split_ws_snoc_ws s c : is_ws c = true -> split_ws (s ++ [c]) = split_ws s.
Proof.
  intro H. rewrite split_ws_app_ws by exact H. rewrite (split_ws_all_ws [c]).
  - apply app_nil_r.
  - apply all_ws_cons. split; [exact H|reflexivity].
Qed.
Lemma split_ws_strip_cr s : split_ws (strip_cr s) = split_ws s.
Proof.
  destruct (strip_cr_spec s) as [E|E]; [rewrite E; reflexivity|].
  rewrite E at 2. symmetry. apply split_ws_snoc_ws. reflexivity.
Qed.
Lemma markfree_strip_cr s : markfree s = true -> markfree (strip_cr s) = true.
Proof.
  intro M. destruct (strip_cr_spec s) as [E|E]; [rewrite E; exact M|].
  rewrite E in M. apply markfree_app_l in M. exact M.
Qed.
Lemma split_ws_trim_end s : split_ws (trim_end s) = split_ws s.
Proof.
  destruct (trim_end_spec s) as (w & E & A & _). rewrite E at 2. destruct w as [|c w].
  - rewrite app_nil_r. reflexivity.
  - rewrite split_ws_app_ws by (apply all_ws_cons in A; apply A).
    rewrite (split_ws_all_ws _ A), app_nil_r. reflexivity.
Qed.
Lemma markfree_trim_end s : markfree s = true -> markfree (trim_end s) = true.
Proof.
  intro M. destruct (trim_end_spec s) as (w & E & _). rewrite E in M.
  apply markfree_app_l in M. exact M.
Qed.
Lemma trim_end_app a b : ~ all_ws b -> trim_end (a ++ b) = a ++ trim_end b.
Proof.
  intro H. induction a as [|c a IH]; [reflexivity|]. cbn [app trim_end]. rewrite IH.
  destruct (a ++ trim_end b) as [|d t] eqn:E; [|reflexivity].
  apply app_eq_nil in E. destruct E as [-> E]. exfalso. apply H.
  destruct (trim_end_spec b) as (w & Eb & A & _). rewrite Eb, E. exact A.
Qed.
Lemma trim_end_nil_iff s : trim_end s = [] <-> all_ws s.
Proof.
  split.
  - intro E. destruct (trim_end_spec s) as (w & Es & A & _). rewrite Es, E. exact A.
  - intro A. apply (trim_end_ws s [] A).
Qed.

(** Padding. *)
Lemma pad_right_split n s : exists k, pad_right n s = s ++ spaces k.
Proof. eexists. reflexivity. Qed.
Lemma spaces_cons_end n (s : str) : spaces n ++ 32%N :: s = 32%N :: spaces n ++ s.
Proof. unfold spaces. induction n; [reflexivity|]. cbn [repeat app]. rewrite IHn. reflexivity. Qed.
