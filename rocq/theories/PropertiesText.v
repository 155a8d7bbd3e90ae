(** Property C107: how texts and paths are taken apart. *)
From Coq Require Import ZArith NArith List Bool String Lia.
From Verif Require Import Base Str World SpecText SpecAmount SpecLedger StrFacts LineFacts.
Import ListNotations.
Local Open Scope N_scope.

Lemma white_ws c : white c <-> is_ws c = true.
Proof.
  unfold white, is_ws. rewrite !orb_true_iff, !andb_true_iff, !N.eqb_eq, !N.leb_le. cbn [In]. lia.
Qed.
Lemma visible_ws c : visible c <-> is_ws c = false.
Proof. unfold visible. rewrite white_ws. apply not_true_iff_false. Qed.
Lemma whites s : Forall white s <-> all_ws s.
Proof. unfold all_ws. rewrite forallb_forall, Forall_forall. split; intros H c I; apply white_ws, H, I. Qed.
Lemma visibles s : Forall visible s <-> no_ws s.
Proof.
  unfold no_ws. rewrite forallb_forall, Forall_forall. split; intros H c I.
  - specialize (H c I). apply visible_ws in H. rewrite H. reflexivity.
  - specialize (H c I). apply visible_ws. destruct (is_ws c); [discriminate|reflexivity].
Qed.
Theorem C107_white : forall c, blank_char c <-> white c.
Proof. intro c. rewrite white_ws. reflexivity. Qed.
Print Assumptions C107_white.
Theorem C107_words : forall s l, split_ws s = l <-> in_words s l.
Proof.
  assert (forall s, (forall c r, s = c :: r -> white c) <-> ws_start s) as Ws.
  { intros [|c r]; cbn; split; try tauto; try discriminate.
    - intro H. apply white_ws. exact (H c r eq_refl).
    - intros H c' r' Q. injection Q as <- <-. apply white_ws. exact H. }
  intros s l. split.
  - revert s. induction l as [|a l IH]; intros s H.
    + apply words_end. apply whites. apply split_ws_nil. exact H.
    + apply split_ws_cons in H as (w & r & -> & W & (Ne & T) & S & E). apply words_more; [apply whites; exact W|exact Ne|apply visibles; exact T|apply Ws; exact S|apply IH; exact E].
  - induction 1 as [s W|b a s l W Ne T S _ IH].
    + apply split_ws_nil. apply whites. exact W.
    + apply split_ws_cons. exists b, s. split; [reflexivity|]. split; [apply whites; exact W|]. split; [split; [exact Ne|apply visibles; exact T]|].
      split; [apply Ws; exact S|exact IH].
Qed.
Print Assumptions C107_words.
Theorem C107_trim : forall s t, trim s = t <-> bared s t.
Proof.
  assert (forall t, (forall c r, t = c :: r -> visible c) /\ (forall c r, t = r ++ [c] -> visible c) <-> trimmed t) as Tr.
  { intro t. unfold trimmed. split.
    - intros (H1 & H2). split.
      + destruct t as [|c r]; [exact I|]. apply visible_ws. exact (H1 c r eq_refl).
      + destruct (rev t) as [|c r] eqn:E; [exact I|]. apply visible_ws. apply (H2 c (rev r)). rewrite <- (rev_involutive t), E. reflexivity.
    - intros (H1 & H2). split.
      + intros c r ->. apply visible_ws. exact H1.
      + intros c r ->. rewrite rev_app_distr in H2. apply visible_ws. exact H2. }
  intros s t. split.
  - intros <-. destruct (trim_spec s) as (a & b & E & A & B & T). exists a, b. split; [exact E|]. split; [apply whites; exact A|]. split; [apply whites; exact B|]. apply Tr. exact T.
  - intros (a & b & -> & A & B & T). apply Tr in T. apply whites in A, B. unfold trim. rewrite trim_start_ws by exact A.
    destruct t as [|c t].
    + cbn [app]. rewrite <- (app_nil_r b), trim_start_ws by exact B. reflexivity.
    + destruct T as (T1 & T2). rewrite trim_start_id by exact T1. rewrite trim_end_ws by exact B. apply trim_end_id. exact T2.
Qed.
Print Assumptions C107_trim.
Theorem C107_lines : forall s l, lines s = l <-> in_lines s l.
Proof.
  assert (forall s l, in_lines s l -> lines s = l) as B.
  { induction 1 as [|s Ne N|a s l N Nc _ IH|a s l N _ IH].
    - reflexivity.
    - apply lines_one; assumption.
    - rewrite lines_app by exact N. rewrite IH. f_equal. destruct (strip_cr_spec a) as [E|E]; [exact E|destruct (Nc _ E)].
    - replace (a ++ 13 :: 10 :: s) with ((a ++ [13]) ++ 10 :: s) by (rewrite <- app_assoc; reflexivity).
      rewrite lines_app, strip_cr_snoc, IH; [reflexivity|]. intro I. apply in_app_or in I as [I|[I|[]]]; [exact (N I)|discriminate]. }
  assert (forall n s, (List.length s <= n)%nat -> exists l, in_lines s l) as T.
  { induction n as [|n IH]; intros s L; [destruct s; [exists []; constructor|cbn in L; lia]|].
    destruct (newline_cut s) as [N|(a & b & -> & N)].
    - destruct s as [|c s]; [exists []; constructor|]. exists [c :: s]. apply lines_last; [discriminate|exact N].
    - rewrite app_length in L. cbn in L. destruct (IH b ltac:(lia)) as (l & Hl). destruct (strip_cr_spec a) as [E|E].
      + destruct a as [|c a] using rev_ind.
        * exists ([] :: l). apply (lines_lf []); [exact N| |exact Hl]. intros b' Q. destruct b'; discriminate.
        * destruct (N.eq_dec c 13) as [-> |Nc].
          { exists (a :: l). rewrite <- app_assoc. cbn [app]. apply lines_crlf; [|exact Hl]. intro I. apply N. apply in_or_app. left. exact I. }
          { exists ((a ++ [c]) :: l). apply lines_lf; [exact N| |exact Hl]. intros b' Q. apply app_inj_tail in Q as (_ & Q). contradiction. }
      + exists (strip_cr a :: l). rewrite E at 1. rewrite <- app_assoc. cbn [app]. apply lines_crlf; [|exact Hl]. intro I. apply N. rewrite E. apply in_or_app. left. exact I. }
  intros s l. split; [|apply B]. intros <-. destruct (T (List.length s) s (le_n _)) as (l & H). rewrite (B s l H). exact H.
Qed.
Print Assumptions C107_lines.

(** Paths. *)
Lemma walked_components : forall d s q, walked d s q -> resolve_aux d (components s) = q.
Proof.
  assert (forall n s, ~ In 47 n -> ended s -> components (n ++ s) =
    (if negb (str_eqb n []) && negb (str_eqb n (lit ".")) then [n] else []) ++ components s) as C.
  { intros n s N E. unfold components. change (chr "/") with 47. destruct s as [|c s].
    - rewrite app_nil_r, split_on_none by exact N. cbn [filter split_on]. rewrite app_nil_r. destruct (negb (str_eqb n []) && _); reflexivity.
    - rewrite (E c s eq_refl). rewrite split_on_app by exact N. cbn [filter]. change (47 :: s) with ([] ++ 47 :: s). rewrite (split_on_app 47 [] s) by (intros []).
      cbn [filter str_eqb negb andb]. destruct (negb (str_eqb n []) && _); reflexivity. }
  induction 1 as [d|d s q _ IH|d s q E _ IH|d s q E _ IH|d n s q Ne N N1 N2 E _ IH].
  - reflexivity.
  - unfold components in *. change (chr "/") with 47 in *. change (47 :: s) with ([] ++ 47 :: s). rewrite (split_on_app 47 [] s) by (intros []). exact IH.
  - change (46 :: s) with ([46] ++ s). rewrite C; [exact IH|intros [Q|[]]; discriminate|exact E].
  - change (46 :: 46 :: s) with ([46; 46] ++ s). rewrite C; [exact IH|intros [Q|[Q|[]]]; discriminate|exact E].
  - rewrite C by assumption. assert (str_eqb n [] = false) as -> by (apply str_eqb_neq; exact Ne).
    assert (str_eqb n (lit ".") = false) as -> by (apply str_eqb_neq; exact N1). cbn [negb andb app resolve_aux].
    assert (str_eqb n (lit "..") = false) as -> by (apply str_eqb_neq; exact N2). exact IH.
Qed.
Lemma walked_total : forall n s d, (List.length s <= n)%nat -> exists q, walked d s q.
Proof.
  induction n as [|n IH]; intros s d L; [destruct s; [exists d; constructor|cbn in L; lia]|]. destruct s as [|c s]; [exists d; constructor|].
  cbn in L. destruct (N.eq_dec c 47) as [-> |Nc]; [destruct (IH s d ltac:(lia)) as (q & H); exists q; apply walked_slash; exact H|].
  assert (exists a r, c :: s = a ++ r /\ ~ In 47 a /\ ended r /\ a <> []) as (a & r & E & Na & Er & Ne).
  { assert (forall s, exists a r, s = a ++ r /\ ~ In 47 a /\ ended r) as P.
    { clear. induction s as [|c s (a & r & -> & N & E)]; [exists [], []; split; [reflexivity|split; [intros []|intros c r Q; discriminate]]|].
      destruct (N.eq_dec c 47) as [-> |Nc]; [exists [], (47 :: a ++ r); split; [reflexivity|split; [intros []|intros c' r' Q; congruence]]|].
      exists (c :: a), r. split; [reflexivity|]. split; [|exact E]. intros [Q|I]; [congruence|exact (N I)]. }
    destruct (P s) as (a & r & -> & N & E). exists (c :: a), r. split; [reflexivity|]. split; [|split; [exact E|discriminate]]. intros [Q|I]; [congruence|exact (N I)]. }
  assert (List.length r <= n)%nat as Lr.
  { pose proof (f_equal (@List.length N) E) as Q. rewrite app_length in Q. destruct a; [contradiction|]. cbn in Q. lia. }
  rewrite E. destruct (list_eq_dec N.eq_dec a [46]) as [-> |N1]; [|destruct (list_eq_dec N.eq_dec a [46; 46]) as [-> |N2]].
  - destruct (IH r d Lr) as (q & H). exists q. apply walked_dot; assumption.
  - destruct (IH r (removelast d) Lr) as (q & H). exists q. apply walked_up; assumption.
  - destruct (IH r (d ++ [a]) Lr) as (q & H). exists q. apply walked_name; assumption.
Qed.
Theorem C107_paths : forall d p q, located d p = q <-> leads d p q.
Proof.
  assert (forall d s q, resolve_aux d (components s) = q -> walked d s q) as T.
  { intros d s q H. destruct (walked_total (List.length s) s d (le_n _)) as (q' & W). pose proof (walked_components d s q' W). congruence. }
  intros d p q. unfold located, is_absolute, leads. destruct p as [|c p].
  - cbn. split; [intros <-; right; split; [discriminate|constructor]|]. intros [(r & Q & _)|(_ & W)]; [discriminate|apply (walked_components _ [] _ W)].
  - assert (starts_with (lit "/") (c :: p) = N.eqb 47 c) as ->.
    { apply eq_true_iff_eq. rewrite starts_with_iff, N.eqb_eq. split; [intros (r & Q); injection Q as -> _; reflexivity|intros <-; exists p; reflexivity]. }
    destruct (N.eqb_spec 47 c) as [<-|N].
    + split.
      * intro H. left. exists p. split; [reflexivity|]. apply T in H. apply T. rewrite <- (walked_components _ _ _ H).
        unfold components. change (chr "/") with 47. change (47 :: p) with ([] ++ 47 :: p). rewrite (split_on_app 47 [] p) by (intros []). reflexivity.
      * intros [(r & Q & W)|(Nr & _)]; [|destruct (Nr p eq_refl)]. injection Q as <-. apply (walked_components [] (47 :: p)). apply walked_slash. exact W.
    + split; [intro H; right; split; [congruence|apply T; exact H]|]. intros [(r & Q & _)|(_ & W)]; [congruence|]. apply walked_components. exact W.
Qed.
Print Assumptions C107_paths.
(** Files are read and written there. *)
Theorem C107_files : forall w s,
  (forall q, leads (cwd w) s q -> read_file w s = match files w q with Some t => Ok t | None => Err (EFile s) end)
  /\ exists q, leads (cwd w) s q.
Proof.
  intros w s. split; [|eexists; apply C107_paths; reflexivity]. intros q L. apply C107_paths in L. unfold read_file. change (resolve w s) with (located (cwd w) s).
  rewrite L. reflexivity.
Qed.
Print Assumptions C107_files.

Example C107_case :
  split_ws (lit " a  bc " ++ [160; 100; 8239]) = [lit "a"; lit "bc"; lit "d"]
  /\ trim ([12288; 9] ++ lit "x y" ++ [10]) = lit "x y"
  /\ lines (lit "a" ++ [13; 10; 10; 13] ++ lit "b" ++ [13]) = [lit "a"; []; 13 :: lit "b" ++ [13]]
  /\ located [lit "home"; lit "me"] (lit "./x//../y/.") = [lit "home"; lit "me"; lit "y"]
  /\ located [lit "home"; lit "me"] (lit "/.../z") = [lit "..."; lit "z"].
Proof. vm_compute. repeat split; reflexivity. Qed.
