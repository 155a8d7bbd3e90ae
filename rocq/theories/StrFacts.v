(** Facts about the string functions of the model. *)
From Coq Require Import NArith List Bool String Lia.
From Verif Require Import Str.
Import ListNotations.

Lemma str_eqb_eq s t : str_eqb s t = true <-> s = t.
Proof.
  revert t. induction s as [|a s IH]; intros [|b t]; cbn [str_eqb]; try easy.
  rewrite andb_true_iff, N.eqb_eq, IH. split.
  - intros [-> ->]. reflexivity.
  - intro H. injection H as -> ->. auto.
Qed.
Lemma str_eqb_refl s : str_eqb s s = true.
Proof. apply str_eqb_eq. reflexivity. Qed.
Lemma str_eqb_neq s t : str_eqb s t = false <-> s <> t.
Proof.
  rewrite <- str_eqb_eq. destruct (str_eqb s t); intuition congruence.
Qed.
Lemma str_eqb_spec s t : reflect (s = t) (str_eqb s t).
Proof. apply iff_reflect. symmetry. apply str_eqb_eq. Qed.

Lemma ostr_eqb_eq s t : ostr_eqb s t = true <-> s = t.
Proof.
  destruct s as [s|], t as [t|]; cbn [ostr_eqb]; try easy.
  rewrite str_eqb_eq. split; [intros ->|intro H; injection H]; auto.
Qed.
Lemma ostr_eqb_refl s : ostr_eqb s s = true.
Proof. apply ostr_eqb_eq. reflexivity. Qed.
Lemma ostr_eqb_spec s t : reflect (s = t) (ostr_eqb s t).
Proof. apply iff_reflect. symmetry. apply ostr_eqb_eq. Qed.
Lemma ostr_eqb_neq s t : ostr_eqb s t = false <-> s <> t.
Proof. destruct (ostr_eqb_spec s t); split; easy. Qed.

Lemma strip_prefix_Some p s r : strip_prefix p s = Some r <-> s = p ++ r.
Proof.
  revert s. induction p as [|a p IH]; intro s; cbn [strip_prefix app].
  - split; [intro H; injection H; auto|intros ->; auto].
  - destruct s as [|b s]; [easy|]. destruct (N.eqb_spec a b) as [->|N].
    + rewrite IH. split; [intros ->|intro H; injection H]; auto.
    + split; [easy|]. intro H. injection H as H1 H2. congruence.
Qed.
Lemma strip_prefix_app p r : strip_prefix p (p ++ r) = Some r.
Proof. apply strip_prefix_Some. reflexivity. Qed.
Lemma starts_with_iff p s : starts_with p s = true <-> exists r, s = p ++ r.
Proof.
  unfold starts_with. destruct (strip_prefix p s) as [r|] eqn:E.
  - apply strip_prefix_Some in E. split; [eauto|auto].
  - split; [easy|]. intros [r ->]. rewrite strip_prefix_app in E. discriminate.
Qed.
Lemma starts_with_app p r : starts_with p (p ++ r) = true.
Proof. apply starts_with_iff. eauto. Qed.

(** ** Searching *)

Lemma find_char_Some c s i :
  find_char c s = Some i <->
  nth_error s i = Some c /\ (forall j, (j < i)%nat -> nth_error s j <> Some c).
Proof.
  revert i. induction s as [|a s IH]; intro i; cbn [find_char].
  - split; [easy|]. intros [H _]. destruct i; discriminate.
  - destruct (N.eqb_spec a c) as [->|N].
    + split.
      * intro H. injection H as <-. split; [reflexivity|]. intros j Hj. lia.
      * intros [H Hm]. destruct i as [|i]; [reflexivity|].
        exfalso. apply (Hm 0%nat); [lia|reflexivity].
    + destruct (find_char c s) as [k|] eqn:E; cbn [option_map].
      * split.
        -- intro H. injection H as <-. destruct (proj1 (IH k) eq_refl) as [A M].
           split; [exact A|]. intros [|j] Hj; [cbn; congruence|]. apply M. lia.
        -- intros [A M]. destruct i as [|i]; [cbn in A; congruence|].
           f_equal. f_equal. cut (Some k = Some i); [congruence|]. apply IH.
           split; [exact A|]. intros j Hj. apply (M (S j)). lia.
      * split; [easy|]. intros [A M]. destruct i as [|i]; [cbn in A; congruence|].
        exfalso. cut (@None nat = Some i); [easy|]. apply IH.
        split; [exact A|]. intros j Hj. apply (M (S j)). lia.
Qed.
Lemma find_char_None c s : find_char c s = None <-> ~ In c s.
Proof.
  induction s as [|a s IH]; cbn [find_char In]; [easy|].
  destruct (N.eqb_spec a c) as [->|N]; [split; [easy|intro H; exfalso; auto]|].
  destruct (find_char c s); cbn [option_map]; [split; [easy|]|];
    intuition congruence.
Qed.
Lemma find_char_app c a b : ~ In c a -> find_char c (a ++ c :: b) = Some (List.length a).
Proof.
  induction a as [|x a IH]; intro H; cbn [app find_char List.length].
  - rewrite N.eqb_refl. reflexivity.
  - destruct (N.eqb_spec x c) as [->|_]; [exfalso; apply H; left; reflexivity|].
    rewrite IH; [reflexivity|]. intro I. apply H. right. exact I.
Qed.
Lemma rfind_char_None c s : rfind_char c s = None <-> ~ In c s.
Proof.
  induction s as [|a s IH]; cbn [rfind_char In]; [easy|].
  destruct (rfind_char c s).
  - split; [easy|]. intuition congruence.
  - destruct (N.eqb_spec a c) as [->|N]; intuition congruence.
Qed.
Lemma rfind_char_app c a b : ~ In c b -> rfind_char c (a ++ c :: b) = Some (List.length a).
Proof.
  induction a as [|x a IH]; intro H; cbn [app rfind_char List.length].
  - apply rfind_char_None in H. rewrite H, N.eqb_refl. reflexivity.
  - rewrite (IH H). reflexivity.
Qed.

Lemma find_sub_Some p s i :
  find_sub p s = Some i <->
  (i <= List.length s)%nat /\ starts_with p (skipn i s) = true
  /\ (forall j, (j < i)%nat -> starts_with p (skipn j s) = false).
Proof.
  revert i. induction s as [|a s IH]; intro i; cbn [find_sub].
  - destruct (starts_with p []) eqn:E.
    + split.
      * intro H. injection H as <-. repeat split; auto. intros j Hj. lia.
      * intros (L & _). cbn in L. f_equal. lia.
    + split; [easy|]. intros (L & P & _). cbn in L. replace i with 0%nat in P by lia.
      cbn [skipn] in P. congruence.
  - destruct (starts_with p (a :: s)) eqn:E.
    + split.
      * intro H. injection H as <-. repeat split; [lia|exact E|]. intros j Hj. lia.
      * intros (_ & _ & M). destruct i as [|i]; [reflexivity|].
        specialize (M 0%nat). cbn [skipn] in M. rewrite M in E by lia. discriminate.
    + destruct (find_sub p s) as [k|] eqn:F; cbn [option_map].
      * split.
        -- intro H. injection H as <-. destruct (proj1 (IH k) eq_refl) as (L & P & M).
           repeat split; [cbn; lia|exact P|]. intros [|j] Hj; [exact E|]. apply M. lia.
        -- intros (L & P & M). destruct i as [|i]; [cbn [skipn] in P; congruence|].
           f_equal. f_equal. cut (Some k = Some i); [congruence|]. apply IH.
           cbn in L. repeat split; [lia|exact P|]. intros j Hj. apply (M (S j)). lia.
      * split; [easy|]. intros (L & P & M). destruct i as [|i]; [cbn [skipn] in P; congruence|].
        exfalso. cut (@None nat = Some i); [easy|]. apply IH.
        cbn in L. repeat split; [lia|exact P|]. intros j Hj. apply (M (S j)). lia.
Qed.
Lemma find_sub_None p s :
  find_sub p s = None <-> forall i, (i <= List.length s)%nat -> starts_with p (skipn i s) = false.
Proof.
  induction s as [|a s IH]; cbn [find_sub].
  - destruct (starts_with p []) eqn:E; split; try easy.
    + intro H. specialize (H 0%nat). cbn [skipn] in H. rewrite H in E by lia. discriminate.
    + intros _ i Hi. cbn in Hi. replace i with 0%nat by lia. exact E.
  - destruct (starts_with p (a :: s)) eqn:E.
    + split; [easy|]. intro H. specialize (H 0%nat). cbn [skipn] in H. rewrite H in E by lia.
      discriminate.
    + destruct (find_sub p s) as [k|] eqn:F; cbn [option_map].
      * split; [easy|]. intro H. cut (Some k = None); [easy|]. apply IH.
        intros i Hi. apply (H (S i)). cbn. lia.
      * split; [|easy]. intros _ [|i] Hi; [exact E|]. cbn [skipn]. apply IH; [reflexivity|].
        cbn in Hi. lia.
Qed.

(** ** White space and tokens *)

Definition all_ws (s : str) : Prop := forallb is_ws s = true.
Definition no_ws (s : str) : Prop := forallb (fun c => negb (is_ws c)) s = true.
Definition is_token (s : str) : Prop := s <> [] /\ no_ws s.

Lemma all_ws_app a b : all_ws (a ++ b) <-> all_ws a /\ all_ws b.
Proof. unfold all_ws. rewrite forallb_app, andb_true_iff. reflexivity. Qed.
Lemma no_ws_app a b : no_ws (a ++ b) <-> no_ws a /\ no_ws b.
Proof. unfold no_ws. rewrite forallb_app, andb_true_iff. reflexivity. Qed.
Lemma all_ws_cons c b : all_ws (c :: b) <-> is_ws c = true /\ all_ws b.
Proof. unfold all_ws. cbn [forallb]. rewrite andb_true_iff. reflexivity. Qed.
Lemma no_ws_cons c b : no_ws (c :: b) <-> is_ws c = false /\ no_ws b.
Proof. unfold no_ws. cbn [forallb]. rewrite andb_true_iff, negb_true_iff. reflexivity. Qed.
Lemma all_ws_In s : all_ws s <-> forall c, In c s -> is_ws c = true.
Proof. apply forallb_forall. Qed.
Lemma no_ws_In s : no_ws s <-> forall c, In c s -> is_ws c = false.
Proof.
  unfold no_ws. rewrite forallb_forall. split; intros H c I; specialize (H c I);
    apply negb_true_iff in H || apply negb_true_iff; exact H.
Qed.
Lemma all_ws_rev s : all_ws (rev s) <-> all_ws s.
Proof. rewrite !all_ws_In. split; intros H c I; apply H; apply in_rev; rewrite ?rev_involutive; auto. Qed.
Lemma no_ws_rev s : no_ws (rev s) <-> no_ws s.
Proof. rewrite !no_ws_In. split; intros H c I; apply H; apply in_rev; rewrite ?rev_involutive; auto. Qed.
Lemma all_ws_spaces n : all_ws (spaces n).
Proof. unfold all_ws, spaces. induction n; [reflexivity|exact IHn]. Qed.

(** [s] is empty or starts with white space. *)
Definition ws_start (s : str) : Prop := match s with [] => True | c :: _ => is_ws c = true end.

Lemma split_ws_aux_tok a : forall cur s,
  no_ws a -> split_ws_aux cur (a ++ s) = split_ws_aux (rev a ++ cur) s.
Proof.
  induction a as [|c a IH]; intros cur s H; [reflexivity|].
  apply no_ws_cons in H. destruct H as [Hc H]. cbn [app split_ws_aux rev].
  rewrite Hc, (IH _ _ H). rewrite <- app_assoc. reflexivity.
Qed.
Lemma split_ws_ws w s : all_ws w -> split_ws (w ++ s) = split_ws s.
Proof.
  intro H. unfold split_ws. induction w as [|c w IH]; [reflexivity|].
  apply all_ws_cons in H. destruct H as [Hc H]. cbn [app split_ws_aux]. rewrite Hc. apply IH, H.
Qed.
Lemma split_ws_tok a s : is_token a -> ws_start s -> split_ws (a ++ s) = a :: split_ws s.
Proof.
  intros [N H] W. unfold split_ws. rewrite split_ws_aux_tok by exact H. rewrite app_nil_r.
  assert (rev a <> []) as Nr.
  { intro E. apply N. rewrite <- (rev_involutive a), E. reflexivity. }
  destruct s as [|c s]; cbn [split_ws_aux].
  - destruct (rev a) eqn:E; [contradiction|]. rewrite <- E, rev_involutive. reflexivity.
  - cbn in W. rewrite W. destruct (rev a) eqn:E; [contradiction|].
    rewrite <- E, rev_involutive. reflexivity.
Qed.
Lemma split_ws_all_ws w : all_ws w -> split_ws w = [].
Proof. intro H. rewrite <- (app_nil_r w). apply (split_ws_ws w [] H). Qed.

(** Every text is white space, or white space, a token and a rest that is empty
    or starts with white space. *)
Lemma tokenize s :
  all_ws s \/ exists w a r, s = w ++ a ++ r /\ all_ws w /\ is_token a /\ ws_start r.
Proof.
  induction s as [|c s IH]; [left; reflexivity|].
  destruct (is_ws c) eqn:E.
  - destruct IH as [H|(w & a & r & -> & W & T & R)].
    + left. apply all_ws_cons. auto.
    + right. exists (c :: w), a, r. repeat split; try assumption; try apply T.
      apply all_ws_cons. auto.
  - right. exists [].
    assert (exists a r, s = a ++ r /\ no_ws a /\ ws_start r) as (a & r & -> & A & R).
    { clear -s. induction s as [|d s (a & r & E & A & R)].
      - exists [], []. repeat split.
      - destruct (is_ws d) eqn:D.
        + exists [], (d :: s). repeat split. exact D.
        + exists (d :: a), r. subst s. repeat split; [|exact R]. apply no_ws_cons. auto. }
    exists (c :: a), r. repeat split; try assumption; try discriminate.
    apply no_ws_cons. auto.
Qed.
Lemma split_ws_nil s : split_ws s = [] <-> all_ws s.
Proof.
  split; [|apply split_ws_all_ws].
  intro H. destruct (tokenize s) as [W|(w & a & r & -> & W & T & R)]; [exact W|].
  rewrite split_ws_ws, split_ws_tok in H by assumption. discriminate.
Qed.
Lemma split_ws_cons s a l :
  split_ws s = a :: l <->
  exists w r, s = w ++ a ++ r /\ all_ws w /\ is_token a /\ ws_start r /\ split_ws r = l.
Proof.
  split.
  - intro H. destruct (tokenize s) as [W|(w & b & r & -> & W & T & R)].
    + rewrite split_ws_all_ws in H by exact W. discriminate.
    + rewrite split_ws_ws, split_ws_tok in H by assumption. injection H as <- <-.
      exists w, r. auto.
  - intros (w & r & -> & W & T & R & <-).
    rewrite split_ws_ws, split_ws_tok by assumption. reflexivity.
Qed.
Lemma split_ws_tokens s : Forall is_token (split_ws s).
Proof.
  remember (split_ws s) as l eqn:E. symmetry in E. revert s E.
  induction l as [|a l IH]; intros s E; constructor.
  - apply split_ws_cons in E. destruct E as (w & r & _ & _ & T & _). exact T.
  - apply split_ws_cons in E. destruct E as (w & r & _ & _ & _ & _ & E). eapply IH, E.
Qed.
Lemma split_ws_one a : is_token a -> split_ws a = [a].
Proof. intro T. rewrite <- (app_nil_r a) at 1. rewrite split_ws_tok; [reflexivity|exact T|exact I]. Qed.

Lemma split_ws_app_ws a b : ws_start b -> split_ws (a ++ b) = split_ws a ++ split_ws b.
Proof.
  intro W. remember (split_ws a) as l eqn:E. symmetry in E. revert a E.
  induction l as [|t l IH]; intros a E.
  - apply split_ws_nil in E. rewrite split_ws_ws by exact E. reflexivity.
  - apply split_ws_cons in E. destruct E as (w & r & -> & A & T & R & E).
    rewrite <- !app_assoc, split_ws_ws, split_ws_tok by (try assumption; destruct r; assumption).
    rewrite (IH r E). reflexivity.
Qed.

Lemma split_ws_join l : Forall is_token l -> split_ws (join (lit " ") l) = l.
Proof.
  induction l as [|a l IH]; intro H; [reflexivity|].
  inversion H as [|x y T F]; subst.
  destruct l as [|b l].
  - apply split_ws_one, T.
  - change (join (lit " ") (a :: b :: l)) with (a ++ 32%N :: join (lit " ") (b :: l)).
    rewrite split_ws_tok by (try exact T; reflexivity). f_equal.
    change (32%N :: join (lit " ") (b :: l)) with ([32%N] ++ join (lit " ") (b :: l)).
    rewrite split_ws_ws by reflexivity. apply IH, F.
Qed.

(** ** Trimming *)

Lemma trim_start_spec s : exists w, s = w ++ trim_start s /\ all_ws w
  /\ (match trim_start s with [] => True | c :: _ => is_ws c = false end).
Proof.
  induction s as [|c s (w & E & A & H)]; [exists []; repeat split|].
  cbn [trim_start]. destruct (is_ws c) eqn:D.
  - exists (c :: w). cbn [app]. rewrite <- E. repeat split; [apply all_ws_cons; auto|exact H].
  - exists []. repeat split. exact D.
Qed.
Lemma trim_end_spec s : exists w, s = trim_end s ++ w /\ all_ws w
  /\ (match rev (trim_end s) with [] => True | c :: _ => is_ws c = false end).
Proof.
  induction s as [|c s (w & E & A & H)]; [exists []; repeat split|].
  cbn [trim_end]. destruct (trim_end s) as [|d t] eqn:T.
  - cbn [app] in E. subst w. destruct (is_ws c) eqn:D.
    + exists (c :: s). repeat split. apply all_ws_cons; auto.
    + exists s. repeat split; auto.
  - exists w. rewrite E at 1. split; [reflexivity|]. split; [exact A|].
    cbn [rev] in *. destruct (rev t ++ [d]) eqn:R; [destruct (rev t); discriminate|].
    cbn [app]. exact H.
Qed.
Lemma trim_start_ws w s : all_ws w -> trim_start (w ++ s) = trim_start s.
Proof.
  induction w as [|c w IH]; intro H; [reflexivity|].
  apply all_ws_cons in H. destruct H as [Hc H]. cbn [app trim_start]. rewrite Hc. apply IH, H.
Qed.
Lemma trim_end_ws w s : all_ws w -> trim_end (s ++ w) = trim_end s.
Proof.
  intro H. induction s as [|c s IH].
  - cbn [app trim_end]. induction w as [|d w IHw]; [reflexivity|].
    apply all_ws_cons in H. destruct H as [Hd H]. cbn [trim_end]. rewrite (IHw H), Hd. reflexivity.
  - cbn [app trim_end]. rewrite IH. reflexivity.
Qed.
Lemma trim_end_id s : (match rev s with [] => True | c :: _ => is_ws c = false end) -> trim_end s = s.
Proof.
  intro H. destruct (trim_end_spec s) as (w & E & A & _).
  destruct w as [|c w _] using rev_ind; [rewrite app_nil_r in E; auto|].
  exfalso. rewrite E, !rev_app_distr in H. cbn [rev app] in H.
  apply all_ws_app in A. destruct A as [_ A]. apply all_ws_cons in A. destruct A. congruence.
Qed.
Lemma trim_start_id s : (match s with [] => True | c :: _ => is_ws c = false end) -> trim_start s = s.
Proof. destruct s as [|c s]; [reflexivity|]. intro H. cbn [trim_start]. rewrite H. reflexivity. Qed.

(** A text that neither starts nor ends with white space. *)
Definition trimmed (s : str) : Prop :=
  (match s with [] => True | c :: _ => is_ws c = false end)
  /\ (match rev s with [] => True | c :: _ => is_ws c = false end).
Lemma trim_id s : trimmed s -> trim s = s.
Proof. intros [A B]. unfold trim. rewrite trim_start_id by exact A. apply trim_end_id, B. Qed.
Lemma trim_end_start s c t : trim_end s = c :: t -> exists r, s = c :: r.
Proof.
  destruct s as [|a s]; cbn [trim_end]; [discriminate|].
  destruct (trim_end s) as [|b u]; [destruct (is_ws a); [discriminate|]|];
    intro H; injection H as <- <-; eauto.
Qed.
Lemma trim_spec s : exists w1 w2, s = w1 ++ trim s ++ w2 /\ all_ws w1 /\ all_ws w2 /\ trimmed (trim s).
Proof.
  destruct (trim_start_spec s) as (w1 & E1 & A1 & H1).
  destruct (trim_end_spec (trim_start s)) as (w2 & E2 & A2 & H2).
  exists w1, w2. unfold trim. split.
  - rewrite E1 at 1. rewrite E2 at 1. reflexivity.
  - repeat split; try assumption.
    destruct (trim_end (trim_start s)) as [|c t] eqn:T; [exact I|].
    apply trim_end_start in T. destruct T as [r T]. rewrite T in H1. exact H1.
Qed.
Lemma trim_wrap w1 s w2 : all_ws w1 -> all_ws w2 -> trimmed s -> trim (w1 ++ s ++ w2) = s.
Proof.
  intros A1 A2 T. unfold trim. rewrite trim_start_ws by exact A1.
  destruct s as [|c s].
  - cbn [app]. rewrite <- (app_nil_r w2), trim_start_ws by exact A2. reflexivity.
  - destruct T as [T1 T2]. rewrite trim_start_id by exact T1.
    rewrite trim_end_ws by exact A2. apply trim_end_id, T2.
Qed.
Lemma split_ws_trim s : split_ws (trim s) = split_ws s.
Proof.
  destruct (trim_spec s) as (w1 & w2 & E & A1 & A2 & T). rewrite E at 2.
  rewrite split_ws_ws by exact A1. destruct w2 as [|c w2].
  - rewrite app_nil_r. reflexivity.
  - rewrite split_ws_app_ws by (apply all_ws_cons in A2; apply A2).
    rewrite (split_ws_all_ws (c :: w2)) by exact A2. rewrite app_nil_r. reflexivity.
Qed.
Lemma trim_nil s : trim s = [] <-> all_ws s.
Proof.
  rewrite <- split_ws_nil, <- split_ws_trim.
  destruct (trim_spec s) as (_ & _ & _ & _ & _ & T & _).
  split; [intros ->; reflexivity|]. intro H. apply split_ws_nil in H.
  destruct (trim s) as [|c t]; [reflexivity|]. apply all_ws_cons in H. destruct H. congruence.
Qed.
Lemma trimmed_token a : is_token a -> trimmed a.
Proof.
  intros [N H]. split.
  - destruct a as [|c a]; [exact I|]. apply no_ws_cons in H. apply H.
  - apply no_ws_rev in H. destruct (rev a) as [|c r]; [exact I|]. apply no_ws_cons in H. apply H.
Qed.
