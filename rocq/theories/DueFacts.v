(** [due] and [by] in the first line of an envelope definition. *)
From Coq Require Import ZArith NArith List Bool String Lia.
From Verif Require Import Base Str StrFacts LineFacts F64 Date Amount Posting Entry Envelope
  SpecAmount SpecDefinition AmountFacts EntryFacts DefinitionFacts.
Import ListNotations.

(** An occurrence of [p] around a given character. *)
Lemma occ_cut (p x y a b : str) c : x ++ c :: y = a ++ p ++ b ->
  (exists b', b = b' ++ y /\ x ++ [c] = a ++ p ++ b')
  \/ (exists a', a = x ++ a' /\ c :: y = a' ++ p ++ b)
  \/ (exists p1 p2, p = p1 ++ c :: p2 /\ p1 <> [] /\ p2 <> [] /\ x = a ++ p1 /\ y = p2 ++ b).
Proof.
  revert a. induction x as [|d x IH]; intros a E; cbn [app] in *.
  - right. left. exists a. auto.
  - destruct a as [|e a].
    + cbn [app] in E. clear IH.
      (* p starts at d *)
      assert (K : forall q z, z ++ c :: y = q ++ b ->
        (exists b', b = b' ++ y /\ z ++ [c] = q ++ b') \/ (exists p2, q = z ++ c :: p2 /\ p2 <> [] /\ y = p2 ++ b)).
      { clear. intros q. induction q as [|f q IHq]; intros z E.
        - left. exists (z ++ [c]). rewrite <- app_assoc. auto.
        - destruct z as [|g z]; cbn [app] in E.
          + injection E as -> ->. destruct q as [|h q]; [left; exists []; auto|right; exists (h :: q); repeat split; discriminate].
          + injection E as -> E. apply IHq in E as [(b' & -> & E)|(p2 & -> & N & ->)].
            * left. exists b'. cbn [app]. rewrite E. auto.
            * right. exists p2. auto. }
      apply (K p (d :: x)) in E as [H|(p2 & -> & N & ->)]; [left; exact H|].
      right. right. exists (d :: x), p2. repeat split; [discriminate|exact N].
    + cbn [app] in E. injection E as <- E. apply IH in E as [(b' & -> & E)|[(a' & -> & E)|(p1 & p2 & -> & N1 & N2 & -> & ->)]].
      * left. exists b'. rewrite E. auto.
      * right. left. exists a'. auto.
      * right. right. exists p1, p2. auto.
Qed.

(** A word with a space on both sides. *)
Definition spaced (w : str) : str := 32%N :: w ++ [32%N].
Lemma occ_spaced w x y a b : ~ In 32%N w -> x ++ 32%N :: y = a ++ spaced w ++ b ->
  (exists b', b = b' ++ y /\ x ++ [32%N] = a ++ spaced w ++ b')
  \/ (exists a', a = x ++ a' /\ 32%N :: y = a' ++ spaced w ++ b).
Proof.
  intros W E. apply occ_cut in E as [H|[H|(p1 & p2 & E & N1 & N2 & _)]]; auto.
  exfalso. apply W. unfold spaced in E. destruct p1 as [|c p1]; [contradiction|].
  injection E as _ E. destruct (exists_last N2) as (p3 & d & ->).
  change (p1 ++ 32%N :: p3 ++ [d]) with (p1 ++ (32%N :: p3) ++ [d]) in E. rewrite app_assoc in E.
  apply app_inj_tail in E as [-> _]. apply in_or_app. right. left. reflexivity.
Qed.
Lemma inside_spaced w x y : ~ In 32%N w ->
  (inside (spaced w) (x ++ 32%N :: y) <-> inside (spaced w) (x ++ [32%N]) \/ inside (spaced w) (32%N :: y)).
Proof.
  intro W. split.
  - intros (a & b & E). apply occ_spaced in E as [(b' & -> & E)|(a' & -> & E)]; [| |exact W].
    + left. exists a, b'. exact E.
    + right. exists a', b. exact E.
  - intros [(a & b & E)|(a & b & E)].
    + exists a, (b ++ y). change (x ++ 32%N :: y) with (x ++ [32%N] ++ y). rewrite app_assoc, E, <- !app_assoc. reflexivity.
    + exists (x ++ a), b. rewrite E, <- app_assoc. reflexivity.
Qed.
Lemma inside_tail w t : ~ In 32%N t -> t <> [] -> ~ inside (spaced w) (t ++ [32%N]).
Proof.
  intros T N (a & b & E). unfold spaced in E. destruct a as [|c a].
  - destruct t as [|d t]; [contradiction|]. injection E as -> _. apply T. left. reflexivity.
  - assert (L : In 32%N (a ++ (32%N :: w))) by (apply in_or_app; right; left; reflexivity).
    assert (X : exists z, t = (c :: a) ++ 32%N :: w ++ z).
    { destruct b as [|e b] using rev_ind.
      - rewrite app_nil_r in E. change ((c :: a) ++ 32%N :: w ++ [32%N]) with ((c :: a) ++ (32%N :: w) ++ [32%N]) in E.
        rewrite app_assoc in E. apply app_inj_tail in E as [-> _]. exists []. rewrite app_nil_r. reflexivity.
      - change ((c :: a) ++ (32%N :: w ++ [32%N]) ++ b ++ [e]) with ((c :: a) ++ (32%N :: (w ++ [32%N])) ++ b ++ [e]) in E.
        rewrite !app_assoc in E. apply app_inj_tail in E as [-> _]. exists ([32%N] ++ b). rewrite <- !app_assoc. cbn [app].
        rewrite <- !app_assoc. reflexivity. }
    destruct X as (z & ->). apply T. apply in_or_app. right. left. reflexivity.
Qed.
Lemma inside_word w t : ~ In 32%N t -> (inside (spaced w) (32%N :: t ++ [32%N]) <-> w = t \/ False) .
Proof.
  intro T. split.
  - intros (a & b & E). left. destruct a as [|c a].
    + unfold spaced in E. cbn [app] in E. injection E as E.
      rewrite <- app_assoc in E. cbn [app] in E.
      destruct b as [|e b] using rev_ind.
      * apply app_inj_tail in E as [E _]. auto.
      * exfalso. change (w ++ 32%N :: b ++ [e]) with (w ++ (32%N :: b) ++ [e]) in E. rewrite app_assoc in E.
        apply app_inj_tail in E as [-> _]. apply T. apply in_or_app. right. left. reflexivity.
    + injection E as <- E. exfalso. destruct t as [|d t].
      * cbn in E. unfold spaced in E. destruct a as [|g a]; cbn in E; injection E as E.
        -- destruct w; discriminate.
        -- destruct a; discriminate.
      * apply (inside_tail w (d :: t)); [exact T|discriminate|]. exists a, b. exact E.
  - intros [->|[]]. exists [], []. rewrite app_nil_r. reflexivity.
Qed.

(** The last word of the front part, when the back part does not have it. *)
Lemma after_left w x y : ~ In 32%N w -> ~ inside (spaced w) (32%N :: y) ->
  after_all (spaced w) ((x ++ 32%N :: w) ++ 32%N :: y) y.
Proof.
  intros W N. exists x. split; [unfold spaced; rewrite <- !app_assoc; cbn [app]; rewrite <- app_assoc; reflexivity|].
  intros a' b' E'. apply occ_spaced in E' as [(b2 & -> & E')|(a2 & -> & E')]; [| |exact W].
  - apply (f_equal (@List.length _)) in E'. unfold spaced in E'. rewrite !app_length in E'. cbn in E'. rewrite !app_length in E'. cbn in E'. lia.
  - destruct N. exists a2, b'. exact E'.
Qed.

(** ** Comments behind a text *)
Lemma rc_cons c s : ~ mark_at (c :: s) -> remove_comments (c :: s) = c :: remove_comments s.
Proof.
  intro N. destruct (remove_comments_spec s) as (rest & E & M & K). apply remove_comments_iff.
  exists rest. split; [cbn [app]; rewrite <- E; reflexivity|]. split; [|exact K].
  intros [|i] L; [exact N|]. apply M. cbn in L. lia.
Qed.
Lemma rc_front a z : markfree a = true -> no_slash_start z -> remove_comments (a ++ z) = a ++ remove_comments z.
Proof.
  intros M Z. induction a as [|c a IH]; [reflexivity|]. apply markfree_cons in M as [N M]. cbn [app].
  rewrite rc_cons; [rewrite (IH M); reflexivity|].
  intros [[r H]|[r H]]; injection H as -> H.
  - apply N. left. eauto.
  - destruct a as [|d a]; cbn [app] in H.
    + rewrite H in Z. apply Z. reflexivity.
    + injection H as -> H. apply N. right. eauto.
Qed.
Lemma rc_space s : remove_comments (32%N :: s) = 32%N :: remove_comments s.
Proof. apply rc_cons. intros [[r H]|[r H]]; discriminate. Qed.

(** ** The parts of the line *)
Definition by_ : str := lit "by".
Definition due_ : str := lit "due".

Lemma kind_no_space k : ~ In 32%N (kind_word k).
Proof. destruct k; cbn; intuition discriminate. Qed.
Lemma kind_not_nil k : kind_word k <> [].
Proof. destruct k; discriminate. Qed.
Lemma token_no_space t : is_token t -> ~ In 32%N t.
Proof. intros [_ N] I. rewrite no_ws_In in N. specialize (N _ I). discriminate. Qed.

Lemma front_inside k name w : is_token name -> ~ In 32%N w ->
  (inside (spaced w) (front k name ++ [32%N]) <-> w = name).
Proof.
  intros T W. unfold front. rewrite <- app_assoc. cbn [app]. rewrite inside_spaced by exact W.
  rewrite inside_word by (apply token_no_space, T). split; [|auto].
  intros [H|[H|[]]]; [|exact H]. destruct (inside_tail w _ (kind_no_space k) (kind_not_nil k) H).
Qed.
Lemma due_words_inside k name u w : is_token name -> ~ In 32%N w -> In u due_words ->
  inside (spaced w) (front k name ++ u ++ [32%N]) -> w = name \/ w = due_ \/ w = by_.
Proof.
  intros T W U H. cbn [due_words In] in U. destruct U as [<-|[<-|[<-|[]]]].
  - change (lit " due" ++ [32%N]) with (32%N :: due_ ++ [32%N]) in H. rewrite inside_spaced, front_inside, inside_word in H; auto; [tauto|].
    cbn. intuition discriminate.
  - change (lit " by" ++ [32%N]) with (32%N :: by_ ++ [32%N]) in H. rewrite inside_spaced, front_inside, inside_word in H; auto; [tauto|].
    cbn. intuition discriminate.
  - change (lit " due by" ++ [32%N]) with ((32%N :: due_) ++ 32%N :: by_ ++ [32%N]) in H. rewrite app_assoc in H.
    rewrite inside_spaced, inside_word, <- app_assoc in H; auto; [|cbn; intuition discriminate].
    change ((32%N :: due_) ++ [32%N]) with (32%N :: due_ ++ [32%N]) in H.
    rewrite inside_spaced, front_inside, inside_word in H; auto; [tauto|]. cbn. intuition discriminate.
Qed.

(** Words without a space, joined by one. *)
Definition joined (u v : str) : str := u ++ 32%N :: v.
Lemma inside_joined u v x y : ~ In 32%N u -> ~ In 32%N v -> inside (joined u v) (x ++ 32%N :: y) ->
  inside (joined u v) x \/ inside (joined u v) y \/ ((exists a, x = a ++ u) /\ (exists b, y = v ++ b)).
Proof.
  intros U V (a & b & E). unfold joined in *. apply occ_cut in E as [(b' & -> & E)|[(a' & -> & E)|(p1 & p2 & E & N1 & N2 & -> & ->)]].
  - destruct b' as [|e b'] using rev_ind.
    + rewrite app_nil_r in E. destruct v as [|c v] using rev_ind.
      * change (a ++ u ++ [32%N]) with (a ++ (u ++ [32%N])) in E. rewrite app_assoc in E. apply app_inj_tail in E as [-> _].
        right. right. split; [eauto|]. exists y. reflexivity.
      * exfalso. change (a ++ u ++ 32%N :: v ++ [c]) with (a ++ u ++ (32%N :: v) ++ [c]) in E. rewrite !app_assoc in E.
        apply app_inj_tail in E as [_ <-]. apply V, in_or_app. right. left. reflexivity.
    + left. rewrite !app_assoc in E. apply app_inj_tail in E as [-> _]. exists a, b'. rewrite <- !app_assoc. reflexivity.
  - destruct a' as [|e a'].
    + cbn [app] in E. destruct u as [|c u].
      * cbn [app] in E. injection E as ->. right. right. split; [exists x; symmetry; apply app_nil_r|eauto].
      * injection E as <- E. exfalso. apply U. left. reflexivity.
    + injection E as <- E. right. left. exists a', b. exact E.
  - right. right. assert (u = p1 /\ v = p2) as [-> ->].
    { clear - U V E. revert u U E. induction p1 as [|c p1 IH]; intros [|d u] U E; cbn [app] in E.
      - injection E as <-. auto.
      - injection E as -> E. exfalso. apply U. left. reflexivity.
      - injection E as <- E. exfalso. apply V. rewrite E. apply in_or_app. right. left. reflexivity.
      - injection E as -> E. destruct (IH u) as [-> ->]; auto. intro I. apply U. right. exact I. }
    split; [eauto|]. exists b. reflexivity.
Qed.
Lemma joined_space u v t : ~ In 32%N t -> ~ inside (joined u v) t.
Proof. intros T (a & b & ->). apply T. unfold joined. rewrite !in_app_iff. cbn. tauto. Qed.
Lemma no_date_front k name u q : is_token name -> In u due_words -> (q = [] \/ exists r, q = 32%N :: r) ->
  (inside (lit "no date") (front k name ++ u ++ q) <-> inside (lit "no date") q).
Proof.
  intros T U Q. change (lit "no date") with (joined (lit "no") (lit "date")).
  assert (N : ~ In 32%N (lit "no")) by (cbn; intuition discriminate).
  assert (D : ~ In 32%N (lit "date")) by (cbn; intuition discriminate).
  assert (Tn := token_no_space _ T).
  split; [|intros (a & b & E); exists (front k name ++ u ++ a), b; rewrite E, <- !app_assoc; reflexivity].
  assert (Last : forall a (w : str), w ++ [chr "e"] = a ++ lit "no" -> False).
  { intros a w E. change (lit "no") with ([chr "n"] ++ [chr "o"]) in E. rewrite app_assoc in E. apply app_inj_tail in E as [_ E]. discriminate. }
  assert (Last2 : forall a (w : str), w ++ [chr "y"] = a ++ lit "no" -> False).
  { intros a w E. change (lit "no") with ([chr "n"] ++ [chr "o"]) in E. rewrite app_assoc in E. apply app_inj_tail in E as [_ E]. discriminate. }
  assert (Kd : forall a, kind_word k <> a ++ lit "no").
  { intros a E. change (lit "no") with ([chr "n"] ++ [chr "o"]) in E. rewrite app_assoc in E.
    destruct k; [change (kind_word Expense) with (lit "expens" ++ [chr "e"]) in E|change (kind_word Goal) with (lit "goa" ++ [chr "l"]) in E];
      apply app_inj_tail in E as [_ E]; discriminate. }
  assert (B : forall x w, inside (joined (lit "no") (lit "date")) ((x ++ 32%N :: w) ++ q) ->
    (w = due_ \/ w = by_) ->
    inside (joined (lit "no") (lit "date")) q \/ inside (joined (lit "no") (lit "date")) (x ++ 32%N :: w)).
  { intros x w H W. destruct Q as [->|[r ->]]; [rewrite app_nil_r in H; auto|].
    apply inside_joined in H as [H|[H|[[a H] _]]]; auto.
    - left. destruct H as (a & b & ->). exists (32%N :: a), b. reflexivity.
    - exfalso. destruct W as [-> | ->].
      + apply (Last a (x ++ 32%N :: lit "du")). rewrite <- H, <- app_assoc. reflexivity.
      + apply (Last2 a (x ++ 32%N :: lit "b")). rewrite <- H, <- app_assoc. reflexivity. }
  assert (F : forall w, (w = due_ \/ w = by_) -> ~ inside (joined (lit "no") (lit "date")) (front k name ++ 32%N :: w)).
  { intros w W H. apply inside_joined in H as [H|[H|[_ [b H]]]]; auto.
    - unfold front in H. apply inside_joined in H as [H|[H|[[a H] _]]]; auto.
      + exact (joined_space _ _ _ (kind_no_space k) H).
      + exact (joined_space _ _ _ Tn H).
      + exact (Kd _ H).
    - apply joined_space in H; [exact H|]. destruct W as [-> | ->]; cbn; intuition discriminate.
    - destruct W as [-> | ->]; discriminate. }
  cbn [due_words In] in U. destruct U as [<-|[<-|[<-|[]]]]; intro H.
  - rewrite app_assoc in H. apply (B _ due_) in H; [|auto].
    destruct H as [H|H]; [exact H|]. destruct (F due_ (or_introl eq_refl) H).
  - rewrite app_assoc in H. apply (B _ by_) in H; [|auto].
    destruct H as [H|H]; [exact H|]. destruct (F by_ (or_intror eq_refl) H).
  - change (lit " due by") with ((32%N :: due_) ++ 32%N :: by_) in H.
    replace (front k name ++ ((32%N :: due_) ++ 32%N :: by_) ++ q) with (((front k name ++ 32%N :: due_) ++ 32%N :: by_) ++ q) in H
      by (rewrite <- !app_assoc; reflexivity).
    apply B in H; [|auto]. destruct H as [H|H]; [exact H|]. exfalso.
    apply inside_joined in H as [H|[H|[_ [b H]]]]; auto.
    + exact (F due_ (or_introl eq_refl) H).
    + apply joined_space in H; [exact H|]. cbn; intuition discriminate.
    + discriminate.
Qed.

Lemma due_words_markfree k name u : markfree name = true -> In u due_words ->
  markfree (front k name ++ u) = true /\ (forall z, no_slash_start (u ++ z)).
Proof.
  intros M U. split.
  - unfold front. rewrite <- app_assoc. apply markfree_app; [destruct k; reflexivity| |discriminate].
    cbn [app]. apply markfree_cons. split; [intros [[r H]|[r H]]; discriminate|].
    apply markfree_app; [exact M| |]; cbn [due_words In] in U; destruct U as [<-|[<-|[<-|[]]]]; reflexivity || discriminate.
  - intro z. cbn [due_words In] in U; destruct U as [<-|[<-|[<-|[]]]]; discriminate.
Qed.
Lemma due_words_tokens k name u z : is_token name -> In u due_words -> ws_start z ->
  exists more, split_ws (front k name ++ u ++ z) = kind_word k :: name :: more.
Proof.
  intros T U Z. unfold front. rewrite <- app_assoc. cbn [app].
  assert (Tk : is_token (kind_word k)) by (split; [apply kind_not_nil|destruct k; reflexivity]).
  rewrite split_ws_tok by (exact Tk || reflexivity). rewrite split_ws_space.
  rewrite split_ws_tok; [eauto|exact T|].
  cbn [due_words In] in U; destruct U as [<-|[<-|[<-|[]]]]; reflexivity.
Qed.
Lemma prefix_inside p z s : inside p z -> (exists r, s = z ++ r) -> inside p s.
Proof. intros (a & b & ->) [r ->]. exists a, (b ++ r). rewrite <- !app_assoc. reflexivity. Qed.

Section Line.
Variables (k : envtype) (name u post fmt : str).
Hypothesis T : is_token name.
Hypothesis M : markfree name = true.
Hypothesis Nb : name <> by_.
Hypothesis Ns : name <> lit "starting".
Hypothesis U : In u due_words.
Hypothesis Pb : ~ inside (lit " by ") (32%N :: post).
Hypothesis Pd : u = lit " due" -> ~ inside (lit " due ") (32%N :: post).
Hypothesis Ps : forall r, post <> lit "starting " ++ r.

Lemma no_starting_front : ~ inside (lit " starting ") (front k name ++ u ++ [32%N]).
Proof.
  change (lit " starting ") with (spaced (lit "starting")). intro H.
  apply due_words_inside in H; auto; [|cbn; intuition discriminate].
  destruct H as [H|[H|H]]; [symmetry in H; contradiction|discriminate|discriminate].
Qed.
Lemma starting_first a t :
  first_inside (lit " starting ") (front k name ++ u ++ 32%N :: post) a t <->
  exists z, a = front k name ++ u ++ z /\ first_inside (lit " starting ") (32%N :: post) z t.
Proof.
  change (lit " starting ") with (spaced (lit "starting")).
  assert (W : ~ In 32%N (lit "starting")) by (cbn; intuition discriminate).
  assert (NF : forall a b, front k name ++ u ++ [32%N] = a ++ spaced (lit "starting") ++ b -> False).
  { intros x y E. apply no_starting_front. exists x, y. exact E. }
  rewrite app_assoc. split.
  - intros [E Mn]. destruct (occ_spaced _ _ _ _ _ W E) as [(b' & -> & E')|(z & -> & E')].
    + rewrite <- app_assoc in E'. destruct (NF _ _ E').
    + exists z. split; [rewrite <- app_assoc; reflexivity|]. split; [exact E'|].
      intros z' b' E2. specialize (Mn ((front k name ++ u) ++ z') b'). rewrite E2, <- !app_assoc in Mn.
      specialize (Mn eq_refl). rewrite !app_length in Mn. lia.
  - intros (z & -> & E & Mn). split; [rewrite E, <- !app_assoc; reflexivity|].
    intros a' b' E2. destruct (occ_spaced _ _ _ _ _ W E2) as [(b2 & -> & E')|(z' & -> & E')].
    + rewrite <- app_assoc in E'. destruct (NF _ _ E').
    + specialize (Mn _ _ E'). rewrite !app_length. lia.
Qed.
Lemma starting_none : inside (lit " starting ") (front k name ++ u ++ 32%N :: post) <-> inside (lit " starting ") (32%N :: post).
Proof.
  change (lit " starting ") with (spaced (lit "starting")). rewrite app_assoc.
  rewrite inside_spaced by (cbn; intuition discriminate). rewrite <- app_assoc.
  split; [|auto]. intros [H|H]; [destruct (no_starting_front H)|exact H].
Qed.

Lemma due_core starting q f : (exists r, 32%N :: post = (32%N :: q) ++ r) ->
  (due_in fmt starting (front k name ++ u ++ 32%N :: q) f <->
   (inside (lit "no date") (32%N :: q) /\ f = Never)
   \/ (~ inside (lit "no date") (32%N :: q) /\ recurs fmt starting q f)).
Proof.
  intro Pre. unfold due_in. rewrite no_date_front by (eauto || (right; eauto)).
  assert (Qb : ~ inside (spaced by_) (32%N :: q)) by (intro H; apply Pb; exact (prefix_inside _ _ _ H Pre)).
  assert (Qd : u = lit " due" -> ~ inside (spaced due_) (32%N :: q)) by (intros Eu H; apply (Pd Eu); exact (prefix_inside _ _ _ H Pre)).
  assert (Wb : ~ In 32%N by_) by (cbn; intuition discriminate).
  assert (Wd : ~ In 32%N due_) by (cbn; intuition discriminate).
  assert (K : forall r, (after_all (spaced by_) (front k name ++ u ++ 32%N :: q) r
    \/ (~ inside (spaced by_) (front k name ++ u ++ 32%N :: q) /\ after_all (spaced due_) (front k name ++ u ++ 32%N :: q) r))
    <-> r = q).
  { intro r. pose proof U as V. cbn [due_words In] in V. destruct V as [V|[V|[V|[]]]]; symmetry in V.
    - specialize (Qd V). rewrite V, app_assoc. assert (A := after_left due_ (front k name) q Wd Qd).
      assert (NI : ~ inside (spaced by_) ((front k name ++ 32%N :: due_) ++ 32%N :: q)).
      { rewrite inside_spaced by exact Wb. intros [H|H]; [|contradiction].
        rewrite <- app_assoc in H. change ((32%N :: due_) ++ [32%N]) with (32%N :: due_ ++ [32%N]) in H.
        rewrite inside_spaced, front_inside, inside_word in H; auto. destruct H as [H|[H|[]]]; [auto|discriminate]. }
      split.
      + intros [H|[_ H]]; [destruct H as (a & E & _); destruct NI; exists a, r; exact E|].
        exact (after_all_unique _ _ _ _ H A).
      + intros ->. right. auto.
    - rewrite V, app_assoc. assert (A := after_left by_ (front k name) q Wb Qb). split.
      + intros [H|[NI _]]; [exact (after_all_unique _ _ _ _ H A)|].
        destruct NI. destruct A as (a & E & _). exists a, q. exact E.
      + intros ->. left. exact A.
    - rewrite V. change (lit " due by") with ((32%N :: due_) ++ 32%N :: by_).
      replace (front k name ++ ((32%N :: due_) ++ 32%N :: by_) ++ 32%N :: q)
        with (((front k name ++ 32%N :: due_) ++ 32%N :: by_) ++ 32%N :: q) by (rewrite <- !app_assoc; reflexivity).
      assert (A := after_left by_ (front k name ++ 32%N :: due_) q Wb Qb). split.
      + intros [H|[NI _]]; [exact (after_all_unique _ _ _ _ H A)|].
        destruct NI. destruct A as (a & E & _). exists a, q. exact E.
      + intros ->. left. exact A. }
  change (lit " by ") with (spaced by_). change (lit " due ") with (spaced due_).
  split; (intros [H|[N H]]; [left; exact H|right; split; [exact N|]]).
  - destruct H as (r & H & R). apply K in H. subst r. exact R.
  - exists q. split; [apply K; reflexivity|exact H].
Qed.

Lemma rc_prefix s : exists r, s = remove_comments s ++ r.
Proof. destruct (remove_comments_spec s) as (r & E & _). exists r. exact E. Qed.

Lemma line_header account v : envelope_header (front k name ++ u ++ 32%N :: post) fmt account = Ok v <->
  exists starting f, tail_says fmt post starting f /\ v = header_envelope account name k starting f.
Proof.
  rewrite header_iff.
  destruct (due_words_markfree k name u M U) as [MF NS].
  assert (RC : forall z, remove_comments (front k name ++ u ++ 32%N :: z) = front k name ++ u ++ 32%N :: remove_comments z).
  { intro z. rewrite app_assoc, rc_front by (exact MF || discriminate). rewrite rc_space, <- app_assoc. reflexivity. }
  assert (TK : forall z, exists more, split_ws (remove_comments (front k name ++ u ++ 32%N :: z)) = kind_word k :: name :: more).
  { intro z. rewrite RC. apply due_words_tokens; auto. reflexivity. }
  assert (PZ : forall z t, first_inside (lit " starting ") (32%N :: post) z t -> exists z', z = 32%N :: z').
  { intros [|c z] t [E _]; [cbn [app] in E; injection E as E; destruct (Ps _ E)|].
    injection E as <- E. eauto. }
  assert (PRE : forall q r, 32%N :: post = (32%N :: q) ++ r -> exists r', 32%N :: post = (32%N :: remove_comments q) ++ r').
  { intros q r E. destruct (rc_prefix q) as [r1 E1]. exists (r1 ++ r). rewrite E. rewrite E1 at 1. cbn [app]. rewrite <- app_assoc. reflexivity. }
  split.
  - intros (kind & n & starting & f & (more & before & Tk & S & D) & ->). destruct (TK post) as [more' Tk'].
    rewrite Tk' in Tk. injection Tk as Ek <- _.
    assert (k = kind) as <- by (destruct k, kind; discriminate || reflexivity).
    exists starting, f. split; [|reflexivity]. destruct S as [(-> & NI & ->)|(d & t & -> & FI & P)].
    + rewrite starting_none in NI. exists (32%N :: post). split; [left; auto|].
      rewrite RC in D. apply due_core in D; [|exact (PRE post [] (eq_sym (app_nil_r _)))].
      rewrite rc_space. destruct D as [D|[D R]]; [left; exact D|right; eauto].
    + apply starting_first in FI as (z & -> & FI). destruct (PZ _ _ FI) as [z' ->].
      exists (32%N :: z'). split; [right; exists d, t; auto|].
      rewrite RC in D. apply due_core in D; [|destruct FI as [E _]; exact (PRE _ _ E)].
      rewrite rc_space. destruct D as [D|[D R]]; [left; exact D|right; eauto].
  - intros (starting & f & (z & S & D) & ->). exists k, name, starting, f. split; [|reflexivity].
    assert (Z : exists z', z = 32%N :: z' /\ exists r, 32%N :: post = (32%N :: z') ++ r).
    { destruct S as [(_ & _ & ->)|(d & t & _ & FI & _)]; [exists post; split; [reflexivity|exists []; symmetry; apply app_nil_r]|].
      destruct (PZ _ _ FI) as [z' ->]. exists z'. split; [reflexivity|]. destruct FI as [E _]. eauto. }
    destruct Z as (z' & -> & r0 & Er). destruct (TK post) as [more Tk].
    exists more, (front k name ++ u ++ 32%N :: z'). split; [exact Tk|]. split.
    + destruct S as [(-> & NI & E)|(d & t & -> & FI & P)].
      * left. rewrite starting_none. injection E as ->. auto.
      * right. exists d, t. split; [reflexivity|]. split; [|exact P]. apply starting_first. eauto.
    + rewrite RC. apply due_core; [exact (PRE _ _ Er)|]. rewrite rc_space in D.
      destruct D as [D|[D (r & E & R)]]; [left; exact D|]. injection E as <-. right. auto.
Qed.
End Line.
