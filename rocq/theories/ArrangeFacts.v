(** Definitions in another order: what loading, filling and reporting do with them. *)
From Coq Require Import ZArith NArith List Bool String Permutation.
From Verif Require Import Base Str F64 Date World Amount Posting Entry Envelope Account Register Ledger
  SpecText SpecEnvelope SpecDefinition SpecLedger SpecArrange
  StrFacts LineFacts PostingFacts EntryFacts DefinitionFacts EnvelopeFacts AccountFacts LedgerFacts LoadFacts WordsFacts LayoutFacts.
Import ListNotations.

Lemma both_trans {A} (R : A -> A -> Prop) r s t : (forall a b c, R a b -> R b c -> R a c) -> both R r s -> both R s t -> both R r t.
Proof. intro T. destruct r, s, t; cbn; try contradiction; try exact (fun _ _ => I); try (intros; exact I). apply T. Qed.
Lemma bind_assoc {A C D} (r : res A) (f : A -> res C) (g : C -> res D) : bind (bind r f) g = bind r (fun x => bind (f x) g).
Proof. destruct r; reflexivity. Qed.
Lemma both_same {A} (R : A -> A -> Prop) r : (forall a, R a a) -> both R r r.
Proof. intro H. destruct r; cbn; auto. Qed.

(** ** Envelopes and accounts *)
Lemma same_envelope_refl v : same_envelope v v.
Proof. unfold same_envelope. intuition auto. Qed.
Lemma same_envelope_trans u v w : same_envelope u v -> same_envelope v w -> same_envelope u w.
Proof. unfold same_envelope. intros (? & ? & ? & ? & ? & ? & ? & ? & ? & ? & A) (? & ? & ? & ? & ? & ? & ? & ? & ? & ? & B). repeat split; try congruence; intro Q; [apply B, A, Q|apply A, B, Q]. Qed.
Lemma Forall2_same {A} (R : A -> A -> Prop) l : (forall a, R a a) -> Forall2 R l l.
Proof. intro H. induction l; constructor; auto. Qed.
Lemma Forall2_compose {A} (R : A -> A -> Prop) l m n : (forall a b c, R a b -> R b c -> R a c) -> Forall2 R l m -> Forall2 R m n -> Forall2 R l n.
Proof. intro T. intro F. revert n. induction F; intros n G; inversion G; subst; constructor; eauto. Qed.
Lemma same_account_refl a : same_account a a.
Proof. repeat split; apply Forall2_same, same_envelope_refl. Qed.
Lemma same_account_trans a b c : same_account a b -> same_account b c -> same_account a c.
Proof.
  intros (? & ? & ? & ?) (? & ? & ? & ?). split; [congruence|]. split; [congruence|].
  split; eapply Forall2_compose; eauto using same_envelope_trans.
Qed.

Lemma auto_In v s a : In a (v_auto (add_env_auto v s)) <-> a = s \/ In a (v_auto v).
Proof.
  cbn [add_env_auto v_auto]. unfold set_insert. destruct (mem s (v_auto v)) eqn:M.
  - apply mem_In in M. split; [auto|]. intros [->|H]; assumption.
  - rewrite in_app_iff. cbn. intuition auto.
Qed.
Lemma setting_same v u s : same_envelope v u -> same_envelope (apply_setting v s) (apply_setting u s).
Proof.
  intros (H1 & H2 & H3 & H4 & H5 & H6 & H7 & H8 & H9 & H10 & A). destruct s as [x|x|x]; cbn [apply_setting].
  - unfold same_envelope. do 10 (split; [assumption|]). intro a. rewrite !auto_In, A. reflexivity.
  - unfold same_envelope, set_env_amount. cbn. rewrite H7, H8. repeat split; try assumption; apply A.
  - unfold same_envelope, set_env_funding. cbn. repeat split; try assumption; apply A.
Qed.
Lemma line_same dsym v u l : same_envelope v u -> both same_envelope (add_body_line dsym v l) (add_body_line dsym u l).
Proof.
  intro H. apply both_intro.
  - intros a E. apply line_iff in E as (s & L & ->). exists (apply_setting u s). split; [apply line_iff; eauto|apply setting_same, H].
  - intros a E. apply line_iff in E as (s & L & ->). exists (apply_setting v s). apply line_iff. eauto.
Qed.
Lemma lines_same dsym ls : forall v u, same_envelope v u -> both same_envelope (fold_res (add_body_line dsym) ls v) (fold_res (add_body_line dsym) ls u).
Proof.
  induction ls as [|l ls IH]; intros v u H; [exact H|]. cbn [fold_res]. eapply both_bind; [apply line_same, H|]. intros a b Q. apply IH, Q.
Qed.

(** Two lines change places. *)
Lemma settings_swap v s t : setting_word s <> setting_word t \/ setting_word s = lit "for" /\ setting_word t = lit "for" ->
  same_envelope (apply_setting (apply_setting v s) t) (apply_setting (apply_setting v t) s).
Proof.
  destruct s as [x|x|x], t as [y|y|y]; cbn [setting_word]; intro H;
    try (exfalso; destruct H as [H|[H H']]; [apply H; reflexivity|discriminate]; fail);
    try (apply same_envelope_refl; fail).
  cbn [apply_setting]. unfold same_envelope. do 10 (split; [reflexivity|]). intro a. rewrite !auto_In. tauto.
Qed.
Definition two (dsym : char) (x y : str) (v : envelope) : res envelope :=
  let! u := add_body_line dsym v x in add_body_line dsym u y.
Lemma two_swap dsym x y v : markfree x = true -> markfree y = true -> independent x y -> both same_envelope (two dsym x y v) (two dsym y x v).
Proof.
  intros Mx My (_ & _ & j & k & Wx & Wy & D). unfold two.
  assert (G : forall s t, line_says dsym x s -> line_says dsym y t -> setting_word s <> setting_word t \/ setting_word s = lit "for" /\ setting_word t = lit "for").
  { intros s t (k1 & v1 & _ & _ & H1 & _) (k2 & v2 & _ & _ & H2 & _). rewrite (remove_comments_markfree _ Mx) in H1. rewrite (remove_comments_markfree _ My) in H2.
    unfold first_word in Wx, Wy. rewrite Wx in H1. rewrite Wy in H2. injection H1 as ->. injection H2 as ->.
    destruct D as [D| ->]; [left; exact D|]. destruct (list_eq_dec N.eq_dec (lit "for") (setting_word t)) as [E|E]; [right; auto|left; exact E]. }
  apply both_intro.
  - intros a E. apply bind_Ok in E as (u & E & F). apply line_iff in E as (s & Ls & ->). apply line_iff in F as (t & Lt & ->).
    exists (apply_setting (apply_setting v t) s). split; [|apply settings_swap, G; assumption].
    rewrite (proj2 (line_iff dsym v y _) (ex_intro _ t (conj Lt eq_refl))). cbn [bind]. apply line_iff. eauto.
  - intros a E. apply bind_Ok in E as (u & E & F). apply line_iff in E as (t & Lt & ->). apply line_iff in F as (s & Ls & ->).
    exists (apply_setting (apply_setting v s) t).
    rewrite (proj2 (line_iff dsym v x _) (ex_intro _ s (conj Ls eq_refl))). cbn [bind]. apply line_iff. eauto.
Qed.

(** ** The text of an envelope *)
Lemma body_line_end dsym v l : markfree l = true -> add_body_line dsym v (trim_end l) = add_body_line dsym v l.
Proof.
  intro M. unfold add_body_line. pose proof (markfree_trim_end _ M) as M'.
  rewrite (remove_comments_markfree _ M), (remove_comments_markfree _ M'). rewrite trim_of_end. reflexivity.
Qed.
Definition blank_line (l : str) : bool := match trim_start l with [] => true | _ => false end.
Lemma ts_app P : forall R, R <> [] -> ts (P ++ R) = if forallb blank_line P then ts R else ts P ++ R.
Proof.
  induction P as [|p P IH]; intros R N; [reflexivity|]. cbn [app ts forallb]. unfold blank_line at 1. destruct (trim_start p) as [|c t]; [|reflexivity].
  cbn [andb]. destruct P as [|q P].
  - cbn [app forallb]. destruct R; [contradiction|reflexivity].
  - cbn [app]. specialize (IH R N). cbn [app] in IH. rewrite IH. reflexivity.
Qed.
Lemma ts_solid P : forallb blank_line P = false -> exists h A, ts P = h :: A.
Proof.
  induction P as [|p P IH]; [discriminate|]. cbn [ts forallb]. unfold blank_line at 1. destruct (trim_start p) as [|c t]; [|eauto].
  cbn [andb]. intro H. destruct P as [|q P]; [discriminate|]. apply IH, H.
Qed.
Lemma te_app P : forall R, R <> [] -> te R <> [[]] -> te (P ++ R) = P ++ te R.
Proof.
  induction P as [|p P IH]; intros R N T; [reflexivity|]. cbn [app]. destruct P as [|q P].
  - cbn [app]. apply te_more; assumption.
  - rewrite te_more; [rewrite (IH R N T); reflexivity|discriminate|]. cbn [app] in *. specialize (IH R N T). cbn [app] in IH. rewrite IH.
    pose proof (te_nonempty R N). destruct P; destruct (te R); try discriminate; try contradiction.
Qed.
Lemma te_solid y Q : ~ all_ws y -> te (y :: Q) <> [[]].
Proof. intros N E. apply te_blank in E; [|discriminate]. inversion E. contradiction. Qed.
Lemma finish_app A : forall R, R <> [] -> finish_lines (A ++ R) = map strip_cr A ++ finish_lines R.
Proof.
  induction A as [|a A IH]; intros R N; [reflexivity|]. cbn [app map]. rewrite <- (IH R N).
  destruct (A ++ R) as [|x l] eqn:E; [destruct A; [contradiction|discriminate]|reflexivity].
Qed.
Lemma fold_cr dsym A : forall v, fold_res (add_body_line dsym) (map strip_cr A) v = fold_res (add_body_line dsym) A v.
Proof. induction A as [|a A IH]; intro v; [reflexivity|]. cbn [map fold_res]. rewrite body_line_cr. destruct (add_body_line dsym v a); cbn [bind]; auto. Qed.

(** The last line that counts, and what follows it. *)
Lemma last_lines Q : exists T, forall y dsym v, ~ all_ws y -> markfree y = true ->
  fold_res (add_body_line dsym) (finish_lines (te (y :: Q))) v = (let! u := add_body_line dsym v y in fold_res (add_body_line dsym) T u).
Proof.
  assert (One : forall y dsym v, ~ all_ws y -> markfree y = true ->
    fold_res (add_body_line dsym) (finish_lines [trim_end y]) v = (let! u := add_body_line dsym v y in fold_res (add_body_line dsym) [] u)).
  { intros y dsym v N M. assert (E : finish_lines [trim_end y] = [trim_end y]).
    { cbn [finish_lines]. destruct (trim_end y) eqn:T; [|reflexivity]. exfalso. apply N. destruct (trim_end_spec y) as (w & E & W & _). rewrite T in E. cbn in E. rewrite E. exact W. }
    rewrite E. cbn [fold_res]. rewrite body_line_end by exact M. reflexivity. }
  destruct Q as [|q Q]; [exists []; intros; cbn [te]; apply One; assumption|].
  destruct (list_eq_dec (list_eq_dec N.eq_dec) (te (q :: Q)) [[]]) as [E|N].
  - exists []. intros. rewrite te_only by first [discriminate|exact E]. apply One; assumption.
  - exists (finish_lines (te (q :: Q))). intros y dsym v Ny My. rewrite te_more by first [discriminate|exact N].
    change (y :: te (q :: Q)) with ([y] ++ te (q :: Q)). rewrite finish_app by (apply te_nonempty; discriminate). cbn [map app fold_res]. rewrite body_line_cr. reflexivity.
Qed.

Lemma nonblank_word x j : first_word x j -> ~ all_ws x.
Proof. unfold first_word. intros H W. apply split_ws_nil in W. rewrite W in H. discriminate. Qed.
Lemma pieces_trim s : split_on 10%N (trim s) = te (ts (split_on 10%N s)).
Proof. unfold trim. rewrite pieces_trim_end, pieces_trim_start. reflexivity. Qed.

(** A pending text in which two lines change places. *)
Definition Sw (c d : str) : Prop :=
  exists P x y Q, split_on 10%N c = P ++ x :: y :: Q /\ split_on 10%N d = P ++ y :: x :: Q
    /\ markfree x = true /\ markfree y = true /\ independent x y.
Lemma independent_sym x y : independent x y -> independent y x.
Proof.
  intros (A & C & j & k & X & Y & D). split; [exact C|]. split; [exact A|]. exists k, j. split; [exact Y|]. split; [exact X|].
  destruct D as [D| ->]; [left; congruence|]. destruct (list_eq_dec N.eq_dec k (lit "for")); [right; assumption|left; assumption].
Qed.
Lemma Sw_sym c d : Sw c d -> Sw d c.
Proof. intros (P & x & y & Q & A & C & Mx & My & D). exists P, y, x, Q. exact (conj C (conj A (conj My (conj Mx (independent_sym _ _ D))))). Qed.
Lemma not_header dsym account fmt c P x y Q : split_on 10%N c = P ++ x :: y :: Q -> markfree x = true -> markfree y = true -> independent x y ->
  forallb blank_line P = true -> forall v, parse_envelope c account dsym fmt <> Ok v.
Proof.
  intros E Mx My (Sx & _ & j & k & X & Y & _) B v H. pose proof (nonblank_word _ _ X) as Nx. pose proof (nonblank_word _ _ Y) as Ny.
  unfold parse_envelope, lines in H. rewrite pieces_trim, E, ts_app, B in H by discriminate.
  cbn [ts] in H. destruct (trim_start x) as [|a t] eqn:T; [apply (proj1 (trim_start_nil _)) in T; contradiction|].
  change ((a :: t) :: y :: Q) with ([a :: t] ++ y :: Q) in H. rewrite te_app in H by first [discriminate|apply te_solid, Ny].
  rewrite finish_app in H by (apply te_nonempty; discriminate). cbn [map app] in H. apply bind_Ok in H as (u & H & _).
  apply header_iff in H as (kind & name & st & f & (more & before & W & _) & _).
  assert (Mt : markfree (a :: t) = true).
  { rewrite <- T. destruct (trim_start_spec x) as (w & Ew & _). rewrite Ew in Mx. exact (markfree_app_r _ _ Mx). }
  pose proof (markfree_strip_cr _ Mt) as Ms.
  rewrite (remove_comments_markfree _ Ms) in W.
  assert (Wx : split_ws x = kind_word kind :: name :: more).
  { rewrite <- W. destruct (trim_start_spec x) as (w & Ew & Aw & _). rewrite Ew, split_ws_ws by exact Aw. rewrite T. symmetry. apply split_ws_strip_cr. }
  apply Sx. rewrite <- split_ws_trim in Wx. apply split_ws_cons in Wx as (w & r & Er & Aw & _).
  assert (w = []) as ->. { destruct w as [|b w]; [reflexivity|]. exfalso. apply all_ws_cons in Aw as [Ab _]. pose proof (trim_spec x) as (? & ? & _ & _ & _ & Tr). rewrite Er in Tr. cbn in Tr. destruct Tr as [Tr _]. cbn in Tr. congruence. }
  exists r. cbn [app] in Er. rewrite Er. destruct kind; [left|right]; reflexivity.
Qed.

Lemma Sw_shape c P x y Q : split_on 10%N c = P ++ x :: y :: Q -> markfree x = true -> markfree y = true -> independent x y ->
  forallb blank_line P = false -> exists h A, ts P = h :: A /\ lines (trim c) = strip_cr h :: map strip_cr A ++ strip_cr x :: finish_lines (te (y :: Q)).
Proof.
  intros E Mx My (Sx & _ & j & k & X & Y & _) B. pose proof (nonblank_word _ _ X) as Nx. pose proof (nonblank_word _ _ Y) as Ny.
  destruct (ts_solid P B) as (h & A & T). exists h, A. split; [exact T|]. unfold lines. rewrite pieces_trim, E, ts_app, B by discriminate. rewrite T.
  replace ((h :: A) ++ x :: y :: Q) with ((h :: A ++ [x]) ++ y :: Q) by (cbn; rewrite <- app_assoc; reflexivity).
  rewrite te_app by first [discriminate|apply te_solid, Ny]. rewrite finish_app by (apply te_nonempty; discriminate).
  cbn [map app]. rewrite map_app, <- app_assoc. reflexivity.
Qed.
Lemma Sw_parse c d account dsym fmt : Sw c d -> both same_envelope (parse_envelope c account dsym fmt) (parse_envelope d account dsym fmt).
Proof.
  intros (P & x & y & Q & Ec & Ed & Mx & My & D). pose proof (independent_sym _ _ D) as D'.
  destruct (forallb blank_line P) eqn:B.
  { pose proof (not_header dsym account fmt c P x y Q Ec Mx My D B) as F. pose proof (not_header dsym account fmt d P y x Q Ed My Mx D' B) as G.
    destruct (parse_envelope c account dsym fmt) as [v| | |], (parse_envelope d account dsym fmt) as [u| | |]; cbn; try exact I; first [destruct (F _ eq_refl)|destruct (G _ eq_refl)]. }
  destruct (Sw_shape c P x y Q Ec Mx My D B) as (h & A & T & Lc). destruct (Sw_shape d P y x Q Ed My Mx D' B) as (h' & A' & T' & Ld).
  rewrite T in T'. injection T' as <- <-. destruct (last_lines Q) as (R & HR).
  rewrite (parse_envelope_body _ _ _ _ _ _ Lc), (parse_envelope_body _ _ _ _ _ _ Ld).
  eapply both_bind; [apply both_refl|]. intros v ? <-. rewrite !fold_res_app. rewrite fold_cr.
  eapply both_bind; [apply both_refl|]. intros u ? <-. cbn [fold_res]. rewrite !body_line_cr.
  pose proof D as (_ & _ & j & k & X & Y & _).
  assert (Two : forall a b, markfree b = true -> ~ all_ws b -> (let! t := add_body_line dsym u a in fold_res (add_body_line dsym) (finish_lines (te (b :: Q))) t)
     = (let! t := two dsym a b u in fold_res (add_body_line dsym) R t)).
  { intros a b Mb Nb. unfold two. destruct (add_body_line dsym u a) as [t| | |]; cbn [bind]; try reflexivity. apply HR; assumption. }
  rewrite (Two x y My (nonblank_word _ _ Y)), (Two y x Mx (nonblank_word _ _ X)).
  eapply both_bind; [apply two_swap; assumption|]. intros a b Qa. apply lines_same, Qa.
Qed.
Lemma Sw_blank c d : Sw c d -> trim c <> [].
Proof.
  intros (P & x & y & Q & Ec & _ & _ & _ & (_ & _ & j & k & X & Y & _)) E. pose proof (pieces_trim c) as G. rewrite E, Ec in G. cbn [split_on] in G.
  rewrite ts_app in G by discriminate. symmetry in G. destruct (forallb blank_line P).
  - cbn [ts] in G. destruct (trim_start x) as [|a t] eqn:T; [apply (proj1 (trim_start_nil _)) in T; exact (nonblank_word _ _ X T)|].
    apply te_blank in G; [|discriminate]. inversion G as [|? ? _ G']. inversion G'. exact (nonblank_word _ _ Y ltac:(assumption)).
  - rewrite te_app in G; [|discriminate|apply te_solid, (nonblank_word _ _ X)].
    pose proof (te_nonempty (x :: y :: Q) ltac:(discriminate)) as Ne. apply app_eq_unit in G as [[_ G]|[_ G]]; [|exact (Ne G)].
    exact (te_solid x (y :: Q) (nonblank_word _ _ X) G).
Qed.
Lemma add_same a b v u : same_account a b -> same_envelope v u -> both same_account (add_envelope a v) (add_envelope b u).
Proof.
  intros (N & R & X & G) H. pose proof H as (Hn & _ & Ht & _). unfold add_envelope. rewrite <- Ht, <- Hn.
  assert (K : forall l m, Forall2 same_envelope l m -> existsb (fun w => str_eqb (v_name w) (v_name v)) l = existsb (fun w => str_eqb (v_name w) (v_name v)) m).
  { induction 1 as [|p q l m Hp F IH]; [reflexivity|]. cbn. destruct Hp as (-> & _). rewrite IH. reflexivity. }
  rewrite (K _ _ X), (K _ _ G). destruct (v_type v); destruct (existsb _ _); try exact I.
  - split; [exact N|]. split; [exact R|]. split; [apply Forall2_app; auto|exact G].
  - split; [exact N|]. split; [exact R|]. split; [exact X|apply Forall2_app; auto].
Qed.
Lemma flush_same dsym fmt a b c d : same_account a b -> c = d \/ Sw c d -> both same_account (flush_envelope dsym fmt a c) (flush_envelope dsym fmt b d).
Proof.
  intros H S. unfold flush_envelope. assert (N : a_name a = a_name b) by apply H. rewrite <- N.
  assert (G : both same_envelope (parse_envelope c (a_name a) dsym fmt) (parse_envelope d (a_name a) dsym fmt)).
  { destruct S as [->|S]; [apply both_same, same_envelope_refl|apply Sw_parse, S]. }
  assert (E : trim c = [] <-> trim d = []).
  { destruct S as [->|S]; [reflexivity|]. pose proof (Sw_blank _ _ S). pose proof (Sw_blank _ _ (Sw_sym _ _ S)). tauto. }
  assert (K : both same_account (let! v := parse_envelope c (a_name a) dsym fmt in add_envelope a v) (let! v := parse_envelope d (a_name a) dsym fmt in add_envelope b v))
    by (eapply both_bind; [exact G|]; intros v u Q; apply add_same; assumption).
  destruct (trim c), (trim d); try exact K; try exact H; exfalso; destruct E as [E1 E2]; first [discriminate (E1 eq_refl)|discriminate (E2 eq_refl)].
Qed.
Lemma Sw_more c d z : Sw c d -> Sw (c ++ 10%N :: z) (d ++ 10%N :: z).
Proof.
  intros (P & x & y & Q & Ec & Ed & M). exists P, x, y, (Q ++ split_on 10%N z). rewrite !pieces_app, Ec, Ed. rewrite <- !app_assoc. split; [reflexivity|]. split; [reflexivity|exact M].
Qed.
Lemma account_lines_same dsym fmt ls : forall a b c d, same_account a b -> c = d \/ Sw c d ->
  both (fun p q => same_account (fst p) (fst q) /\ (snd p = snd q \/ Sw (snd p) (snd q))) (fold_res (account_line dsym fmt) ls (a, c)) (fold_res (account_line dsym fmt) ls (b, d)).
Proof.
  induction ls as [|l ls IH]; intros a b c d H S; [split; assumption|]. cbn [fold_res]. unfold account_line at 1 3. cbv zeta.
  destruct (_ || _); cbn [bind].
  - rewrite !bind_assoc. eapply both_bind; [apply flush_same; eassumption|]. intros a' b' Q. cbn [bind]. apply IH; [exact Q|left; reflexivity].
  - apply IH; [exact H|]. destruct S as [->|S]; [left; reflexivity|right; apply Sw_more, S].
Qed.
Lemma free_line dsym fmt st l : ~ starts_envelope l -> account_line dsym fmt st l = Ok (fst st, snd st ++ 10%N :: l).
Proof.
  intro N. destruct st as [a c]. unfold account_line. cbv zeta. destruct (_ || _) eqn:E; [|reflexivity]. apply starts_envelope_iff in E. contradiction.
Qed.
Lemma settings_account dsym fmt c d h ls x y ms : lines c = h :: ls ++ x :: y :: ms -> lines d = h :: ls ++ y :: x :: ms ->
  Forall (fun l => markfree l = true) (lines c) -> independent x y -> both same_account (parse_account c dsym fmt) (parse_account d dsym fmt).
Proof.
  intros Ec Ed M D. unfold parse_account. pose proof (lines_no_nl c) as Nn. rewrite Ec in M, Nn. rewrite Ec, Ed.
  assert (Mx : markfree x = true /\ markfree y = true /\ no_nl x /\ no_nl y).
  { rewrite Forall_forall in M, Nn. repeat split; first [apply M|apply Nn]; right; apply in_or_app; right; cbn; auto. }
  destruct Mx as (Mx & My & Nx & Ny).
  eapply both_bind; [apply both_refl|]. intros name ? <-. rewrite !fold_res_app.
  set (st := fold_res (account_line dsym fmt) ls _). destruct st as [[a ch]| | |]; cbn [bind]; try exact I. cbn [fold_res].
  pose proof D as (Sx & Sy & _). rewrite (free_line dsym fmt (a, ch) x Sx), (free_line dsym fmt (a, ch) y Sy). cbn [bind fst snd].
  rewrite (free_line dsym fmt _ y Sy), (free_line dsym fmt _ x Sx). cbn [bind fst snd].
  eapply both_bind; [apply account_lines_same; [apply same_account_refl|]|].
  - right. exists (split_on 10%N ch), x, y, []. rewrite !pieces_app, (split_on_none 10%N x), (split_on_none 10%N y) by assumption. rewrite <- !app_assoc.
    split; [reflexivity|]. split; [reflexivity|]. auto.
  - intros [a1 c1] [a2 c2] [H1 H2]. apply flush_same; assumption.
Qed.
