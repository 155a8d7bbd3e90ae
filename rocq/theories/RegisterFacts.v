(** Proofs about the register. *)
From Coq Require Import ZArith NArith List Bool String Lia.
From Verif Require Import Base Str F64 Date Amount Posting Entry Register
  SpecAmount SpecDate SpecEntry SpecEnvelope SpecLedger SpecRegister
  StrFacts AmountFacts PostingFacts EntryFacts DateFacts EnvelopeFacts LedgerFacts.
Import ListNotations.

Lemma prefix_firstn p s : starts_with p s = true <-> firstn (List.length p) s = p.
Proof.
  rewrite starts_with_iff. split.
  - intros (r & ->). rewrite firstn_app, Nat.sub_diag, firstn_all, firstn_O. apply app_nil_r.
  - intro H. exists (skipn (List.length p) s). rewrite <- H at 1. symmetry. apply firstn_skipn.
Qed.
Lemma occurs_contains m s : contains m s = occurs m s.
Proof.
  unfold contains, occurs. destruct (find_sub m s) as [i|] eqn:E.
  - symmetry. apply existsb_exists. apply find_sub_Some in E as (L & H & _). exists i. split.
    + apply in_seq. lia.
    + apply prefix_firstn in H. destruct (str_dec _ _); [reflexivity|contradiction].
  - symmetry. apply not_true_iff_false. intro K. apply existsb_exists in K as (i & I & K).
    rewrite find_sub_None in E. apply in_seq in I. specialize (E i ltac:(lia)).
    destruct (str_dec _ _) as [H|]; [|discriminate]. apply prefix_firstn in H. congruence.
Qed.
Lemma focused_in m n : is_focused m n = in_focus m n.
Proof.
  destruct m as [m|]; cbn [is_focused in_focus]; [apply occurs_contains|].
  destruct (str_dec (firstn 5 n) (lit "asset")) as [E|E].
  - apply prefix_firstn. exact E.
  - apply not_true_iff_false. rewrite prefix_firstn. exact E.
Qed.

Lemma selected_iff b e m x : register_filter b e m x = true <-> selected b e m x.
Proof.
  unfold register_filter, selected. rewrite andb_true_iff, and_comm, existsb_exists.
  assert (in_range b e (e_date x) = true <-> within b e (e_date x)) as ->.
  { unfold in_range, within, opt_holds. destruct b, e; cbv beta; rewrite ?andb_true_iff, ?date_leb_iff; tauto. }
  apply and_iff_compat_l. split; intros (p & I & H); exists p; rewrite focused_in in *; auto.
Qed.

(** ** The data of one entry *)
Definition names_step (P : amount -> bool) (ns : list str) (w : str * amount) : list str :=
  if P (snd w) then set_insert (fst w) ns else ns.
Lemma register_loop_spec e m ps : forall pos neg foc r, register_loop e m ps pos neg foc = Ok r ->
  exists ws, Forall2 (fun p w => fst w = get_account p /\ worth e p (snd w)) ps ws
  /\ r = (fold_left (names_step (fun a => fltb fzero (mag a))) ws pos,
          fold_left (names_step (fun a => fltb (mag a) fzero)) ws neg,
          fold_left pool_add (map snd (filter (fun w => in_focus m (fst w)) ws)) foc).
Proof.
  induction ps as [|p ps IH]; intros pos neg foc r H; cbn [register_loop] in H.
  - injection H as <-. exists []. split; [constructor|reflexivity].
  - apply bind_Ok in H as (a & Ha & H). apply IH in H as (ws & F & ->).
    exists ((get_account p, a) :: ws). split.
    + constructor; [|exact F]. split; [reflexivity|]. unfold worth. cbn [snd].
      destruct (get_amount p) as [a'|]; [injection Ha as ->; auto|]. right. split; [reflexivity|].
      apply bind_Ok in Ha as (o & Ho & Hu). destruct o; cbn in Hu; [injection Hu as ->; exact Ho|discriminate].
    + cbn [fold_left filter fst]. unfold names_step. cbn [snd fst]. rewrite focused_in.
      assert (fltb fzero (mag a) = true -> fltb (mag a) fzero = false) as X.
      { unfold fltb, SpecFloat.SFltb. destruct (sf (mag a)) as [s|s| |s mm ee]; cbn; try discriminate; destruct s; cbn; congruence. }
      destruct (fltb fzero (mag a)); [rewrite X by reflexivity|]; destruct (in_focus m (get_account p)); reflexivity.
Qed.

Lemma set_insert_In s l t : In t (set_insert s l) <-> t = s \/ In t l.
Proof.
  unfold set_insert. destruct (mem s l) eqn:M.
  - apply mem_In in M. split; [auto|]. intros [->|H]; assumption.
  - rewrite in_app_iff. cbn. intuition congruence.
Qed.
Lemma set_insert_NoDup s l : NoDup l -> NoDup (set_insert s l).
Proof.
  intro N. unfold set_insert. destruct (mem s l) eqn:M; [exact N|].
  assert (~ In s l) by (rewrite <- mem_In; congruence).
  induction N as [|a l' I N IH]; cbn [app]; [constructor; [intros []|constructor]|].
  cbn in H. constructor; [rewrite in_app_iff; cbn; intuition congruence|]. apply IH.
  - apply not_true_iff_false. rewrite mem_In. tauto.
  - tauto.
Qed.
Lemma names_fold P ws : forall ns, NoDup ns ->
  NoDup (fold_left (names_step P) ws ns)
  /\ forall t, In t (fold_left (names_step P) ws ns) <-> In t ns \/ In t (map fst (filter (fun w => P (snd w)) ws)).
Proof.
  induction ws as [|w ws IH]; intros ns N; cbn [fold_left filter map].
  - split; [exact N|]. intro t. cbn. tauto.
  - destruct (IH (names_step P ns w)) as (N' & I).
    + unfold names_step. destruct (P (snd w)); [apply set_insert_NoDup|]; exact N.
    + split; [exact N'|]. intro t. rewrite I. unfold names_step. destruct (P (snd w)); cbn [map In]; [|tauto].
      rewrite set_insert_In. intuition congruence.
Qed.
Lemma set_name_group P ws : group_name (map fst (filter (fun w => P (snd w)) ws)) (set_name (fold_left (names_step P) ws [])).
Proof.
  destruct (names_fold P ws [] (NoDup_nil _)) as (N & I).
  set (l := fold_left _ ws []) in *. set (ns := map fst _) in *. unfold group_name.
  assert (forall t, In t l <-> In t ns) as J by (intro t; rewrite I; cbn; tauto). clearbody l ns.
  destruct l as [|a [|b l]]; cbn [set_name].
  - left. split; [|reflexivity]. destruct ns as [|n ns]; [reflexivity|]. destruct (proj2 (J n) (or_introl eq_refl)).
  - right; left. split.
    + intros ->. apply (proj1 (J a)). left; reflexivity.
    + apply Forall_forall. intros t H. apply J in H. destruct H as [H|[]]. exact H.
  - right; right. split; [reflexivity|]. exists a, b. split; [apply J; left; reflexivity|].
    split; [apply J; right; left; reflexivity|]. inversion N as [|? ? K]; subst. intros ->. apply K. left; reflexivity.
Qed.

Definition data_of (fmt : str) (m : option str) (r : row) (rd : register_data) : Prop :=
  let (x, ws) := r in
  weighed x ws /\ rd_amounts rd = focus m ws /\ rd_date rd = format_date fmt (e_date x)
  /\ rd_description rd = e_desc x /\ rd_status rd = status_char (e_status x)
  /\ group_name (losing ws) (fst (rd_flow rd)) /\ group_name (gaining ws) (snd (rd_flow rd)).

Lemma pool_is_zero_iff p : pool_is_zero p = true <-> all_zero p.
Proof. unfold pool_is_zero, all_zero. rewrite forallb_forall, Forall_forall. reflexivity. Qed.

Lemma register_data_spec x fmt m o : as_register_data x fmt m = Ok o ->
  exists ws, weighed x ws
  /\ match o with
     | None => all_zero (focus m ws)
     | Some rd => ~ all_zero (focus m ws) /\ data_of fmt m (x, ws) rd
     end.
Proof.
  unfold as_register_data. intro H. apply bind_Ok in H as (((pos & neg) & foc) & H & E).
  apply register_loop_spec in H as (ws & F & E'). injection E' as -> -> ->.
  exists ws. split; [exact F|]. rewrite <- sum_up_fold in E. fold (focus m ws) in E.
  destruct (pool_is_zero (focus m ws)) eqn:Z.
  - injection E as <-. apply pool_is_zero_iff, Z.
  - destruct (printable fmt); [|discriminate]. injection E as <-. split; [rewrite <- pool_is_zero_iff; congruence|].
    unfold data_of. cbn [rd_amounts rd_date rd_description rd_status rd_flow fst snd].
    split; [exact F|]. repeat (split; [reflexivity|]). split.
    + apply (set_name_group (fun a => fltb (mag a) fzero)).
    + apply (set_name_group (fun a => fltb fzero (mag a))).
Qed.

(** ** Widths *)
Lemma length_bytes s : (List.length s <= byte_len s)%nat.
Proof.
  unfold byte_len. induction s as [|c s IH]; cbn [List.length fold_right]; [lia|].
  assert (1 <= utf8_len c)%nat; [|lia].
  unfold utf8_len. repeat match goal with |- context[if ?b then _ else _] => destruct b end; lia.
Qed.
Lemma max_len_spec p n : max_len p = Ok n -> p <> [] /\ Forall (fun a => (byte_len (show_amount a) <= n)%nat) p.
Proof.
  unfold max_len. destruct p as [|a p]; [discriminate|]. intro H. injection H as <-. split; [discriminate|].
  assert (forall q k, (k <= fold_left (fun n a => Nat.max n (byte_len (show_amount a))) q k)%nat
     /\ Forall (fun a => (byte_len (show_amount a) <= fold_left (fun n a => Nat.max n (byte_len (show_amount a))) q k)%nat) q) as G.
  { induction q as [|x q IH]; intro k; cbn [fold_left]; [split; [lia|constructor]|].
    destruct (IH (Nat.max k (byte_len (show_amount x)))) as (A & B). split; [lia|].
    constructor; [lia|exact B]. }
  apply (G (a :: p) 0%nat).
Qed.

Definition narrower (a b : max_lens) : Prop :=
  (m_date a <= m_date b /\ m_desc a <= m_desc b /\ m_from a <= m_from b /\ m_to a <= m_to b
   /\ m_amount a <= m_amount b /\ m_total a <= m_total b)%nat.
Lemma narrower_refl a : narrower a a.
Proof. unfold narrower. repeat split; lia. Qed.
Lemma narrower_trans a b c : narrower a b -> narrower b c -> narrower a c.
Proof. unfold narrower. intros; repeat split; lia. Qed.

Definition data_fits (ml : max_lens) (total : pool) (rd : register_data) : Prop :=
  rd_amounts rd <> []
  /\ (byte_len (rd_date rd) <= m_date ml /\ byte_len (rd_description rd) <= m_desc ml
      /\ byte_len (fst (rd_flow rd)) <= m_from ml /\ byte_len (snd (rd_flow rd)) <= m_to ml)%nat
  /\ Forall (fun a => (byte_len (show_amount a) <= m_amount ml)%nat) (rd_amounts rd)
  /\ Forall (fun a => (byte_len (show_amount a) <= m_total ml)%nat) (pool_add_pool total (rd_amounts rd)).
Fixpoint all_fit (ml : max_lens) (total : pool) (rds : list register_data) : Prop :=
  match rds with
  | [] => True
  | rd :: rds' => data_fits ml total rd /\ all_fit ml (pool_add_pool total (rd_amounts rd)) rds'
  end.
Lemma data_fits_wider ml ml' total rd : narrower ml ml' -> data_fits ml total rd -> data_fits ml' total rd.
Proof.
  unfold narrower, data_fits. intros (N1 & N2 & N3 & N4 & N5 & N6) (A & (B1 & B2 & B3 & B4) & C & D).
  split; [exact A|]. split; [repeat split; lia|].
  split; eapply Forall_impl; try eassumption; cbn; intros; lia.
Qed.

Lemma lens_fold fmt b e m es : forall ml total acc ml' total' acc',
  fold_res (lens_step fmt m) (filter (register_filter b e m) es) (ml, total, acc) = Ok (ml', total', acc') ->
  exists rds rows, acc' = acc ++ rds /\ listed b e m es rows /\ Forall2 (data_of fmt m) rows rds
  /\ narrower ml ml' /\ all_fit ml' total rds.
Proof.
  induction es as [|x es IH]; intros ml total acc ml' total' acc' H; cbn [filter] in H.
  - injection H as <- <- <-. exists [], []. rewrite app_nil_r.
    repeat split; try constructor; apply narrower_refl.
  - destruct (register_filter b e m x) eqn:Sx.
    2:{ apply IH in H as (rds & rows & E & L & F & N & A). exists rds, rows.
        split; [exact E|]. split; [|auto]. apply listed_other; [|exact L]. rewrite <- selected_iff. congruence. }
    apply selected_iff in Sx. cbn [fold_res] in H. apply bind_Ok in H as (st & Hs & H).
    unfold lens_step in Hs. apply bind_Ok in Hs as (o & Ho & Hs).
    assert (as_register_data x fmt m = Ok o) as R by (destruct (as_register_data x fmt m); try discriminate; congruence).
    apply register_data_spec in R as (ws & W & R). destruct o as [rd|].
    2:{ injection Hs as <-. apply IH in H as (rds & rows & E & L & F & N & A). exists rds, rows.
        split; [exact E|]. split; [|auto]. eapply listed_zero; eauto. }
    destruct R as (Z & R). pose proof R as (_ & Am & _).
    destruct (pool_is_empty (rd_amounts rd)) eqn:Em.
    { destruct (rd_amounts rd) eqn:Ea; [|discriminate]. exfalso. apply Z. rewrite <- Am. constructor. }
    apply bind_Ok in Hs as (la & Hla & Hs). apply bind_Ok in Hs as (lt & Hlt & Hs). injection Hs as <-.
    apply max_len_spec in Hla as (Nn & Fa). apply max_len_spec in Hlt as (_ & Ft).
    apply IH in H as (rds & rows & E & L & F & N & A). exists (rd :: rds), ((x, ws) :: rows).
    split; [rewrite E, <- app_assoc; reflexivity|].
    split; [apply listed_row; auto|]. split; [constructor; assumption|].
    split.
    + eapply narrower_trans; [|exact N]. unfold narrower. cbn. repeat split; apply Nat.le_max_l.
    + cbn [all_fit]. split; [|exact A]. eapply data_fits_wider; [exact N|].
      unfold data_fits. cbn [m_date m_desc m_from m_to m_amount m_total].
      split; [exact Nn|]. split; [repeat split; apply Nat.le_max_r|].
      split; eapply Forall_impl; try eassumption; cbn; intros; lia.
Qed.

(** ** Printing *)
Definition widths_of (ml : max_lens) : widths :=
  mkWidths (m_date ml) (m_desc ml) (m_from ml) (m_to ml) (m_amount ml) (m_total ml).
Lemma left_cell_pad n s : (byte_len s <= n)%nat -> left_cell n s (pad_right n s).
Proof. intro L. split; [reflexivity|]. pose proof (length_bytes s). lia. Qed.
Lemma right_cell_pad n s : (byte_len s <= n)%nat -> right_cell n s (pad_left n s).
Proof. intro L. split; [reflexivity|]. pose proof (length_bytes s). lia. Qed.

Lemma sum_up_app xs ys : sum_up (xs ++ ys) = pool_add_pool (sum_up xs) ys.
Proof. rewrite !sum_up_fold. unfold pool_add_pool. apply fold_left_app. Qed.
Lemma contributions_In a xs : In a xs -> contributions (symbol a) (map PAdd xs) <> [].
Proof.
  intro I. unfold contributions. induction xs as [|x xs IH]; [destruct I|]. cbn [map flat_map].
  destruct I as [->|I].
  - cbn [contribution]. destruct (sym_dec (symbol a) (symbol a)); [discriminate|contradiction].
  - intro E. apply app_eq_nil in E as (_ & E). exact (IH I E).
Qed.
Lemma total_shown a xs : In a xs ->
  pool_only (sum_up xs) (symbol a) = total_in (symbol a) xs /\ In (total_in (symbol a) xs) (sum_up xs).
Proof.
  intro I. pose proof (contributions_In a xs I) as C. unfold sum_up, total_in.
  pose proof (run_ops_find (symbol a) (map PAdd xs)) as F.
  destruct (contributions (symbol a) (map PAdd xs)) as [|f fs]; [contradiction|].
  rewrite pool_only_find, F. split; [reflexivity|]. unfold pool_find in F. apply find_some in F. apply F.
Qed.

Lemma show_row_line ml xs a : In a xs -> (byte_len (show_amount a) <= m_amount ml)%nat ->
  Forall (fun a => (byte_len (show_amount a) <= m_total ml)%nat) (sum_up xs) ->
  amount_line (widths_of ml) xs a (show_row ml (sum_up xs) a).
Proof.
  intros I L F. destruct (total_shown a xs I) as (E & I'). unfold amount_line, show_row. rewrite E.
  exists (pad_left (m_amount ml) (show_amount a)), (pad_left (m_total ml) (show_amount (total_in (symbol a) xs))).
  split; [apply right_cell_pad, L|]. split; [|reflexivity]. apply right_cell_pad.
  rewrite Forall_forall in F. apply (F _ I').
Qed.

Lemma print_page fmt m ml rows : forall rds seen, Forall2 (data_of fmt m) rows rds ->
  all_fit ml (sum_up seen) rds -> page (widths_of ml) fmt m seen rows (print_lines ml (sum_up seen) rds).
Proof.
  induction rows as [|(x & ws) rows IH]; intros rds seen F A; inversion F as [|? rd ? rds' Dx F']; subst; [constructor|].
  cbn [all_fit] in A. destruct A as (Fi & A). cbn [print_lines].
  destruct Dx as (W & Am & Ed & Ee & Es & Gl & Gg). destruct Fi as (Ne & (L1 & L2 & L3 & L4) & Fa & Ft).
  unfold show_rows. destruct (rd_amounts rd) as [|a more] eqn:Ea; [contradiction|].
  rewrite <- sum_up_app in *. cbv zeta.
  match goal with |- context[spaces (byte_len ?p)] => set (h := p) end.
  rewrite <- !app_assoc.
  replace (map (fun b => spaces (byte_len h) ++ show_row ml (sum_up (seen ++ a :: more)) b) more)
    with (map (fun u => repeat 32%N (byte_len h) ++ u) (map (show_row ml (sum_up (seen ++ a :: more))) more))
    by (rewrite map_map; reflexivity).
  inversion Fa as [|? ? La Fm]; subst.
  eapply page_row.
  - symmetry. exact Am.
  - unfold head_line. do 6 eexists. rewrite <- Ed, <- Ee.
    split; [apply left_cell_pad, L1|]. split; [apply left_cell_pad, L2|].
    split; [exact Gl|]. split; [apply right_cell_pad, L3|]. split; [exact Gg|]. split; [apply left_cell_pad, L4|].
    exists [rd_status rd]. split; [rewrite Es; apply sign_status|reflexivity].
  - apply show_row_line; [apply in_app_iff; right; left; reflexivity|exact La|exact Ft].
  - assert (incl more (seen ++ a :: more)) as I by (intros y Hy; apply in_app_iff; right; right; exact Hy).
    set (all := seen ++ a :: more) in *. clearbody all. clear Am Ea Ne A Fa.
    induction more as [|y more IHm]; [constructor|]. inversion Fm; subst. cbn [map]. constructor.
    + apply show_row_line; auto. apply I; left; reflexivity.
    + apply IHm; [assumption|]. intros z Hz. apply I. right; exact Hz.
  - apply IH; assumption.
Qed.

Lemma register_Ok es fmt b e m text : register_display true es fmt b e m = Ok text ->
  exists rows wd, listed b e m es rows /\ page wd fmt m [] rows text.
Proof.
  unfold register_display, maximum_lengths. intro H. apply bind_Ok in H as ((ml & rds) & H & E).
  apply bind_Ok in H as (((ml' & total) & rds') & H & E'). injection E' as -> ->. injection E as <-.
  apply lens_fold in H as (rds' & rows & E & L & F & _ & A). cbn [app] in E. subst rds'.
  exists rows, (widths_of ml). split; [exact L|]. apply (print_page fmt m ml rows rds [] F A).
Qed.

(** ** When it is shown *)
Lemma register_loop_total e m ps : (forall p, In p ps -> exists a, worth e p a) ->
  forall pos neg foc, exists r, register_loop e m ps pos neg foc = Ok r.
Proof.
  induction ps as [|p ps IH]; intros H pos neg foc; cbn [register_loop]; [eauto|].
  destruct (H p (or_introl eq_refl)) as (a & Wa).
  assert (match get_amount p with Some a => Ok a | None => let! o := get_blank_amount e in unwrap o end = Ok a) as ->.
  { destruct Wa as [->|(-> & ->)]; reflexivity. }
  cbn [bind]. apply IH. intros q I. apply H. right; exact I.
Qed.
Lemma pool_add_not_nil p a : pool_add p a <> [].
Proof. unfold pool_add. destruct p as [|b p]; cbn; [discriminate|]. destruct (ostr_eqb _ _); discriminate. Qed.
Lemma add_pool_not_nil q : q <> [] -> forall p, pool_add_pool p q <> [].
Proof.
  unfold pool_add_pool. induction q as [|a q IH]; intros Hq p; [contradiction|]. cbn [fold_left].
  destruct q as [|b q]; [apply pool_add_not_nil|]. apply IH. discriminate.
Qed.
Lemma max_len_total p : p <> [] -> exists n, max_len p = Ok n.
Proof. destruct p; [contradiction|]. intros _. cbn. eauto. Qed.

Lemma register_total es fmt b e m : printable fmt = true ->
  (forall x, In x es -> selected b e m x -> forall p, In p (e_postings x) -> exists a, worth x p a) ->
  exists text, register_display true es fmt b e m = Ok text.
Proof.
  intros Pf H. unfold register_display, maximum_lengths.
  assert (forall st, exists st', fold_res (lens_step fmt m) (filter (register_filter b e m) es) st = Ok st') as G.
  { assert (forall x, In x (filter (register_filter b e m) es) -> forall p, In p (e_postings x) -> exists a, worth x p a) as H'.
    { intros x I. apply filter_In in I as (I & Sx). apply H; [exact I|]. apply selected_iff, Sx. }
    clear H. revert H'. generalize (filter (register_filter b e m) es) as l.
    induction l as [|x l IH]; intros H st; cbn [fold_res]; [eauto|].
    assert (exists st', lens_step fmt m st x = Ok st') as (st' & ->).
    { destruct st as ((ml & total) & acc). unfold lens_step.
      destruct (register_loop_total x m (e_postings x) (H x (or_introl eq_refl)) [] [] []) as (((pos & neg) & foc) & R).
      unfold as_register_data. rewrite R, Pf. cbn [bind]. destruct (pool_is_zero foc); cbn [bind]; [eauto|].
      cbn [rd_amounts]. destruct (pool_is_empty foc) eqn:Em; [eauto|].
      assert (foc <> []) as Nf by (intros ->; discriminate).
      destruct (max_len_total foc Nf) as (n & ->). cbn [bind].
      destruct (max_len_total _ (add_pool_not_nil foc Nf total)) as (n' & ->). cbn [bind]. eauto. }
    cbn [bind]. apply IH. intros y I. apply H. right; exact I. }
  destruct (G (mkMaxLens 0 0 0 0 0 0, [], [])) as (((ml & total) & rds) & ->). cbn. eauto.
Qed.
Lemma weighed_unique x ws ws' : weighed x ws -> weighed x ws' -> ws = ws'.
Proof.
  unfold weighed. revert ws ws'. induction (e_postings x) as [|p ps IH]; intros ws ws' A B; inversion A; inversion B; subst; [reflexivity|].
  f_equal; [|auto]. destruct y, y0. cbn in *.
  repeat match goal with H : _ /\ _ |- _ => destruct H end. subst. f_equal. eapply worth_unique; eauto.
Qed.
Lemma listed_unique b e m es : forall rows rows', listed b e m es rows -> listed b e m es rows' -> rows = rows'.
Proof.
  pose proof weighed_unique as U.
  induction es as [|x es IH]; intros rows rows' A B; inversion A; inversion B; subst; try reflexivity; try contradiction; auto;
    repeat match goal with H : weighed ?x ?a, K : weighed ?x ?b |- _ => tryif constr_eq a b then fail else (assert (a = b) as E by (eapply U; eauto); subst) end;
    try contradiction; auto.
  f_equal. auto.
Qed.

Lemma page_line wd fmt m seen rows text : page wd fmt m seen rows text ->
  forall before x ws after a, rows = before ++ (x, ws) :: after -> In a (focus m ws) ->
  exists pre line post, text = pre ++ line ++ post
  /\ amount_line wd (seen ++ flat_map (fun r => focus m (snd r)) before ++ focus m ws) a line.
Proof.
  induction 1 as [seen|seen y vs rs b more h t ts text E Hh Ht Hts P IH]; intros before x ws after a Er I.
  - destruct before; discriminate.
  - destruct before as [|r before]; cbn [app] in Er; injection Er as <- Er.
    + subst vs. cbn [flat_map app]. rewrite E in *. destruct I as [->|I].
      * exists h, t. eexists. split; [reflexivity|exact Ht].
      * destruct (in_split _ _ I) as (m1 & m2 & Em). rewrite Em in Hts at 2.
        apply Forall2_app_inv_l in Hts as (t1 & t2 & _ & H2 & ->). inversion H2 as [|? u ? us Hu]; subst.
        eexists (h ++ t ++ List.concat (map (fun u => repeat 32%N (byte_len h) ++ u) t1) ++ repeat 32%N (byte_len h)), u.
        eexists. split; [|exact Hu]. rewrite map_app, concat_app. cbn [map List.concat]. rewrite <- !app_assoc. reflexivity.
    + destruct (IH before x ws after a Er I) as (pre & line & post & -> & Hl).
      exists (h ++ t ++ List.concat (map (fun u => repeat 32%N (byte_len h) ++ u) ts) ++ pre), line, post.
      split; [rewrite <- !app_assoc; reflexivity|]. cbn [flat_map snd]. rewrite E.
      rewrite <- !app_assoc in *. exact Hl.
Qed.
