(** Proofs about field references. *)
From Coq Require Import ZArith NArith List Bool String Permutation Lia.
From Verif Require Import Base Str F64 Date World Amount Posting Entry Ledger Importer
  SpecAmount SpecDate SpecEntry SpecEnvelope SpecLedger SpecRegister SpecImport
  StrFacts LineFacts AmountFacts PostingFacts EntryFacts LedgerFacts RegisterFacts ImportFacts.
Import ListNotations.

Definition ref (n : str) : str := 37%N :: n ++ [37%N].
Definition image (p : piece) : str := match p with Text s => s | Ref n => ref n end.
Lemma template_cons p ps : template (p :: ps) = image p ++ template ps.
Proof. destruct p; reflexivity. Qed.

Lemma copy_plain n q s rest : plain s ->
  replace_aux (ref n) q 0 (s ++ rest) = s ++ replace_aux (ref n) q 0 rest.
Proof.
  induction s as [|c s IH]; intro P; [reflexivity|]. cbn [app replace_aux].
  destruct (starts_with (ref n) (c :: s ++ rest)) eqn:E.
  - exfalso. apply starts_with_iff in E as (r & E). apply P. left. injection E as -> _. reflexivity.
  - f_equal. apply IH. intro I. apply P. right. exact I.
Qed.
Lemma replace_skip p q s rest : replace_aux p q (List.length s) (s ++ rest) = replace_aux p q 0 rest.
Proof. induction s as [|c s IH]; [reflexivity|]. cbn [app List.length replace_aux]. exact IH. Qed.

Lemma ref_start n m rest : plain n -> plain m -> starts_with (ref n) (37%N :: m ++ 37%N :: rest) = true -> n = m.
Proof.
  intros Pn Pm H. apply starts_with_iff in H as (r & H). unfold ref in H.
  cbn [app] in H. injection H as H. rewrite <- app_assoc in H. cbn [app] in H.
  revert m Pm H. induction n as [|c n IH]; intros [|d m] Pm H; cbn [app] in H.
  - reflexivity.
  - injection H as -> H. exfalso. apply Pm. left. reflexivity.
  - injection H as <- H. exfalso. apply Pn. left. reflexivity.
  - injection H as -> H. f_equal. apply IH; [|intro I; apply Pm; right; exact I|exact H].
    intro I. apply Pn. right. exact I.
Qed.
Lemma ref_start_plain n s : plain s -> starts_with (ref n) (37%N :: s) = false.
Proof.
  intro P. apply not_true_iff_false. intro H. apply starts_with_iff in H as (r & H). unfold ref in H. cbn [app] in H.
  injection H as H. apply P. rewrite H, <- app_assoc. cbn [app]. apply in_or_app. right. left. reflexivity.
Qed.
Lemma ref_self n rest : starts_with (ref n) (ref n ++ rest) = true.
Proof. apply starts_with_app. Qed.

(** The pieces that are being worked on. *)
Definition fine (p : piece) : Prop := match p with Text s => plain s | Ref n => plain n end.
Definition texts (ps : list piece) : Prop := Forall (fun p => match p with Text _ => True | Ref _ => False end) ps.
Definition put_value (n v : str) (p : piece) : piece :=
  match p with Ref m => if str_dec m n then Text v else p | Text _ => p end.

Lemma first_ref ps : texts ps \/ exists t b r, ps = t ++ Ref b :: r /\ texts t.
Proof.
  induction ps as [|p ps IH]; [left; constructor|]. destruct p as [s|b].
  - destruct IH as [T|(t & b & r & -> & T)]; [left; constructor; [exact I|exact T]|].
    right. exists (Text s :: t), b, r. split; [reflexivity|]. constructor; [exact I|exact T].
  - right. exists [], b, ps. split; [reflexivity|constructor].
Qed.
Lemma texts_plain t : texts t -> Forall fine t -> plain (template t).
Proof.
  induction t as [|p t IH]; intros T F; [intros []|]. rewrite template_cons. inversion T; inversion F; subst.
  destruct p; [|contradiction]. intro I. apply in_app_or in I as [I|I]; [exact (H5 I)|]. exact (IH H2 H6 I).
Qed.
Lemma template_app a b : template (a ++ b) = template a ++ template b.
Proof. unfold template. rewrite map_app, concat_app. reflexivity. Qed.

Lemma replace_template n v ps : plain n -> Forall fine ps ->
  (forall t1 a mid b t2, ps = t1 ++ Ref a :: mid ++ Ref b :: t2 -> texts mid -> template mid <> n) ->
  replace_aux (ref n) v 0 (template ps) = template (map (put_value n v) ps).
Proof.
  intros Pn F. induction F as [|p ps Fp F IH]; intro W; [reflexivity|].
  assert (W' : forall t1 a mid b t2, ps = t1 ++ Ref a :: mid ++ Ref b :: t2 -> texts mid -> template mid <> n).
  { intros t1 a mid b t2 -> . apply (W (p :: t1) a mid b t2). reflexivity. }
  specialize (IH W'). cbn [map]. rewrite !template_cons. destruct p as [s|m]; cbn [put_value image].
  - rewrite copy_plain by exact Fp. f_equal. exact IH.
  - destruct (str_dec m n) as [-> |N].
    + cbn [image]. unfold ref at 2. cbn [app replace_aux].
      change (37%N :: (n ++ [37%N]) ++ template ps) with (ref n ++ template ps). rewrite ref_self.
      change (pred (List.length (ref n))) with (List.length (n ++ [37%N])).
      rewrite replace_skip, IH. reflexivity.
    + cbn [image]. unfold ref at 2. cbn [app replace_aux].
      destruct (starts_with (ref n) (37%N :: (m ++ [37%N]) ++ template ps)) eqn:E.
      { exfalso. rewrite <- app_assoc in E. cbn [app] in E. apply ref_start in E; [congruence|exact Pn|exact Fp]. }
      unfold ref. cbn [app]. f_equal. rewrite <- !app_assoc.
      change (37%N :: n ++ [37%N]) with (ref n). rewrite copy_plain by exact Fp. f_equal. cbn [app replace_aux].
      destruct (starts_with (ref n) (37%N :: template ps)) eqn:E2.
      * exfalso. destruct (first_ref ps) as [T|(t & b & r & -> & T)].
        -- rewrite ref_start_plain in E2; [discriminate|]. apply texts_plain; assumption.
        -- rewrite template_app, template_cons in E2. cbn [image] in E2. unfold ref at 2 in E2.
           cbn [app] in E2. apply ref_start in E2; [|exact Pn|].
           ++ symmetry in E2. revert E2. apply (W [] m t b r); [reflexivity|exact T].
           ++ apply texts_plain; [exact T|]. apply Forall_app in F. apply F.
      * f_equal. exact IH.
Qed.

(** Some references have been replaced. *)
Definition stage (vars : list (str * str)) (done : list str) (p : piece) : piece :=
  match p with
  | Ref n => if in_dec str_dec n done then Text (lookup vars n) else p
  | Text _ => p
  end.
Lemma stage_text vars done mid : texts (map (stage vars done) mid) ->
  template (map (stage vars done) mid) = meaning vars mid.
Proof.
  induction mid as [|p mid IH]; intro T; [reflexivity|]. cbn [map] in *. inversion T; subst. rewrite template_cons.
  change (meaning vars (p :: mid)) with (match p with Text s => s | Ref n => lookup vars n end ++ meaning vars mid).
  rewrite IH by assumption. f_equal. destruct p as [s|n]; [reflexivity|]. cbn [stage] in *.
  destruct (in_dec str_dec n done); [reflexivity|contradiction].
Qed.
Lemma stage_next vars done n ps : ~ In n done ->
  map (put_value n (lookup vars n)) (map (stage vars done) ps) = map (stage vars (n :: done)) ps.
Proof.
  intro N. rewrite map_map. apply map_ext. intros [s|m]; [reflexivity|]. cbn [stage].
  destruct (in_dec str_dec m done) as [I|I]; cbn [put_value].
  - destruct (in_dec str_dec m (n :: done)) as [J|J]; [reflexivity|]. exfalso. apply J. right. exact I.
  - destruct (str_dec m n) as [-> |D].
    + destruct (in_dec str_dec n (n :: done)) as [J|J]; [reflexivity|]. exfalso. apply J. left. reflexivity.
    + destruct (in_dec str_dec m (n :: done)) as [[J|J]|J]; [congruence|contradiction|reflexivity].
Qed.
Lemma map_split {A B} (f : A -> B) l a x b : map f l = a ++ x :: b ->
  exists l1 y l2, l = l1 ++ y :: l2 /\ map f l1 = a /\ f y = x /\ map f l2 = b.
Proof.
  revert l. induction a as [|z a IH]; intros [|y l] E; try discriminate; cbn [map app] in E; injection E as E1 E2.
  - exists [], y, l. auto.
  - apply IH in E2 as (l1 & y' & l2 & -> & <- & <- & <-). exists (y :: l1), y', l2. cbn [map]. rewrite E1. auto.
Qed.
Lemma stage_ref vars done p a : stage vars done p = Ref a -> p = Ref a.
Proof. destruct p as [s|n]; cbn [stage]; [discriminate|]. destruct (in_dec str_dec n done); [discriminate|auto]. Qed.

Lemma lookup_in vars n v : NoDup (map fst vars) -> In (n, v) vars -> lookup vars n = v.
Proof.
  unfold lookup. induction vars as [|(k & x) vars IH]; intros D I; [destruct I|]. cbn [map fst find] in *.
  inversion D; subst. destruct I as [E|I].
  - injection E as -> ->. destruct (str_dec n n); [reflexivity|contradiction].
  - destruct (str_dec k n) as [-> |N]; [|exact (IH H2 I)]. exfalso. apply H1. apply in_map_iff. exists (n, v). auto.
Qed.
Lemma lookup_plain vars n : Forall (fun v => plain (snd v)) vars -> plain (lookup vars n).
Proof.
  intro F. unfold lookup. destruct (find _ vars) as [v|] eqn:E; [|intros []].
  apply find_some in E as (I & _). rewrite Forall_forall in F. exact (F v I).
Qed.

Lemma inject_stages vars ps : NoDup (map fst vars) -> Forall (fun v => plain (fst v) /\ plain (snd v)) vars ->
  Forall (plain_piece vars) ps -> well_separated vars ps ->
  forall l done, (forall x, In x l -> In x vars) -> NoDup (map fst l) -> (forall x, In x (map fst l) -> ~ In x done) ->
  fold_left (fun acc p => replace (chr "%" :: fst p ++ lit "%") (snd p) acc) l (template (map (stage vars done) ps))
  = template (map (stage vars (rev (map fst l) ++ done)) ps).
Proof.
  intros D F G W. induction l as [|(n & v) l IH]; intros done I Dl Nd; [reflexivity|]. cbn [map fst] in *.
  cbn [fold_left fst snd]. change (chr "%" :: n ++ lit "%") with (ref n).
  assert (In (n, v) vars) as Iv by (apply I; left; reflexivity).
  rewrite Forall_forall in F. pose proof (F _ Iv) as (Pn & Pv). cbn [fst snd] in Pn, Pv.
  rewrite <- Forall_forall in F.
  unfold replace. rewrite replace_template.
  - rewrite <- (lookup_in vars n v D Iv), stage_next by (apply Nd; left; reflexivity).
    rewrite IH.
    + f_equal. cbn [rev]. rewrite <- app_assoc. reflexivity.
    + intros x Ix. apply I. right. exact Ix.
    + inversion Dl; assumption.
    + intros x Ix [-> |J].
      * inversion Dl; contradiction.
      * exact (Nd x (or_intror Ix) J).
  - exact Pn.
  - apply Forall_forall. intros p Ip. apply in_map_iff in Ip as (p0 & <- & Ip). rewrite Forall_forall in G. specialize (G p0 Ip).
    destruct p0 as [s|m]; cbn [stage plain_piece fine] in *; [exact G|].
    destruct (in_dec str_dec m done); cbn [fine].
    + apply lookup_plain. eapply Forall_impl; [|exact F]. intros x (_ & P). exact P.
    + apply in_map_iff in G as (x & <- & Ix). rewrite Forall_forall in F. apply (F x Ix).
  - intros t1 a mid b t2 E T. apply map_split in E as (l1 & y & l2 & -> & _ & Ey & E).
    apply map_split in E as (l3 & z & l4 & -> & Em & Ez & _). apply stage_ref in Ey, Ez. subst y z mid.
    rewrite stage_text by exact T. intro X. apply (W l1 a l3 b l4 eq_refl).
    rewrite X. apply in_map_iff. exists (n, v). auto.
Qed.

Lemma replace_no_percent s : plain s -> replace (lit "%%") (lit "%") s = s.
Proof.
  intro P. change (lit "%%") with (ref []). pose proof (copy_plain [] (lit "%") s [] P) as E. rewrite app_nil_r in E. unfold replace. rewrite E.
  apply app_nil_r.
Qed.

Lemma inject_template ord vars ps : Permutation (ord vars) vars -> NoDup (map fst vars) ->
  Forall (fun v => plain (fst v) /\ plain (snd v)) vars ->
  Forall (plain_piece vars) ps -> well_separated vars ps ->
  inject ord vars (template ps) = meaning vars ps.
Proof.
  intros O D F G W. unfold inject.
  assert (D' : NoDup (map fst (ord vars))).
  { eapply Permutation_NoDup; [|exact D]. apply Permutation_map, Permutation_sym, O. }
  pose proof (inject_stages vars ps D F G W (ord vars) [] (fun x I => Permutation_in _ O I) D' (fun _ _ I => I)) as E.
  assert (S0 : map (stage vars []) ps = ps).
  { rewrite <- (map_id ps) at 2. apply map_ext. intros [s|n]; reflexivity. }
  rewrite S0 in E. rewrite E, app_nil_r.
  assert (T : texts (map (stage vars (rev (map fst (ord vars)))) ps)).
  { apply Forall_forall. intros p I. apply in_map_iff in I as (p0 & <- & I). rewrite Forall_forall in G. specialize (G p0 I).
    destruct p0 as [s|n]; cbn [stage]; [exact Logic.I|]. cbn [plain_piece] in G.
    destruct (in_dec str_dec n _) as [|N]; [exact Logic.I|]. apply N. apply -> in_rev.
    eapply Permutation_in; [apply Permutation_map, Permutation_sym, O|exact G]. }
  rewrite (stage_text vars _ ps T). apply replace_no_percent.
  intro I. unfold meaning in I. apply in_concat in I as (s & Is & Ip). apply in_map_iff in Is as (p & <- & Is).
  rewrite Forall_forall in G. specialize (G p Is). destruct p as [s|n].
  - exact (G Ip).
  - revert Ip. apply lookup_plain. eapply Forall_impl; [|exact F]. intros x (_ & P). exact P.
Qed.
