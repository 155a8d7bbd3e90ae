(** Property C129: how an entry is divided into postings. *)
From Coq Require Import ZArith NArith List Bool Ascii String Permutation Lia Reals.
From Flocq Require Import Core.
From Verif Require Import Base Str F64 Date Amount Posting Entry Envelope Account World Ledger Cli
  SpecAmount SpecDate SpecEntry SpecEnvelope SpecLedger SpecHistory SpecOrder SpecGroup
  StrFacts F64Facts AmountFacts EntryFacts EnvelopeFacts AccountFacts LedgerFacts OrderFacts PropertiesHistory PropertiesLedger PropertiesCli PropertiesOrder.
Import ListNotations.
Local Open Scope Z_scope.

(** ** Whole numbers *)
Definition zval (x : f64) : Z := Zfloor (fR x).
Lemma zval_is x z : f64_is x (IZR z) -> zval x = z.
Proof. intro H. apply f64_is_int in H. destruct H as [_ E]. unfold zval. rewrite E. apply Zfloor_IZR. Qed.
Definition isint (x : f64) : Prop := f64_is x (IZR (zval x)).
Lemma is_isint x z : f64_is x (IZR z) -> isint x.
Proof. intro H. unfold isint. rewrite (zval_is _ _ H). exact H. Qed.
Lemma int_eq x y n : is_int x n -> is_int y n -> unsigned_zero x -> unsigned_zero y -> x = y.
Proof.
  intros [F R] [F' R'] U U'. assert (fR x = fR y) as E by congruence. destruct (Req_dec (fR x) 0) as [Z|N].
  - apply f64_ext; try assumption. rewrite U by exact Z. rewrite U' by congruence. reflexivity.
  - apply f64_ext_R; assumption.
Qed.

(** ** What regrouping keeps *)
Definition by_symbol (P : posting -> Prop) : Prop := forall name sym m k, P (plain name m sym) -> P (plain name k sym).
Definition additive (f : posting -> Z) : Prop := forall name sym m k s x y, f64_is m (IZR x) -> f64_is k (IZR y) -> f64_is s (IZR (x + y)) ->
  f (plain name s sym) = f (plain name m sym) + f (plain name k sym).
Definition Zof (f : posting -> Z) (ps : list posting) : Z := Zsum (map f ps).
Lemma Zof_perm f ps qs : Permutation ps qs -> Zof f ps = Zof f qs.
Proof. intro P. apply Zsum_perm, Permutation_map, P. Qed.
Lemma re_sum f ps qs : additive f -> regrouped ps qs -> Zof f ps = Zof f qs.
Proof.
  intros A [P|name sym m k s x y rs M K S P Q|name sym m k s x y rs M K S P Q]; [apply Zof_perm, P|..];
    rewrite (Zof_perm f _ _ P), (Zof_perm f _ _ Q); unfold Zof, Zsum; cbn [map fold_right]; rewrite (A name sym m k s x y M K S); lia.
Qed.
Lemma re_ex P ps qs : by_symbol P -> regrouped ps qs -> (exists p, In p ps /\ P p) -> exists q, In q qs /\ P q.
Proof.
  intros B [X|name sym m k s x y rs M K S X Y|name sym m k s x y rs M K S X Y] (p & I & H).
  - exists p. split; [exact (Permutation_in _ X I)|exact H].
  - apply (Permutation_in _ X) in I. destruct I as [<-|[<-|I]].
    + exists (plain name s sym). split; [apply (Permutation_in _ (Permutation_sym Y)); left; reflexivity|exact (B _ _ _ _ H)].
    + exists (plain name s sym). split; [apply (Permutation_in _ (Permutation_sym Y)); left; reflexivity|exact (B _ _ _ _ H)].
    + exists p. split; [apply (Permutation_in _ (Permutation_sym Y)); right; exact I|exact H].
  - apply (Permutation_in _ X) in I. destruct I as [<-|I].
    + exists (plain name m sym). split; [apply (Permutation_in _ (Permutation_sym Y)); left; reflexivity|exact (B _ _ _ _ H)].
    + exists p. split; [apply (Permutation_in _ (Permutation_sym Y)); right; right; exact I|exact H].
Qed.
Lemma re_sym ps qs : regrouped ps qs -> regrouped qs ps.
Proof.
  intros [X|name sym m k s x y rs M K S X Y|name sym m k s x y rs M K S X Y];
    [apply regrouped_order, Permutation_sym, X|exact (regrouped_part qs ps name sym m k s x y rs M K S Y X)|exact (regrouped_join qs ps name sym m k s x y rs M K S Y X)].
Qed.
Lemma re_all P ps qs : by_symbol P -> regrouped ps qs -> (forall p, In p ps -> P p) -> forall q, In q qs -> P q.
Proof.
  intros B [X|name sym m k s x y rs M K S X Y|name sym m k s x y rs M K S X Y] H q I.
  - apply H. exact (Permutation_in _ (Permutation_sym X) I).
  - apply (Permutation_in _ Y) in I. destruct I as [<-|I].
    + apply (B name sym m s), H, (Permutation_in _ (Permutation_sym X)). left. reflexivity.
    + apply H, (Permutation_in _ (Permutation_sym X)). right. right. exact I.
  - apply (Permutation_in _ Y) in I. destruct I as [<-|[<-|I]].
    + apply (B name sym s m), H, (Permutation_in _ (Permutation_sym X)). left. reflexivity.
    + apply (B name sym s k), H, (Permutation_in _ (Permutation_sym X)). left. reflexivity.
    + apply H, (Permutation_in _ (Permutation_sym X)). right. exact I.
Qed.
Lemma existsb_re (f : posting -> bool) ps qs : (forall name sym m k, f (plain name m sym) = f (plain name k sym)) -> regrouped ps qs -> existsb f ps = existsb f qs.
Proof.
  intros B R. assert (by_symbol (fun p => f p = true)) as B' by (intros name sym m k H; rewrite <- H; apply B).
  destruct (existsb f ps) eqn:E; symmetry.
  - apply existsb_exists in E. destruct (re_ex _ _ _ B' R E) as (q & I & H). apply existsb_exists. exists q. auto.
  - apply not_true_iff_false. intro H. apply existsb_exists in H. destruct (re_ex _ _ _ B' (re_sym _ _ R) H) as (p & I & K).
    apply not_true_iff_false in E. apply E. apply existsb_exists. exists p. auto.
Qed.

(** ** The numbers of the postings *)
Definition az (p : posting) : Z := match get_amount p with Some a => zval (mag a) | None => 0 end.
Definition nz (p : posting) : Z := match native_value p with Some m => zval m | None => 0 end.
Definition ints (ps : list posting) : Prop :=
  forall p, In p ps -> (forall a, get_amount p = Some a -> isint (mag a)) /\ forall m, native_value p = Some m -> isint m.
Definition size (ps : list posting) : Z := Zof (fun p => Z.abs (az p) + Z.abs (nz p)) ps.
Lemma Zof_cons f p ps : Zof f (p :: ps) = f p + Zof f ps.
Proof. reflexivity. Qed.
Lemma Zof_le f g ps : (forall p, In p ps -> f p <= g p) -> Zof f ps <= Zof g ps.
Proof.
  induction ps as [|p ps IH]; intro H; [reflexivity|]. rewrite !Zof_cons. specialize (H p (or_introl eq_refl)) as H0. specialize (IH (fun q I => H q (or_intror I))). lia.
Qed.
Lemma Zof_abs f ps : Z.abs (Zof f ps) <= Zof (fun p => Z.abs (f p)) ps.
Proof. induction ps as [|p ps IH]; [reflexivity|]. rewrite !Zof_cons. lia. Qed.
Lemma size_nonneg ps : 0 <= size ps.
Proof. unfold size. induction ps as [|p ps IH]; [reflexivity|]. rewrite Zof_cons. lia. Qed.
Lemma az_additive : additive az.
Proof. intros name sym m k s x y M K S. unfold az. cbn. rewrite (zval_is _ _ M), (zval_is _ _ K), (zval_is _ _ S). reflexivity. Qed.
Lemma nz_additive : additive nz.
Proof.
  intros name sym m k s x y M K S. unfold nz. cbn. unfold classic_native. cbn. destruct sym; [reflexivity|]. rewrite (zval_is _ _ M), (zval_is _ _ K), (zval_is _ _ S). reflexivity.
Qed.

(** ** The amount left out *)
Definition has_sym (sym : option str) (p : posting) : Prop := exists a, get_amount p = Some a /\ symbol a = sym.
Definition blank_is (ps : list posting) (o : option amount) : Prop :=
  match o with
  | None => forall p, In p ps -> get_amount p <> None
  | Some b => (exists p, In p ps /\ get_amount p = None)
      /\ (((exists p, In p ps /\ has_sym (symbol b) p) /\ (forall p a, In p ps -> get_amount p = Some a -> symbol a = symbol b) /\ is_int (mag b) (- Zof az ps))
          \/ ((exists p q s s', In p ps /\ In q ps /\ has_sym s p /\ has_sym s' q /\ s <> s')
              /\ (forall p, In p ps -> get_amount p <> None -> native_value p <> None) /\ symbol b = None /\ is_int (mag b) (- Zof nz ps)))
  end.
Lemma has_sym_by s : by_symbol (has_sym s).
Proof. intros name sym m k (a & E & S). injection E as <-. exists (mkAmount k sym). split; [reflexivity|exact S]. Qed.
Lemma blank_is_re ps qs o : regrouped ps qs -> blank_is ps o -> blank_is qs o.
Proof.
  intros R H. destruct o as [b|]; cbn [blank_is] in *.
  - destruct H as [Hb H]. split; [apply (re_ex (fun p => get_amount p = None) ps qs); [intros ? ? ? ? E; discriminate E|exact R|exact Hb]|].
    destruct H as [(W & A & V)|((p & q & s & s' & Ip & Iq & Hp & Hq & Ne) & A & S & V)]; [left|right].
    + split; [exact (re_ex _ _ _ (has_sym_by _) R W)|]. split; [|rewrite <- (re_sum az ps qs az_additive R); exact V].
      intros p a I G. refine (re_all (fun p => forall a, get_amount p = Some a -> symbol a = symbol b) ps qs _ R _ p I a G); [|intros p' I' a'; exact (A p' a' I')].
      intros name sym m k H a' E. injection E as <-. exact (H _ eq_refl).
    + destruct (re_ex _ _ _ (has_sym_by s) R (ex_intro _ p (conj Ip Hp))) as (p' & Ip' & Hp'). destruct (re_ex _ _ _ (has_sym_by s') R (ex_intro _ q (conj Iq Hq))) as (q' & Iq' & Hq').
      split; [exists p', q', s, s'; auto|]. split; [|split; [exact S|rewrite <- (re_sum nz ps qs nz_additive R); exact V]].
      apply (re_all (fun p => get_amount p <> None -> native_value p <> None) ps qs); [|exact R|exact A].
      intros name sym m k H _. assert (native_value (plain name m sym) <> None) as K by (apply H; discriminate). destruct sym; [exact K|discriminate].
  - apply (re_all (fun p => get_amount p <> None) ps qs); [intros ? ? ? ? _; discriminate|exact R|exact H].
Qed.
Lemma fsub_isint x y a b : is_int x a -> is_int y b -> Z.abs (a - b) <= 2 ^ 53 -> is_int (fsub x y) (a - b).
Proof.
  intros [Fx Rx] [Fy Ry] H. destruct (fsub_correct x y Fx Fy) as [E F].
  - rewrite Rx, Ry, <- minus_IZR, rnd_Z by exact H. apply Rabs_Z_small, H.
  - split; [exact F|]. rewrite E, Rx, Ry, <- minus_IZR. apply rnd_Z, H.
Qed.
Lemma in_written ps a : In a (written ps) <-> exists p, In p ps /\ get_amount p = Some a.
Proof.
  unfold written. rewrite in_flat_map. split; intros (p & I & H); exists p; (split; [exact I|]).
  - destruct (get_amount p) as [b|]; [destruct H as [<-|[]]; reflexivity|destruct H].
  - rewrite H. left. reflexivity.
Qed.
Lemma written_sum f ps : (forall p, match get_amount p with Some a => f (zval (mag a)) | None => 0 end = f (az p)) ->
  Zsum (map (fun a => f (zval (mag a))) (written ps)) = Zof (fun p => f (az p)) ps.
Proof.
  intro Z0. unfold written. induction ps as [|p ps IH]; [reflexivity|]. cbn [flat_map]. rewrite map_app, Zof_cons. specialize (Z0 p).
  destruct (get_amount p) as [a|]; cbn [map app]; [unfold Zsum in *; cbn [fold_right]; lia|lia].
Qed.
Lemma az_size ps : Zof (fun p => Z.abs (az p)) ps <= size ps.
Proof. apply Zof_le. intros. lia. Qed.
Lemma nz_size ps : Zof (fun p => Z.abs (nz p)) ps <= size ps.
Proof. apply Zof_le. intros. lia. Qed.
Lemma blank_one_z e sym : ints (e_postings e) -> size (e_postings e) <= 2 ^ 53 -> (exists p, In p (e_postings e) /\ get_amount p = None) ->
  (exists p, In p (e_postings e) /\ has_sym sym p) -> (forall p a, In p (e_postings e) -> get_amount p = Some a -> symbol a = sym) ->
  exists b, get_blank_amount e = Ok (Some b) /\ symbol b = sym /\ is_int (mag b) (- Zof az (e_postings e)).
Proof.
  intros In0 Sz B (p & I & a & G & _) A.
  destruct (blank_amount_whole e sym (map (fun a => zval (mag a)) (written (e_postings e)))) as (b & E & Y & V).
  - exact B.
  - intro E. assert (In a (written (e_postings e))) as K by (apply in_written; eauto). rewrite E in K. destruct K.
  - rewrite Forall_forall. intros c K. apply in_written in K as (q & Iq & Gq). exact (A q c Iq Gq).
  - assert (forall c, In c (written (e_postings e)) -> isint (mag c)) as K by (intros c K; apply in_written in K as (q & Iq & Gq); exact (proj1 (In0 q Iq) c Gq)).
    revert K. generalize (written (e_postings e)). intro l. induction l as [|c l IH]; intro K; constructor; [apply K; left; reflexivity|apply IH; intros d J; apply K; right; exact J].
  - apply partial_bound. rewrite map_map, (written_sum Z.abs). { assert (H := az_size (e_postings e)). change (Z.abs 0) with 0. lia. }
    intro q. unfold az. destruct (get_amount q); reflexivity.
  - exists b. split; [exact E|]. split; [exact Y|]. apply f64_is_int. rewrite (written_sum (fun z => z)) in V by (intro q; reflexivity). exact V.
Qed.
Lemma blank_native_z e ps : forall acc a, ints ps -> is_int acc a -> Z.abs a + size ps <= 2 ^ 53 ->
  (forall p, In p ps -> get_amount p <> None -> native_value p <> None) ->
  exists m, blank_native e ps acc = Ok m /\ is_int m (a - Zof nz ps).
Proof.
  induction ps as [|p ps IH]; intros acc a In0 V Sz A; cbn [blank_native].
  - exists acc. split; [reflexivity|]. change (Zof nz []) with 0. replace (a - 0) with a by lia. exact V.
  - assert (ints ps) as In1 by (intros q I; apply In0; right; exact I). unfold size in Sz. rewrite Zof_cons in Sz. fold (size ps) in Sz. rewrite Zof_cons.
    assert (Sn := size_nonneg ps). assert (forall q, In q ps -> get_amount q <> None -> native_value q <> None) as A' by (intros q I; apply A; right; exact I).
    specialize (A p (or_introl eq_refl)). destruct (In0 p (or_introl eq_refl)) as [_ N]. unfold nz at 1. unfold nz at 1 in Sz. destruct (native_value p) as [m|].
    + specialize (N m eq_refl). apply f64_is_int in N.
      destruct (IH (fsub acc m) (a - zval m) In1) as (r & E & R); [apply fsub_isint; [exact V|exact N|lia]|lia|exact A'|].
      exists r. split; [exact E|]. replace (a - (zval m + Zof nz ps)) with (a - zval m - Zof nz ps) by lia. exact R.
    + destruct (get_amount p); [exfalso; apply A; [discriminate|reflexivity]|].
      destruct (IH acc a In1 V) as (r & E & R); [lia|exact A'|]. exists r. split; [exact E|]. exact R.
Qed.
Lemma blank_native_all e ps : forall acc m, blank_native e ps acc = Ok m -> forall p, In p ps -> get_amount p <> None -> native_value p <> None.
Proof.
  induction ps as [|q ps IH]; intros acc m H p [].
  - subst q. cbn [blank_native] in H. destruct (native_value p); [discriminate|]. destruct (get_amount p); [discriminate H|congruence].
  - cbn [blank_native] in H. destruct (native_value q); [eapply IH; eassumption|]. destruct (get_amount q); [discriminate H|eapply IH; eassumption].
Qed.
Lemma mixed_has ps : mixed ps <-> exists p q s s', In p ps /\ In q ps /\ has_sym s p /\ has_sym s' q /\ s <> s'.
Proof.
  unfold mixed. split.
  - intros (a & b & A & C & N). apply in_written in A as (p & Ip & Gp). apply in_written in C as (q & Iq & Gq).
    exists p, q, (symbol a), (symbol b). unfold has_sym. eauto 10.
  - intros (p & q & s & s' & Ip & Iq & (a & Gp & <-) & (b & Gq & <-) & N). exists a, b. rewrite !in_written. eauto 10.
Qed.
Lemma blank_Ok e o : ints (e_postings e) -> size (e_postings e) <= 2 ^ 53 -> get_blank_amount e = Ok o -> blank_is (e_postings e) o.
Proof.
  intros In0 Sz H. unfold get_blank_amount in H. destruct (has_blank_posting e) eqn:B.
  - apply has_blank_iff in B. destruct (has_mixed_currencies e) eqn:M.
    + apply has_mixed_iff, mixed_has in M. destruct (blank_native e (e_postings e) fzero) as [m| | |] eqn:N; try discriminate H. injection H as <-.
      split; [exact B|]. right. split; [exact M|]. assert (A := blank_native_all _ _ _ _ N). split; [exact A|]. split; [reflexivity|].
      destruct (blank_native_z e (e_postings e) fzero 0 In0 fzero_int) as (m' & E & V); [change (Z.abs 0) with 0; lia|exact A|]. cbn [mag]. replace m with m' by congruence. exact V.
    + destruct (find_amount (e_postings e)) as [[a rest]|] eqn:F; [|discriminate H].
      assert (W := find_amount_written (e_postings e)). rewrite F in W.
      assert (In a (written (e_postings e))) as Ia by (rewrite W; left; reflexivity).
      assert (forall p c, In p (e_postings e) -> get_amount p = Some c -> symbol c = symbol a) as A.
      { intros p c I G. destruct (ostr_eqb_spec (symbol c) (symbol a)) as [E|E]; [exact E|]. exfalso. assert (mixed (e_postings e)) as K by (exists c, a; rewrite in_written; eauto).
        apply has_mixed_iff in K. congruence. }
      assert (exists p, In p (e_postings e) /\ has_sym (symbol a) p) as Wa by (apply in_written in Ia as (p & Ip & Gp); exists p; unfold has_sym; eauto).
      destruct (blank_one_z e (symbol a) In0 Sz B Wa A) as (b & E & Y & V).
      unfold get_blank_amount in E. rewrite (proj2 (has_blank_iff e) B), M, F in E. rewrite H in E. injection E as ->.
      split; [exact B|]. left. rewrite Y. auto.
  - injection H as <-. intros p I N. apply not_true_iff_false in B. apply B. apply has_blank_iff. exists p. auto.
Qed.
Lemma blank_total e o : ints (e_postings e) -> size (e_postings e) <= 2 ^ 53 -> blank_is (e_postings e) o -> exists o', get_blank_amount e = Ok o'.
Proof.
  intros In0 Sz H. destruct o as [b|].
  - destruct H as [B [(W & A & _)|(M & A & _)]].
    + destruct (blank_one_z e _ In0 Sz B W A) as (b' & E & _). eauto.
    + unfold get_blank_amount. rewrite (proj2 (has_blank_iff e) B), (proj2 (has_mixed_iff e) (proj2 (mixed_has _) M)).
      destruct (blank_native_z e (e_postings e) fzero 0 In0 fzero_int) as (m' & E & V); [change (Z.abs 0) with 0; lia|exact A|]. rewrite E. cbn. eauto.
  - exists None. unfold get_blank_amount. destruct (has_blank_posting e) eqn:B; [|reflexivity]. apply has_blank_iff in B as (p & I & G). exfalso. exact (H p I G).
Qed.
Definition same_blank (o o' : option amount) : Prop :=
  match o, o' with
  | None, None => True
  | Some b, Some b' => symbol b' = symbol b /\ exists n, is_int (mag b) n /\ is_int (mag b') n
  | _, _ => False
  end.
Lemma blank_is_fun ps o o' : blank_is ps o -> blank_is ps o' -> same_blank o o'.
Proof.
  destruct o as [b|], o' as [b'|]; cbn [blank_is same_blank]; intros H H'; [|destruct H as [(p & I & G) _]; exact (H' p I G)|destruct H' as [(p & I & G) _]; exact (H p I G)|exact Logic.I].
  destruct H as [_ [(W & A & V)|((p & q & s & s' & Ip & Iq & Hp & Hq & Ne) & A & Y & V)]], H' as [_ [(W' & A' & V')|((p' & q' & t & t' & Ip' & Iq' & Hp' & Hq' & Ne') & A' & Y' & V')]].
  - destruct W as (p & I & a & G & E). split; [rewrite <- E; symmetry; exact (A' p a I G)|eauto].
  - exfalso. apply Ne'. destruct Hp' as (a & G & <-). destruct Hq' as (c & G' & <-). rewrite (A _ _ Ip' G), (A _ _ Iq' G'). reflexivity.
  - exfalso. apply Ne. destruct Hp as (a & G & <-). destruct Hq as (c & G' & <-). rewrite (A' _ _ Ip G), (A' _ _ Iq G'). reflexivity.
  - split; [congruence|eauto].
Qed.
Lemma blank_size ps o b : size ps <= 2 ^ 53 -> blank_is ps o -> o = Some b -> isint (mag b) /\ Z.abs (zval (mag b)) <= size ps.
Proof.
  intros Sz H ->. assert (exists n, is_int (mag b) n /\ Z.abs n <= size ps) as (n & V & L).
  { destruct H as [_ [(_ & _ & V)|(_ & _ & _ & V)]]; eexists; (split; [exact V|]); rewrite Z.abs_opp; (eapply Z.le_trans; [apply Zof_abs|]); [apply az_size|apply nz_size]. }
  apply f64_is_int in V. split; [exact (is_isint _ _ V)|]. rewrite (zval_is _ _ V). exact L.
Qed.
Lemma blank_same e e' o : rewritten e e' -> ints (e_postings e) -> size (e_postings e) <= 2 ^ 53 -> ints (e_postings e') -> size (e_postings e') <= 2 ^ 53 ->
  get_blank_amount e = Ok o -> exists o', get_blank_amount e' = Ok o' /\ same_blank o o'.
Proof.
  intros [_ R] I1 S1 I2 S2 H. apply (blank_Ok _ _ I1 S1) in H. apply (blank_is_re _ _ _ R) in H. destruct (blank_total _ _ I2 S2 H) as (o' & E).
  exists o'. split; [exact E|]. exact (blank_is_fun _ _ _ H (blank_Ok _ _ I2 S2 E)).
Qed.

(** ** What the postings are worth *)
Definition wz (e : entry) (p : posting) : Z :=
  match get_amount p with
  | Some a => zval (mag a)
  | None => match get_blank_amount e with Ok (Some b) => zval (mag b) | _ => 0 end
  end.
Definition good (e : entry) : Prop := ints (e_postings e) /\ size (e_postings e) <= 2 ^ 52 /\ (List.length (blanks_of e) <= 1)%nat.
Lemma good53 e : good e -> size (e_postings e) <= 2 ^ 53.
Proof. intros (_ & H & _). lia. Qed.
Lemma worth_z e p a : good e -> In p (e_postings e) -> worth e p a -> isint (mag a) /\ zval (mag a) = wz e p.
Proof.
  intros G I [W|[W W']]; unfold wz; rewrite W.
  - split; [exact (proj1 (proj1 G p I) a W)|reflexivity].
  - rewrite W'. split; [|reflexivity]. exact (proj1 (blank_size _ _ a (good53 e G) (blank_Ok e _ (proj1 G) (good53 e G) W') eq_refl)).
Qed.
Lemma wz_size e : good e -> Zof (fun p => Z.abs (wz e p)) (e_postings e) <= 2 * size (e_postings e).
Proof.
  intro G. destruct G as (In0 & Sz & L) eqn:E0. clear E0.
  assert (exists b, 0 <= b <= size (e_postings e) /\ forall p, Z.abs (wz e p) = match get_amount p with Some _ => Z.abs (az p) | None => b end) as (b & Hb & W).
  { exists (match get_blank_amount e with Ok (Some b) => Z.abs (zval (mag b)) | _ => 0 end). split.
    - assert (H := size_nonneg (e_postings e)). destruct (get_blank_amount e) as [[b|]| | |] eqn:B; try lia.
      destruct (blank_size _ _ b (good53 e G) (blank_Ok e _ In0 (good53 e G) B) eq_refl). lia.
    - intro p. unfold wz, az. destruct (get_amount p); [reflexivity|]. destruct (get_blank_amount e) as [[c|]| | |]; reflexivity. }
  assert (Zof (fun p => Z.abs (wz e p)) (e_postings e) <= size (e_postings e) + b * Z.of_nat (List.length (blanks_of e))) as K.
  { unfold blanks_of, size. clear - W. generalize (e_postings e) as ps. intro ps. induction ps as [|p ps IH]; [cbn; lia|]. cbn [filter]. rewrite !Zof_cons, W.
    assert (H := Z.abs_nonneg (nz p)). assert (H' := Z.abs_nonneg (az p)). destruct (get_amount p); cbn [List.length]; [lia|]. rewrite Nat2Z.inj_succ. lia. }
  destruct (List.length (blanks_of e)) as [|[|n]]; [cbn in K|cbn in K|lia]; lia.
Qed.

(** ** What an envelope takes *)
Definition fits (v : envelope) (e : entry) (p : posting) : Prop :=
  exists a, worth e p a /\ (symbol a = symbol (v_amount v)
    \/ (symbol (v_amount v) = None /\ native_value p <> None /\ str_eqb (get_account p) (v_account v) = false /\ mem (get_account p) (v_auto v) = false)).
Definition ownz (v : envelope) (e : entry) (p : posting) : Z := if str_eqb (get_account p) (v_account v) then wz e p else 0.
Definition linkz (v : envelope) (e : entry) (p : posting) : Z :=
  if str_eqb (get_account p) (v_account v) then 0 else if mem (get_account p) (v_auto v) then wz e p else 0.
Lemma infer_total v e ps : good e -> (forall p, In p ps -> In p (e_postings e)) -> (forall p, In p ps -> fits v e p) ->
  forall au se a s, symbol au = symbol (v_amount v) -> symbol se = symbol (v_amount v) -> is_int (mag au) a -> is_int (mag se) s ->
  unsigned_zero (mag au) -> unsigned_zero (mag se) ->
  Z.abs a + Zof (fun p => Z.abs (wz e p)) ps <= 2 ^ 53 -> Z.abs s + Zof (fun p => Z.abs (wz e p)) ps <= 2 ^ 53 ->
  exists au' se', fold_res (infer_step v e) ps (au, se) = Ok (au', se')
    /\ is_int (mag au') (a + Zof (linkz v e) ps) /\ is_int (mag se') (s + Zof (ownz v e) ps) /\ unsigned_zero (mag au') /\ unsigned_zero (mag se').
Proof.
  intros G. induction ps as [|p ps IH]; intros Sub F au se a s Ya Ys Va Vs Ua Us Ba Bs.
  - exists au, se. change (Zof (linkz v e) []) with 0. change (Zof (ownz v e) []) with 0. rewrite !Z.add_0_r. auto.
  - cbn [fold_res]. rewrite Zof_cons in Ba, Bs. rewrite !Zof_cons.
    assert (0 <= Zof (fun p => Z.abs (wz e p)) ps) as Nn by (eapply Z.le_trans; [apply Z.abs_nonneg|apply (Zof_abs (wz e))]).
    destruct (F p (or_introl eq_refl)) as (c & W & D). destruct (worth_z e p c G (Sub p (or_introl eq_refl)) W) as [Ic Zc]. apply f64_is_int in Ic. rewrite Zc in Ic.
    specialize (IH (fun q I => Sub q (or_intror I)) (fun q I => F q (or_intror I))). unfold infer_step at 1.
    destruct D as [D|(D & Nv & O & Lk)].
    + rewrite (infer_amount_total v e p c W D). cbn [bind]. unfold ownz at 1, linkz at 1.
      destruct (str_eqb (get_account p) (v_account v)).
      * unfold amount_add. rewrite Ys, D, ostr_eqb_refl. cbn [bind].
        destruct (IH au (mkAmount (fadd (mag se) (mag c)) (symbol (v_amount v))) a (s + wz e p)) as (au' & se' & E & A & B & U & U'); cbn [symbol mag]; auto;
          [apply fadd_int; [exact Vs|exact Ic|lia]|apply (fadd_zero _ _ _ _ Vs Ic); [lia|exact Us]|lia|lia|].
        exists au', se'. rewrite E. split; [reflexivity|]. rewrite Z.add_0_l, Z.add_assoc. auto.
      * destruct (mem (get_account p) (v_auto v)).
        -- unfold amount_add. rewrite Ya, D, ostr_eqb_refl. cbn [bind].
           destruct (IH (mkAmount (fadd (mag au) (mag c)) (symbol (v_amount v))) se (a + wz e p) s) as (au' & se' & E & A & B & U & U'); cbn [symbol mag]; auto;
             [apply fadd_int; [exact Va|exact Ic|lia]|apply (fadd_zero _ _ _ _ Va Ic); [lia|exact Ua]|lia|lia|].
           exists au', se'. rewrite E. split; [reflexivity|]. rewrite Z.add_0_l, Z.add_assoc. auto.
        -- cbn [bind]. rewrite !Z.add_0_l. apply IH; auto; lia.
    + assert (exists x, infer_amount v e p = Ok x) as (x & Ex).
      { unfold infer_amount. destruct W as [W|[W W']]; rewrite W; [|rewrite W']; cbn [bind unwrap]; (destruct (ostr_eqb _ _); [eauto|]); rewrite D; (destruct (native_value p); [eauto|congruence]). }
      rewrite Ex. cbn [bind]. unfold ownz at 1, linkz at 1. rewrite O, Lk. cbn [bind]. rewrite !Z.add_0_l. apply IH; auto; lia.
Qed.
Lemma infer_fits v e ps : forall au se r, symbol au = symbol (v_amount v) -> symbol se = symbol (v_amount v) ->
  fold_res (infer_step v e) ps (au, se) = Ok r -> forall p, In p ps -> fits v e p.
Proof.
  induction ps as [|q ps IH]; intros au se r Ya Ys H p I; [destruct I|]. cbn [fold_res] in H. apply bind_Ok in H as ([au1 se1] & E & H).
  unfold infer_step in E. apply bind_Ok in E as (a & Ea & E). assert (Ea' := Ea). apply infer_amount_worth in Ea as (b & W & Sb & _).
  assert (fits v e q /\ symbol au1 = symbol (v_amount v) /\ symbol se1 = symbol (v_amount v)) as (Fq & Y1 & Y2).
  { destruct (str_eqb (get_account q) (v_account v)) eqn:O; [|destruct (mem (get_account q) (v_auto v)) eqn:L].
    - apply bind_Ok in E as (s & Es & E). injection E as <- <-. apply added_iff in Es as [E1 ->]. split; [|split; [exact Ya|exact Ys]].
      exists b. split; [exact W|]. left. congruence.
    - apply bind_Ok in E as (s & Es & E). injection E as <- <-. apply added_iff in Es as [E1 ->]. split; [|split; [exact Ya|exact Ys]].
      exists b. split; [exact W|]. left. congruence.
    - injection E as <- <-. split; [|split; [exact Ya|exact Ys]]. exists b. split; [exact W|].
      unfold infer_amount in Ea'. destruct W as [W|[W W']]; rewrite W in Ea'; [|rewrite W' in Ea']; cbn [bind unwrap] in Ea';
        (destruct (ostr_eqb_spec (symbol b) (symbol (v_amount v))) as [Q|Q]; [left; exact Q|right]);
        (destruct (symbol (v_amount v)); [discriminate Ea'|]); (destruct (native_value q); [|discriminate Ea']); repeat split; auto; discriminate. }
  destruct I as [<-|I]; [exact Fq|exact (IH au1 se1 r Y1 Y2 H p I)].
Qed.
Lemma fits_by v e : by_symbol (fits v e).
Proof.
  intros name sym m k (a & W & D). destruct W as [W|[W _]]; [|discriminate W]. injection W as <-.
  exists (mkAmount k sym). split; [left; reflexivity|]. destruct D as [D|(D & Nv & O)]; [left; exact D|right]. split; [exact D|]. split; [|exact O].
  cbn in *. unfold classic_native in *. cbn in *. destruct sym; [exact Nv|discriminate].
Qed.
Lemma fits_re v e e' : rewritten e e' -> good e -> good e' -> (forall p, In p (e_postings e) -> fits v e p) ->
  forall q, In q (e_postings e') -> fits v e' q /\ wz e' q = wz e q.
Proof.
  intros R G G' F q I. assert (fits v e q) as Fq by exact (re_all _ _ _ (fits_by v e) (proj2 R) F q I).
  destruct Fq as (a & W & D). destruct W as [W|[W W']].
  - split; [exists a; split; [left; exact W|exact D]|]. unfold wz. rewrite W. reflexivity.
  - destruct (blank_same e e' _ R (proj1 G) (good53 e G) (proj1 G') (good53 e' G') W') as (o' & B & Sb). destruct o' as [b'|]; [|destruct Sb].
    destruct Sb as [Y (n & V & V')]. split.
    + exists b'. split; [right; auto|]. rewrite Y. exact D.
    + unfold wz. rewrite W, W', B. apply f64_is_int in V. apply f64_is_int in V'. rewrite (zval_is _ _ V), (zval_is _ _ V'). reflexivity.
Qed.
Lemma Zof_ext f g ps : (forall p, In p ps -> f p = g p) -> Zof f ps = Zof g ps.
Proof. intro H. apply Z.le_antisymm; apply Zof_le; intros p I; rewrite (H p I); reflexivity. Qed.
Lemma wz_plain e name m sym : wz e (plain name m sym) = zval m.
Proof. reflexivity. Qed.
Lemma ownz_additive v e : additive (ownz v e).
Proof.
  intros name sym m k s x y M K S. unfold ownz. rewrite !wz_plain, (zval_is _ _ M), (zval_is _ _ K), (zval_is _ _ S). cbn. destruct (str_eqb name (v_account v)); lia.
Qed.
Lemma linkz_additive v e : additive (linkz v e).
Proof.
  intros name sym m k s x y M K S. unfold linkz. rewrite !wz_plain, (zval_is _ _ M), (zval_is _ _ K), (zval_is _ _ S). cbn.
  destruct (str_eqb name (v_account v)); [lia|]. destruct (mem name (v_auto v)); lia.
Qed.
Lemma counted {A} (f : A -> bool) l : Nat.ltb (List.length (filter f l)) 1 = negb (existsb f l).
Proof. induction l as [|x l IH]; [reflexivity|]. cbn [filter existsb]. destruct (f x); [reflexivity|exact IH]. Qed.
Lemma posted_re v ps qs : regrouped ps qs -> Permutation (posted_to v ps) (posted_to v qs).
Proof.
  intros [X|name sym m k s x y rs M K S X Y|name sym m k s x y rs M K S X Y];
    [exact (Permutation_flat_map _ X)|..];
    (eapply Permutation_trans; [exact (Permutation_flat_map _ X)|apply Permutation_sym; eapply Permutation_trans; [exact (Permutation_flat_map _ Y)|]; apply Permutation_refl]).
Qed.
Lemma plan_re v e e' ls : rewritten e e' -> good e -> good e' -> plan v e = Ok ls -> exists ls', plan v e' = Ok ls' /\ Permutation ls ls'.
Proof.
  intros R G G' H. unfold plan in *. assert (R' := proj2 R).
  assert (has_envelope_posting e' = has_envelope_posting e) as E1 by (symmetry; apply existsb_re; [reflexivity|exact R']).
  rewrite E1. destruct (has_envelope_posting e); [injection H as <-; exists (posted_to v (e_postings e')); split; [reflexivity|apply posted_re, R']|].
  assert (Nat.ltb (count_self v (e_postings e')) 1 = Nat.ltb (count_self v (e_postings e)) 1) as E2
    by (unfold count_self; rewrite !counted; f_equal; symmetry; apply existsb_re; [reflexivity|exact R']).
  assert (Nat.ltb (count_auto v (e_postings e')) 1 = Nat.ltb (count_auto v (e_postings e)) 1) as E3
    by (unfold count_auto; rewrite !counted; f_equal; symmetry; apply existsb_re; [reflexivity|exact R']).
  rewrite E2, E3. destruct (_ || _); [injection H as <-; exists []; auto|].
  apply bind_Ok in H as ([au se] & E & H). set (zero := mkAmount fzero (symbol (v_amount v))) in *.
  assert (F := infer_fits v e (e_postings e) zero zero _ eq_refl eq_refl E).
  assert (F' := fits_re v e e' R G G' F). assert (S1 := wz_size e G). assert (S2 := wz_size e' G'). destruct G as (I1 & B1 & L1) eqn:X. destruct G' as (I2 & B2 & L2) eqn:X'.
  destruct (infer_total v e (e_postings e) G (fun _ I => I) F zero zero 0 0 eq_refl eq_refl fzero_int fzero_int (fun _ => eq_refl) (fun _ => eq_refl)) as (au1 & se1 & K1 & A1 & C1 & U1 & U2);
    [change (Z.abs 0) with 0; lia..|].
  destruct (infer_total v e' (e_postings e') G' (fun _ I => I) (fun q I => proj1 (F' q I)) zero zero 0 0 eq_refl eq_refl fzero_int fzero_int (fun _ => eq_refl) (fun _ => eq_refl)) as (au2 & se2 & K2 & A2 & C2 & U3 & U4);
    [change (Z.abs 0) with 0; lia..|].
  rewrite K1 in E. injection E as -> ->. rewrite K2. cbn [bind].
  assert (Zof (linkz v e') (e_postings e') = Zof (linkz v e) (e_postings e)) as Q1.
  { rewrite (re_sum (linkz v e) _ _ (linkz_additive v e) R'). apply Zof_ext. intros q I. unfold linkz. rewrite (proj2 (F' q I)). reflexivity. }
  assert (Zof (ownz v e') (e_postings e') = Zof (ownz v e) (e_postings e)) as Q2.
  { rewrite (re_sum (ownz v e) _ _ (ownz_additive v e) R'). apply Zof_ext. intros q I. unfold ownz. rewrite (proj2 (F' q I)). reflexivity. }
  rewrite Q1 in A2. rewrite Q2 in C2. rewrite (int_eq _ _ _ A2 A1 U3 U1), (int_eq _ _ _ C2 C1 U4 U2). exists ls. split; [exact H|apply Permutation_refl].
Qed.

(** ** The envelopes *)
Definition mz (ls : list amount) : Z := Zsum (map (fun a => Z.abs (zval (mag a))) ls).
Lemma mz_app ls ks : mz (ls ++ ks) = mz ls + mz ks.
Proof. unfold mz. rewrite map_app. induction ls as [|a ls IH]; [reflexivity|]. unfold Zsum in *. cbn [map app fold_right]. lia. Qed.
Lemma posted_z v ps : ints ps -> (forall a, In a (posted_to v ps) -> isint (mag a)) /\ mz (posted_to v ps) <= Zof (fun p => Z.abs (az p)) ps.
Proof.
  induction ps as [|p ps IH]; intro H; [split; [intros a []|reflexivity]|]. destruct (IH (fun q I => H q (or_intror I))) as [A B]. specialize (H p (or_introl eq_refl)) as [Hp _].
  assert (posted_to v (p :: ps) = posted_to v [p] ++ posted_to v ps) as -> by (exact (flat_map_app _ [p] ps)). rewrite mz_app, Zof_cons.
  assert ((forall a, In a (posted_to v [p]) -> isint (mag a)) /\ mz (posted_to v [p]) <= Z.abs (az p)) as [C D].
  { unfold posted_to. cbn [flat_map]. rewrite app_nil_r. destruct p as [c|ep]; [split; [intros a []|apply Z.abs_nonneg]|].
    destruct (str_dec _ _); [destruct (str_dec _ _)|]; [|split; [intros a []|apply Z.abs_nonneg]..].
    split; [intros a [<-|[]]; exact (Hp _ eq_refl)|]. unfold mz, az, Zsum. cbn. lia. }
  split; [intros a I; apply in_app_iff in I as [I|I]; auto|lia].
Qed.
Lemma fmin_or x y : fmin x y = x \/ fmin x y = y.
Proof. unfold fmin. destruct (fis_nan x); [auto|]. destruct (fis_nan y); [auto|]. destruct (fltb y x); auto. Qed.
Lemma fabs_isint x n : is_int x n -> is_int (fabs x) (Z.abs n).
Proof. intros [F R]. destruct (fabs_correct x) as [E G]. split; [congruence|]. rewrite E, R, abs_IZR. reflexivity. Qed.
Lemma plan_z v e ls : good e -> plan v e = Ok ls -> (forall a, In a ls -> isint (mag a)) /\ mz ls <= 2 * size (e_postings e).
Proof.
  intros G H. unfold plan in H. assert (Sn := size_nonneg (e_postings e)). destruct (has_envelope_posting e).
  - injection H as <-. destruct (posted_z v (e_postings e) (proj1 G)) as [A B]. split; [exact A|]. assert (K := az_size (e_postings e)). lia.
  - destruct (_ || _); [injection H as <-; split; [intros a []|change (mz []) with 0; lia]|].
    apply bind_Ok in H as ([au se] & E & H). set (zero := mkAmount fzero (symbol (v_amount v))) in *.
    assert (F := infer_fits v e (e_postings e) zero zero _ eq_refl eq_refl E). assert (S1 := wz_size e G). assert (Sz := proj1 (proj2 G)).
    destruct (infer_total v e (e_postings e) G (fun _ I => I) F zero zero 0 0 eq_refl eq_refl fzero_int fzero_int (fun _ => eq_refl) (fun _ => eq_refl)) as (au1 & se1 & K1 & A1 & C1 & _);
      [change (Z.abs 0) with 0; lia..|]. rewrite K1 in E. injection E as -> ->.
    assert (Z.abs (Zof (linkz v e) (e_postings e)) <= 2 * size (e_postings e)) as L1.
    { eapply Z.le_trans; [apply Zof_abs|]. eapply Z.le_trans; [|exact S1]. apply Zof_le. intros p _. unfold linkz. destruct (str_eqb _ _); [lia|]. destruct (mem _ _); lia. }
    assert (Z.abs (Zof (ownz v e) (e_postings e)) <= 2 * size (e_postings e)) as L2.
    { eapply Z.le_trans; [apply Zof_abs|]. eapply Z.le_trans; [|exact S1]. apply Zof_le. intros p _. unfold ownz. destruct (str_eqb _ _); lia. }
    rewrite Z.add_0_l in A1, C1.
    assert (exists n, is_int (fmin (mag au) (fabs (mag se))) n /\ Z.abs n <= 2 * size (e_postings e)) as (n & V & L).
    { destruct (fmin_or (mag au) (fabs (mag se))) as [-> | ->]; [eauto|]. eexists. split; [apply fabs_isint, C1|]. lia. }
    destruct (negb _); injection H as <-; [|split; [intros a []|change (mz []) with 0; lia]].
    assert (exists k, is_int (if fltb (mag se) fzero then fneg (fmin (mag au) (fabs (mag se))) else fmin (mag au) (fabs (mag se))) k /\ Z.abs k = Z.abs n) as (k & Vk & Lk).
    { destruct (fltb (mag se) fzero); [exists (- n); split; [apply fneg_int, V|lia]|eauto]. }
    apply f64_is_int in Vk. split; [intros a [<-|[]]; exact (is_isint _ _ Vk)|]. unfold mz, Zsum. cbn [map fold_right mag]. rewrite (zval_is _ _ Vk). lia.
Qed.
Definition total (es : list entry) : Z := Zsum (map (fun e => size (e_postings e)) es).
Lemma total_cons e es : total (e :: es) = size (e_postings e) + total es.
Proof. reflexivity. Qed.
Lemma total_nonneg es : 0 <= total es.
Proof. induction es as [|e es IH]; [reflexivity|]. rewrite total_cons. assert (H := size_nonneg (e_postings e)). lia. Qed.
Lemma perm_dates (d : date) (ls ks : list amount) : Permutation ls ks -> map fst (map (pair d) ls) = map fst (map (pair d) ks).
Proof. intro P. rewrite !map_map. cbn. induction P; cbn; congruence. Qed.
Lemma plans_re v es es' : Forall2 rewritten es es' -> Forall good es -> Forall good es' -> forall h, plans v es h ->
  exists h', plans v es' h' /\ Permutation h h' /\ map fst h = map fst h'
    /\ (forall x, In x h -> isint (mag (snd x))) /\ mz (map snd h) <= 2 * total es.
Proof.
  induction 1 as [|e e' es es' R F IH]; intros G G' h P.
  - destruct P as (lss & F & ->). inversion F; subst. exists []. split; [apply plans_nil|]. split; [apply Permutation_refl|]. split; [reflexivity|]. split; [intros x []|reflexivity].
  - inversion G as [|? ? Ge Gs]; subst. inversion G' as [|? ? Ge' Gs']; subst. apply plans_cons in P as (ls & h1 & Pe & Ps & ->).
    destruct (IH Gs Gs' h1 Ps) as (h1' & Ps' & P1 & D1 & Z1 & B1). destruct (plan_re v e e' ls R Ge Ge' Pe) as (ls' & Pe' & Pl). destruct (plan_z v e ls Ge Pe) as [Zl Bl].
    exists (map (pair (e_date e')) ls' ++ h1'). split; [apply plans_cons; eauto|]. rewrite (proj1 R).
    split; [apply Permutation_app; [apply Permutation_map, Pl|exact P1]|]. split; [rewrite !map_app, D1, (perm_dates _ _ _ Pl); reflexivity|].
    split.
    + intros x I. apply in_app_iff in I as [I|I]; [|auto]. apply in_map_iff in I as (a & <- & I). exact (Zl a I).
    + rewrite map_app, mz_app, total_cons, map_map. cbn [snd]. rewrite map_id. lia.
Qed.
Lemma ints_whole {A} (g : A -> f64) l : (forall x, In x l -> isint (g x)) -> Zsum (map (fun x => Z.abs (zval (g x))) l) <= 2 ^ 53 -> whole (map g l).
Proof.
  intros H B. exists (map (fun x => zval (g x)) l). split; [|rewrite map_map; exact B]. clear B. induction l as [|x l IH]; constructor; [apply H; left; reflexivity|apply IH; intros y I; apply H; right; exact I].
Qed.
Lemma walked_last today v h w : walked today v h w -> v_last w = last (map fst h) (v_last v).
Proof.
  induction 1 as [|v d a u h w M W IH]; [reflexivity|]. rewrite IH. destruct M as (_ & L & _). cbn [map fst]. rewrite L. destruct (map fst h) as [|x r] eqn:E; [reflexivity|].
  cbn [last]. clear. revert x. induction r as [|y r IHr]; intro x; [reflexivity|]. cbn [last] in *. apply IHr.
Qed.
Lemma envelope_re today v es es' w : in_currency v -> empty v -> Forall2 rewritten es es' -> Forall good es -> Forall good es' -> total es <= 2 ^ 52 ->
  fold_res (env_process today) es v = Ok w -> fold_res (env_process today) es' v = Ok w.
Proof.
  intros C [En Ex] R G G' B H. apply history_walked in H as (h & P & W). destruct (plans_re v es es' R G G' h P) as (h' & P' & Ph & Dh & Zh & Bh).
  assert (Forall (fun x => movable today v (snd x)) h') as F.
  { rewrite Forall_forall. intros x I. assert (Forall (fun x => movable today v (snd x)) h) as K by (apply walked_movable; eauto).
    rewrite Forall_forall in K. apply K. apply (Permutation_in _ (Permutation_sym Ph)), I. }
  apply walked_movable in F as (w' & W'); [|exact C].
  assert (w' = w) as <-; [|apply history_walked; eauto].
  assert (S := walked_same _ _ _ _ W). assert (S' := walked_same _ _ _ _ W').
  assert (whole (map (fun x => mag (snd x)) h)) as Wh by (apply ints_whole; [exact Zh|unfold mz in Bh; rewrite map_map in Bh; lia]).
  destruct (walked_currency _ _ _ _ W C) as [C1 C2]. destruct (walked_currency _ _ _ _ W' C) as [C1' C2'].
  assert (v_amount w = v_amount v /\ v_amount w' = v_amount v) as [A A'] by (split; [apply S|apply S']).
  assert (L := walked_last _ _ _ _ W). assert (L' := walked_last _ _ _ _ W').
  assert (mag (v_now w') = mag (v_now w) /\ mag (v_next w') = mag (v_next w)) as [M1 M2].
  { destruct (freq_last today (v_freq v)) as [l| | |] eqn:Fr;
      [|destruct (walked_stuck _ _ _ _ W) as [X Y]; [congruence|]; destruct (walked_stuck _ _ _ _ W') as [X' Y']; [congruence|];
        rewrite X, X', Y, Y', En; split; [symmetry; apply whole_sum_of; assumption|reflexivity]..].
    destruct (walked_sums _ _ _ _ _ W Fr) as [X Y]. destruct (walked_sums _ _ _ _ _ W' Fr) as [X' Y'].
    rewrite X, X', Y, Y', En, Ex. split; symmetry; apply whole_sum_of; assumption. }
  rewrite <- Dh in L'. unfold same_definition in S, S'. destruct w as [n am ty au fr fu st [nx nxs] [no nos] ac la], w' as [n' am' ty' au' fr' fu' st' [nx' nxs'] [no' nos'] ac' la']. cbn in *.
  destruct S as (? & ? & ? & ? & ? & ? & ? & ?), S' as (? & ? & ? & ? & ? & ? & ? & ?). congruence.
Qed.

(** ** The money *)
Definition wsym (e : entry) (p : posting) : option (option str) :=
  match get_amount p with
  | Some a => Some (symbol a)
  | None => match get_blank_amount e with Ok (Some b) => Some (symbol b) | _ => None end
  end.
Definition rz (name : str) (sym : option str) (e : entry) (p : posting) : Z :=
  if to_classic name (e, p) then match wsym e p with Some s => if sym_dec s sym then wz e p else 0 | None => 0 end else 0.
Lemma rz_additive name sym e : additive (rz name sym e).
Proof.
  intros nm sy m k s x y M K S. unfold rz. rewrite !wz_plain, (zval_is _ _ M), (zval_is _ _ K), (zval_is _ _ S).
  change (wsym e (plain nm s sy)) with (Some sy). change (wsym e (plain nm m sy)) with (Some sy). change (wsym e (plain nm k sy)) with (Some sy).
  change (to_classic name (e, plain nm s sy)) with (to_classic name (e, plain nm m sy)). change (to_classic name (e, plain nm k sy)) with (to_classic name (e, plain nm m sy)).
  destruct (to_classic _ _); [|reflexivity]. destruct (sym_dec sy sym); reflexivity.
Qed.
Definition of_sym (sym : option str) (a : amount) : bool := if sym_dec (symbol a) sym then true else false.
Definition value_in (sym : option str) (xs : list amount) : Z := Zsum (map (fun a => zval (mag a)) (filter (of_sym sym) xs)).
Lemma value_in_app sym xs ys : value_in sym (xs ++ ys) = value_in sym xs + value_in sym ys.
Proof. unfold value_in. rewrite filter_app, map_app. induction (map (fun a => zval (mag a)) (filter (of_sym sym) xs)) as [|z l IH]; [reflexivity|]. unfold Zsum in *. cbn [app fold_right]. lia. Qed.
Lemma worth_wsym e p a : worth e p a -> wsym e p = Some (symbol a).
Proof. intros [W|[W W']]; unfold wsym; rewrite W; [reflexivity|]. rewrite W'. reflexivity. Qed.
Lemma worths_z name e ps : good e -> (forall p, In p ps -> In p (e_postings e)) -> forall xs, worths (filter (to_classic name) (map (pair e) ps)) xs ->
  (forall a, In a xs -> isint (mag a)) /\ mz xs <= Zof (fun p => Z.abs (wz e p)) ps /\ forall sym, value_in sym xs = Zof (rz name sym e) ps.
Proof.
  intros G. induction ps as [|p ps IH]; intros Sub xs W.
  - inversion W; subst. split; [intros a []|]. split; reflexivity.
  - cbn [map filter] in W. specialize (IH (fun q I => Sub q (or_intror I))). rewrite Zof_cons. destruct (to_classic name (e, p)) eqn:T.
    + inversion W as [|? a ? xs' Wp W']; subst. cbn [fst snd] in Wp. destruct (IH xs' W') as (A & B & C). destruct (worth_z e p a G (Sub p (or_introl eq_refl)) Wp) as [Ia Za].
      split; [intros c [<-|I]; auto|]. split; [unfold mz, Zsum in *; cbn [map fold_right]; rewrite Za; lia|].
      intro sym. rewrite Zof_cons, <- C. unfold rz. rewrite T, (worth_wsym _ _ _ Wp). unfold value_in, of_sym. cbn [filter]. destruct (sym_dec (symbol a) sym); [|reflexivity].
      unfold Zsum. cbn [map fold_right]. rewrite Za. reflexivity.
    + destruct (IH xs W) as (A & B & C). split; [exact A|]. split; [assert (K := Z.abs_nonneg (wz e p)); lia|]. intro sym. rewrite Zof_cons, <- C. unfold rz. rewrite T. reflexivity.
Qed.
Lemma worths_exist name e ps : (forall p, In p ps -> to_classic name (e, p) = true -> exists a, worth e p a) -> exists xs, worths (filter (to_classic name) (map (pair e) ps)) xs.
Proof.
  induction ps as [|p ps IH]; intro H; [exists []; constructor|]. destruct IH as (xs & W); [intros q I; apply H; right; exact I|]. cbn [map filter].
  destruct (to_classic name (e, p)) eqn:T; [|eauto]. destruct (H p (or_introl eq_refl) T) as (a & Wa). exists (a :: xs). constructor; assumption.
Qed.
Lemma worths_all name e ps xs : worths (filter (to_classic name) (map (pair e) ps)) xs -> forall p, In p ps -> to_classic name (e, p) = true -> exists a, worth e p a.
Proof.
  revert xs. induction ps as [|q ps IH]; intros xs W p I T; [destruct I|]. cbn [map filter] in W. destruct I as [->|I].
  - rewrite T in W. inversion W; subst. eauto.
  - destruct (to_classic name (e, q)); [inversion W; subst|]; eauto.
Qed.
Lemma entry_re name e e' xs : rewritten e e' -> good e -> good e' -> worths (filter (to_classic name) (map (pair e) (e_postings e))) xs ->
  exists ys, worths (filter (to_classic name) (map (pair e') (e_postings e'))) ys /\ (forall sym, value_in sym ys = value_in sym xs)
  /\ (forall a, In a xs -> isint (mag a)) /\ (forall a, In a ys -> isint (mag a)) /\ mz xs <= 2 * size (e_postings e) /\ mz ys <= 2 * size (e_postings e').
Proof.
  intros R G G' W. assert (forall q, In q (e_postings e') -> to_classic name (e, q) = true -> (exists a, worth e' q a) /\ wsym e' q = wsym e q /\ wz e' q = wz e q) as K.
  { intros q I T. destruct (re_all (fun p => to_classic name (e, p) = true -> exists a, worth e p a) (e_postings e) (e_postings e')) with (q := q) as (a & Wa);
      [intros nm sy m k _ _; eexists; left; reflexivity|exact (proj2 R)|exact (worths_all name e _ xs W)|exact I|exact T|].
    destruct Wa as [Wa|[Wa Wb]].
    - split; [exists a; left; exact Wa|]. unfold wsym, wz. rewrite Wa. auto.
    - destruct (blank_same e e' _ R (proj1 G) (good53 e G) (proj1 G') (good53 e' G') Wb) as (o' & B & Sb). destruct o' as [b'|]; [|destruct Sb]. destruct Sb as [Y (n & V & V')].
      split; [exists b'; right; auto|]. unfold wsym, wz. rewrite Wa, Wb, B, Y. apply f64_is_int in V. apply f64_is_int in V'. rewrite (zval_is _ _ V), (zval_is _ _ V'). auto. }
  destruct (worths_exist name e' (e_postings e')) as (ys & W'); [intros q I T; exact (proj1 (K q I T))|]. exists ys. split; [exact W'|].
  destruct (worths_z name e _ G (fun _ I => I) xs W) as (A & B & C). destruct (worths_z name e' _ G' (fun _ I => I) ys W') as (A' & B' & C').
  assert (S1 := wz_size e G). assert (S2 := wz_size e' G'). split; [|split; [exact A|split; [exact A'|split; lia]]].
  intro sym. rewrite C, C', (re_sum _ _ _ (rz_additive name sym e) (proj2 R)). apply Zof_ext. intros q I. unfold rz. change (to_classic name (e', q)) with (to_classic name (e, q)).
  destruct (to_classic name (e, q)) eqn:T; [|reflexivity]. destruct (K q I T) as (_ & -> & ->). reflexivity.
Qed.
Lemma postings_re name es es' : Forall2 rewritten es es' -> Forall good es -> Forall good es' -> forall xs, worths (filter (to_classic name) (postings es)) xs ->
  exists ys, worths (filter (to_classic name) (postings es')) ys /\ (forall sym, value_in sym ys = value_in sym xs)
  /\ (forall a, In a xs -> isint (mag a)) /\ (forall a, In a ys -> isint (mag a)) /\ mz xs <= 2 * total es /\ mz ys <= 2 * total es'.
Proof.
  induction 1 as [|e e' es es' R F IH]; intros G G' xs W.
  - inversion W; subst. exists []. split; [constructor|]. split; [reflexivity|]. split; [intros a []|]. split; [intros a []|]. split; reflexivity.
  - inversion G as [|? ? Ge Gs]; subst. inversion G' as [|? ? Ge' Gs']; subst. unfold postings in *. cbn [flat_map] in *. rewrite filter_app in *.
    apply Forall2_app_inv_l in W as (x1 & x2 & W1 & W2 & ->). destruct (entry_re name e e' x1 R Ge Ge' W1) as (y1 & V1 & E1 & A1 & C1 & D1 & F1).
    destruct (IH Gs Gs' x2 W2) as (y2 & V2 & E2 & A2 & C2 & D2 & F2). exists (y1 ++ y2). split; [apply Forall2_app; assumption|].
    split; [intro sym; rewrite !value_in_app, E1, E2; reflexivity|]. split; [intros a I; apply in_app_iff in I as [I|I]; auto|]. split; [intros a I; apply in_app_iff in I as [I|I]; auto|].
    rewrite !mz_app, !total_cons. lia.
Qed.
Lemma pool_value xs sym : (forall a, In a xs -> isint (mag a)) -> mz xs <= 2 ^ 53 -> f64_is (mag (pool_only (fold_left pool_add xs []) sym)) (IZR (value_in sym xs)).
Proof.
  intros A B. rewrite <- sum_up_fold. unfold sum_up. rewrite pool_only_mag, contributions_filter. fold (of_sym sym). unfold value_in. rewrite <- (map_map mag zval). apply left_sum_int.
  - change (fun a => if sym_dec (symbol a) sym then true else false) with (of_sym sym).
    assert (forall a, In a (filter (of_sym sym) xs) -> isint (mag a)) as K by (intros a I; apply filter_In in I; apply A, I). revert K. generalize (filter (of_sym sym) xs) as l.
    intro l. induction l as [|a l IH]; intro K; constructor; [apply K; left; reflexivity|apply IH; intros c I; apply K; right; exact I].
  - apply partial_bound. rewrite !map_map. change (Z.abs 0) with 0. assert (Zsum (map (fun a => Z.abs (zval (mag a))) (filter (of_sym sym) xs)) <= mz xs) as K; [|lia].
    clear. induction xs as [|a xs IH]; [reflexivity|]. cbn [filter]. unfold mz, Zsum in *. cbn [map fold_right]. destruct (of_sym sym a); cbn [map fold_right]; lia.
Qed.
Lemma account_re today es es' a b : starting a -> Forall2 rewritten es es' -> Forall good es -> Forall good es' -> total es <= 2 ^ 52 -> total es' <= 2 ^ 52 ->
  fold_res (acc_process today) es a = Ok b -> exists b', fold_res (acc_process today) es' a = Ok b' /\ same_holdings b b'.
Proof.
  intros [St Re] R G G' B B' H. apply acc_fold_iff in H as (N & Ex & Go & Rl). rewrite Re in Rl.
  assert (forall vs ws, (forall v, In v vs -> In v (all_envelopes a)) -> Forall2 (fun v w => fold_res (env_process today) es v = Ok w) vs ws ->
    Forall2 (fun v w => fold_res (env_process today) es' v = Ok w) vs ws) as K.
  { intros vs ws I F. induction F as [|v w vs ws E F IH]; constructor; [|apply IH; intros u J; apply I; right; exact J].
    destruct (St v (I v (or_introl eq_refl))) as [C Em]. exact (envelope_re today v es es' w C Em R G G' B E). }
  apply real_fold_iff in Rl as (xs & W & Er). destruct (postings_re _ es es' R G G' xs W) as (ys & W' & V & A & A' & D & D').
  exists (mkAccount (a_name a) (a_expenses b) (a_goals b) (fold_left pool_add ys [])). split.
  - apply acc_fold_iff. cbn [a_name a_expenses a_goals a_real]. split; [reflexivity|].
    split; [exact (K _ _ (fun v i => in_or_app _ _ _ (or_introl i)) Ex)|]. split; [exact (K _ _ (fun v i => in_or_app _ _ _ (or_intror i)) Go)|].
    rewrite Re. apply real_fold_iff. eauto.
  - split; [symmetry; exact N|]. split; [reflexivity|]. split; [reflexivity|]. intro sym. exists (value_in sym xs). cbn [a_real]. rewrite Er.
    split; [apply pool_value; [exact A|lia]|]. rewrite <- V. apply pool_value; [exact A'|lia].
Qed.

(** ** From the numbers to their sizes *)
Lemma ints_of ps : forall zs, Forall2 (fun x z => f64_is x (IZR z)) (flat_map (fun p => (match get_amount p with Some a => [mag a] | None => [] end)
                     ++ (match native_value p with Some m => [m] | None => [] end)) ps) zs -> ints ps /\ size ps = Zsum (map Z.abs zs).
Proof.
  induction ps as [|p ps IH]; intros zs F; [inversion F; subst; split; [intros p []|reflexivity]|]. cbn [flat_map] in F.
  apply Forall2_app_inv_l in F as (z1 & z2 & F1 & F2 & ->). apply Forall2_app_inv_l in F1 as (za & zn & Fa & Fn & ->). destruct (IH z2 F2) as [A B].
  assert ((forall a, get_amount p = Some a -> isint (mag a)) /\ Z.abs (az p) = Zsum (map Z.abs za)) as [A1 B1].
  { unfold az. destruct (get_amount p) as [a|]; [|inversion Fa; subst; split; [discriminate|reflexivity]]. inversion Fa as [|? z ? r Fz Fr]; subst. inversion Fr; subst.
    split; [intros c E; injection E as <-; exact (is_isint _ _ Fz)|]. rewrite (zval_is _ _ Fz). unfold Zsum. cbn. lia. }
  assert ((forall m, native_value p = Some m -> isint m) /\ Z.abs (nz p) = Zsum (map Z.abs zn)) as [A2 B2].
  { unfold nz. destruct (native_value p) as [a|]; [|inversion Fn; subst; split; [discriminate|reflexivity]]. inversion Fn as [|? z ? r Fz Fr]; subst. inversion Fr; subst.
    split; [intros c E; injection E as <-; exact (is_isint _ _ Fz)|]. rewrite (zval_is _ _ Fz). unfold Zsum. cbn. lia. }
  split; [intros q [<-|I]; [auto|exact (A q I)]|]. unfold size. rewrite Zof_cons. fold (size ps). rewrite B, B1, B2, !map_app.
  assert (forall l m, Zsum (l ++ m) = Zsum l + Zsum m) as S by (intros l m; induction l as [|z l IHl]; [reflexivity|]; unfold Zsum in *; cbn [app fold_right]; lia). rewrite !S. lia.
Qed.
Lemma modest_good es : modest es -> Forall good es /\ total es <= 2 ^ 52.
Proof.
  intros [L (zs & F & B)].
  assert ((forall e, In e es -> ints (e_postings e)) /\ total es = Zsum (map Z.abs zs)) as [A C].
  { clear L B. revert zs F. induction es as [|e es IH]; intros zs F; [inversion F; subst; split; [intros e []|reflexivity]|].
    cbn [flat_map] in F. apply Forall2_app_inv_l in F as (z1 & z2 & F1 & F2 & ->). destruct (IH z2 F2) as [A C]. destruct (ints_of _ z1 F1) as [A1 C1].
    split; [intros c [<-|I]; auto|]. rewrite total_cons, C, C1, map_app.
    assert (forall l m, Zsum (l ++ m) = Zsum l + Zsum m) as S by (intros l m; induction l as [|z l IHl]; [reflexivity|]; unfold Zsum in *; cbn [app fold_right]; lia). rewrite S. reflexivity. }
  assert (forall e, In e es -> size (e_postings e) <= total es) as D.
  { clear. induction es as [|c es IH]; intros e I; [destruct I|]. rewrite total_cons. assert (H := size_nonneg (e_postings c)). assert (K := total_nonneg es).
    destruct I as [<-|I]; [lia|]. specialize (IH e I). lia. }
  split; [|lia]. rewrite Forall_forall in *. intros e I. split; [exact (A e I)|]. split; [specialize (D e I); lia|exact (L e I)].
Qed.

(** ** The theorems *)

(** Whether an entry is accepted. *)
Lemma regrouped_blanks ps qs : regrouped ps qs -> blanks ps = blanks qs.
Proof.
  assert (forall ps, Z.of_nat (blanks ps) = Zof (fun p => match get_amount p with None => 1 | Some _ => 0 end) ps) as K.
  { clear. intro ps. induction ps as [|p ps IH]; [reflexivity|]. unfold blanks in *. cbn [filter]. rewrite Zof_cons. destruct (get_amount p); [exact IH|]. cbn [List.length]. lia. }
  intro R. apply Nat2Z.inj. rewrite !K. apply re_sum; [|exact R]. intros name sym m k s x y _ _ _. reflexivity.
Qed.
Lemma in_named ps s : In s (named ps) <-> exists p, In p ps /\ has_sym (Some s) p.
Proof.
  unfold named. rewrite in_flat_map. split.
  - intros (a & I & H). apply in_written in I as (p & Ip & G). exists p. split; [exact Ip|]. exists a. split; [exact G|]. destruct (symbol a); [destruct H as [<-|[]]; reflexivity|destruct H].
  - intros (p & I & a & G & E). exists a. rewrite in_written, E. split; [eauto|left; reflexivity].
Qed.
(** An entry is accepted as one of its rewritings is. *)
Theorem C129_valid : forall chunk chunk' e e', rewritten e e' -> (validate_entry chunk e = Ok tt <-> validate_entry chunk' e' = Ok tt).
Proof.
  assert (forall ps qs, regrouped ps qs -> acceptable ps -> acceptable qs) as K.
  { intros ps qs R [A B]. split; rewrite <- (regrouped_blanks _ _ R); [exact A|]. intros E s t S T. apply in_named in S. apply in_named in T.
    apply (B E); apply in_named; eapply re_ex; eauto using has_sym_by, re_sym. }
  intros chunk chunk' e e' [_ R]. rewrite !validate_entry_iff. split; apply K; [exact R|apply re_sym, R].
Qed.
Print Assumptions C129_valid.

(** The amount left out is the same. *)
Theorem C129_blank : forall e e' o, rewritten e e' -> modest [e] -> modest [e'] -> get_blank_amount e = Ok o ->
  exists o', get_blank_amount e' = Ok o'
  /\ match o, o' with
     | None, None => True
     | Some b, Some b' => symbol b' = symbol b /\ exists n, f64_is (mag b) (IZR n) /\ f64_is (mag b') (IZR n)
     | _, _ => False
     end.
Proof.
  intros e e' o R M M' H. apply modest_good in M as [G _]. apply modest_good in M' as [G' _]. inversion G as [|? ? Ge _]; subst. inversion G' as [|? ? Ge' _]; subst.
  destruct (blank_same e e' o R (proj1 Ge) (good53 e Ge) (proj1 Ge') (good53 e' Ge') H) as (o' & E & Sb). exists o'. split; [exact E|].
  destruct o, o'; try exact Sb. destruct Sb as [Y (n & V & V')]. split; [exact Y|]. exists n. rewrite !f64_is_int. auto.
Qed.
Print Assumptions C129_blank.

(** All entries rewritten: they can be added, every envelope is the same in all
    its parts, and every account holds the same of each currency. *)
Theorem C129_partial : forall today l es es' l1, built today l [] -> Forall2 rewritten es es' -> modest es -> modest es' ->
  fold_res (add_entry today) es l = Ok l1 ->
  exists l2, fold_res (add_entry today) es' l = Ok l2
  /\ Forall2 (fun x y => fst y = fst x /\ same_holdings (snd x) (snd y)) (l_accounts l1) (l_accounts l2).
Proof.
  intros today l es es' l1 B R M M' H. apply adding_iff in H. assert (St := built_starting _ _ _ B eq_refl).
  apply modest_good in M as [G T]. apply modest_good in M' as [G' T'].
  assert (exists m, Forall2 (fun x y => fst y = fst x /\ fold_res (acc_process today) es' (snd x) = Ok (snd y)) (l_accounts l) m
    /\ Forall2 (fun x y => fst y = fst x /\ same_holdings (snd x) (snd y)) (l_accounts l1) m) as (m & X & Y).
  { revert St. induction H as [|x y xs ys (A & C) _ IH]; intro St; [exists []; split; constructor|].
    destruct IH as (m & X & Y); [intros; apply (St k a); right; assumption|].
    destruct x as [k a]. cbn [fst snd] in *. destruct (account_re today es es' a (snd y) (St k a (or_introl eq_refl)) R G G' T T' C) as (b & Hb & Sb).
    exists ((fst y, b) :: m). split; constructor; auto. }
  destruct (adding_works today es' l m X) as (l2 & H2 & <-). exists l2. split; [exact H2|exact Y].
Qed.
Print Assumptions C129_partial.

(** ** Cases *)
Definition said (ps : list string) : list string :=
  ["account assets:cash"; "  expense food due every 25th"; "    for costs:food"; "    amount $100"; "    funding manual"; "account costs:food"; "account income:job"]%string
  ++ ["2024/03/19 * shop"]%string ++ ps.
Definition shop (ps : list posting) : entry := mkEntry (mkDate 2024 3 19 eq_refl) Reconciled (lit "shop") None None ps.
Definition usd : option str := Some (lit "$").
Definition left_out : posting := Classic (mkClassic None (lit "assets:cash") None None).
Definition in_three : entry := shop [plain (lit "costs:food") (fofZ 3) usd; plain (lit "costs:food") (fofZ 4) usd; left_out].
Definition in_two : entry := shop [left_out; plain (lit "costs:food") (fofZ 7) usd].
Definition views (ls : list string) : list str :=
  flat_map (fun f => lines (o_out (main (ctx [] (fun _ => [])) (map lit [f; "-f"; "/j"; "--no-move"]%string) (world_of [(j, text ls)] [[]] [])))) ["b"; "e"; "r"]%string.
Example C129_case : rewritten in_three in_two /\ modest [in_three] /\ modest [in_two]
  /\ l_entries (loaded (said ["  costs:food  $3"; "  costs:food  $4"; "  assets:cash"]%string)) = [in_three]
  /\ l_entries (loaded (said ["  assets:cash"; "  costs:food  $7"]%string)) = [in_two]
  /\ views (said ["  costs:food  $3"; "  costs:food  $4"; "  assets:cash"]%string) = views (said ["  assets:cash"; "  costs:food  $7"]%string)
  /\ views (said ["  assets:cash"; "  costs:food  $7"]%string)
     = map lit ["assets:cash                             0"; "costs:food                             $ 7";
                "assets:cash"; "  available"; "  expenses"; "    food";
                "      now                                     $ 0 / $ 100 |                                        |";
                "      next (on 2024-03-25)                    $-7 / $ 100 |                                        |"; "";
                "2024/03/19 * shop  assets:cash -> costs:food  $-7  $-7"]%string.
Proof.
  assert (forall n, Z.abs n <= 2 ^ 53 -> f64_is (fofZ n) (IZR n)) as F by (intros n H; apply f64_is_int, fofZ_int, H).
  split.
  { split; [reflexivity|]. apply (regrouped_join _ _ (lit "costs:food") usd (fofZ 3) (fofZ 4) (fofZ 7) 3 4 [left_out]); [apply F; lia..| |].
    - apply Permutation_refl.
    - apply perm_swap. }
  split; [split; [constructor; [cbn; lia|constructor]|]; exists [3; 4]; split; [repeat constructor; apply F; lia|cbn; lia]|].
  split; [split; [constructor; [cbn; lia|constructor]|]; exists [7]; split; [repeat constructor; apply F; lia|cbn; lia]|].
  split; [vm_compute; reflexivity|]. split; [vm_compute; reflexivity|]. split; vm_compute; reflexivity.
Qed.
(** The balance report is not the same when two lines of one entry change
    places: a blank posting counts only if its account is known by then. *)
Theorem C129_refuted : exists p q ps,
  let one := said (p :: q :: ps) in let other := said (q :: p :: ps) in
  (exists e e', l_entries (loaded one) = [e] /\ l_entries (loaded other) = [e'] /\ rewritten e e')
  /\ firstn 3 (views one) = map lit ["assets:cash                            "; String "009"%char " 0"; String "009"%char "$ 2"]%string
  /\ firstn 1 (views other) = map lit ["assets:cash                            $-7"]%string
  /\ skipn 4 (views one) = skipn 2 (views other).
Proof.
  exists "  assets:cash"%string, "  assets:cash  $2"%string, ["  costs:food  $7"%string]. cbv zeta. split.
  - do 2 eexists. split; [vm_compute; reflexivity|]. split; [vm_compute; reflexivity|]. split; [reflexivity|]. apply regrouped_order. apply perm_swap.
  - split; [vm_compute; reflexivity|]. split; vm_compute; reflexivity.
Qed.
Print Assumptions C129_refuted.
