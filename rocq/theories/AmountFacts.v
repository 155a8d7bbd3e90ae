(** Facts about amounts and pools (C01-C09). *)
From Coq Require Import ZArith NArith List Bool String Reals Lia Lra.
From Coq Require Import Floats.SpecFloat.
From Flocq Require Import Core IEEE754.BinarySingleNaN.
From Verif Require Import Base Str StrFacts F64 F64Facts F64Text F64Round Amount SpecAmount.
Import ListNotations.
Local Open Scope Z_scope.

(** ** Pools *)

Lemma SFopp_valid s : valid_binary prec emax s = true -> valid_binary prec emax (SFopp s) = true.
Proof. destruct s; exact (fun H => H). Qed.

Lemma fsub_fadd x y : fsub x y = fadd x (fneg y).
Proof.
  unfold fsub, fadd, fneg. rewrite fmk_sf by (apply SFopp_valid, sf_ok). f_equal.
  destruct (sf x) as [s|s| |s m e], (sf y) as [s'|s'| |s' m' e']; cbn [SFopp SFadd SFsub];
    try reflexivity.
  f_equal. unfold Z.sub. f_equal. destruct s'; reflexivity.
Qed.

(** Both operations update by adding a signed magnitude. *)
Definition signed (o : pool_op) : amount :=
  match o with PAdd a => a | PSub a => amount_neg a end.
Lemma pool_update_ext sym f g new p :
  (forall x, f x = g x) -> pool_update sym f new p = pool_update sym g new p.
Proof.
  intro H. induction p as [|a p IH]; [reflexivity|]. cbn [pool_update].
  rewrite H, IH. reflexivity.
Qed.
Lemma run_op_signed p o : run_op p o = pool_add p (signed o).
Proof.
  destruct o as [a|a]; [reflexivity|]. unfold run_op, pool_sub, pool_add, signed.
  cbn [amount_neg symbol mag]. apply pool_update_ext. intro x. apply fsub_fadd.
Qed.
Lemma contribution_signed sym o :
  contribution sym o = if sym_dec (symbol (signed o)) sym then [mag (signed o)] else [].
Proof. destruct o; reflexivity. Qed.
Lemma op_symbol_signed o : op_symbol o = symbol (signed o).
Proof. destruct o; reflexivity. Qed.

(** The first amount of a symbol. *)
Definition pool_find (sym : option str) (p : pool) : option amount :=
  List.find (fun a => ostr_eqb (symbol a) sym) p.

Lemma pool_find_add sym p a :
  pool_find sym (pool_add p a) =
  if sym_dec (symbol a) sym then
    Some (match pool_find sym p with
          | Some b => mkAmount (fadd (mag b) (mag a)) sym
          | None => a
          end)
  else pool_find sym p.
Proof.
  unfold pool_add, pool_find. induction p as [|b p IH]; cbn [pool_update List.find].
  - destruct (ostr_eqb_spec (symbol a) sym) as [E|E]; destruct (sym_dec (symbol a) sym); congruence.
  - destruct (ostr_eqb_spec (symbol b) (symbol a)) as [E|E]; cbn [List.find symbol].
    + destruct (ostr_eqb_spec (symbol b) sym) as [E'|E'];
        destruct (sym_dec (symbol a) sym) as [D|D]; try congruence.
    + destruct (ostr_eqb_spec (symbol b) sym) as [E'|E'].
      * destruct (sym_dec (symbol a) sym) as [D|D]; congruence.
      * exact IH.
Qed.

Lemma pool_find_symbol sym p a : pool_find sym p = Some a -> symbol a = sym.
Proof. intro H. apply find_some in H. destruct H as [_ H]. apply ostr_eqb_eq, H. Qed.

Lemma left_sum_snoc l x : l <> [] -> left_sum (l ++ [x]) = fadd (left_sum l) x.
Proof.
  destruct l as [|y l]; [easy|]. intros _. cbn [app left_sum]. rewrite fold_left_app. reflexivity.
Qed.

Lemma run_ops_snoc ops o : run_ops (ops ++ [o]) = run_op (run_ops ops) o.
Proof. unfold run_ops. rewrite fold_left_app. reflexivity. Qed.
Lemma contributions_snoc sym ops o :
  contributions sym (ops ++ [o]) = contributions sym ops ++ contribution sym o.
Proof. unfold contributions. rewrite flat_map_app. cbn [flat_map]. rewrite app_nil_r. reflexivity. Qed.

Lemma run_ops_find sym ops :
  pool_find sym (run_ops ops) =
  match contributions sym ops with
  | [] => None
  | l => Some (mkAmount (left_sum l) sym)
  end.
Proof.
  induction ops as [|o ops IH] using rev_ind; [reflexivity|].
  rewrite run_ops_snoc, contributions_snoc, run_op_signed, pool_find_add, IH, contribution_signed.
  destruct (sym_dec (symbol (signed o)) sym) as [<-|D].
  - destruct (contributions (symbol (signed o)) ops) as [|y l] eqn:C.
    + cbn [app left_sum fold_left]. destruct (signed o); reflexivity.
    + cbn [mag]. rewrite <- left_sum_snoc by discriminate. reflexivity.
  - rewrite app_nil_r. reflexivity.
Qed.

Lemma pool_only_find p sym :
  pool_only p sym = match pool_find sym p with Some a => a | None => amount_zero end.
Proof. reflexivity. Qed.

Lemma pool_sum ops sym :
  pool_only (run_ops ops) sym =
  match contributions sym ops with
  | [] => mkAmount fzero None
  | l => mkAmount (left_sum l) sym
  end.
Proof.
  rewrite pool_only_find, run_ops_find. destruct (contributions sym ops); reflexivity.
Qed.

(** ** C02 *)
Lemma pool_add_symbols p a :
  map symbol (pool_add p a) =
  if in_dec sym_dec (symbol a) (map symbol p) then map symbol p
  else map symbol p ++ [symbol a].
Proof.
  unfold pool_add. induction p as [|b p IH]; [reflexivity|].
  cbn [pool_update map]. destruct (ostr_eqb_spec (symbol b) (symbol a)) as [E|E].
  - cbn [map symbol]. destruct (in_dec sym_dec (symbol a) (symbol b :: map symbol p)) as [D|D]; [reflexivity|].
    exfalso. apply D. left. exact E.
  - cbn [map]. rewrite IH. destruct (in_dec sym_dec (symbol a) (map symbol p)) as [D|D];
      destruct (in_dec sym_dec (symbol a) (symbol b :: map symbol p)) as [D'|D']; try reflexivity.
    + exfalso. apply D'. right. exact D.
    + exfalso. destruct D' as [D'|D']; auto.
Qed.

Lemma first_uses_In l x : In x (first_uses l) <-> In x l.
Proof.
  induction l as [|y l IH]; [reflexivity|]. cbn [first_uses In]. rewrite <- IH.
  split; (intros [H|H]; [left; exact H|]).
  - apply in_remove in H. right. apply H.
  - destruct (sym_dec y x) as [E|E]; [left; exact E|]. right. apply in_in_remove; auto.
Qed.
Lemma first_uses_snoc l x :
  first_uses (l ++ [x]) = if in_dec sym_dec x l then first_uses l else first_uses l ++ [x].
Proof.
  induction l as [|y l IH]; [reflexivity|]. cbn [app first_uses]. rewrite IH.
  destruct (in_dec sym_dec x l) as [D|D]; destruct (in_dec sym_dec x (y :: l)) as [D'|D'];
    try reflexivity.
  - exfalso. apply D'. right. exact D.
  - destruct D' as [->|D']; [|contradiction]. rewrite remove_app. cbn [remove].
    destruct (sym_dec x x); [|contradiction]. rewrite app_nil_r. reflexivity.
  - rewrite remove_app. cbn [remove]. destruct (sym_dec y x) as [->|]; [|reflexivity].
    exfalso. apply D'. left. reflexivity.
Qed.
Lemma run_ops_symbols ops : map symbol (run_ops ops) = first_uses (map op_symbol ops).
Proof.
  induction ops as [|o ops IH] using rev_ind; [reflexivity|].
  rewrite run_ops_snoc, run_op_signed, pool_add_symbols, map_app, IH. cbn [map].
  rewrite first_uses_snoc, op_symbol_signed.
  destruct (in_dec sym_dec _ (first_uses _)) as [D|D]; destruct (in_dec sym_dec _ (map _ _)) as [D'|D'];
    try reflexivity.
  - exfalso. apply D'. apply first_uses_In. exact D.
  - exfalso. apply D. apply first_uses_In. exact D'.
Qed.
Lemma remove_NoDup x l : NoDup l -> NoDup (remove sym_dec x l).
Proof.
  induction l as [|y l IH]; intro H; [constructor|].
  inversion H as [|? ? N D]; subst. cbn [remove]. destruct (sym_dec x y); [apply IH, D|].
  constructor; [|apply IH, D]. intro I. apply in_remove in I. apply N, I.
Qed.
Lemma first_uses_NoDup l : NoDup (first_uses l).
Proof.
  induction l as [|y l IH]; [constructor|]. cbn [first_uses]. constructor.
  - apply remove_In.
  - apply remove_NoDup, IH.
Qed.

(** ** C03 *)
Lemma amount_add_spec a b :
  (symbol a = symbol b -> amount_add a b = Ok (mkAmount (fadd (mag a) (mag b)) (symbol a)))
  /\ (symbol a <> symbol b -> amount_add a b = Panic).
Proof. unfold amount_add. destruct (ostr_eqb_spec (symbol a) (symbol b)); split; easy. Qed.
Lemma amount_sub_spec a b :
  (symbol a = symbol b -> amount_sub a b = Ok (mkAmount (fsub (mag a) (mag b)) (symbol a)))
  /\ (symbol a <> symbol b -> amount_sub a b = Panic).
Proof.
  unfold amount_sub. destruct (amount_add_spec a (amount_neg b)) as [H1 H2].
  cbn [amount_neg symbol mag] in *. split; [|exact H2]. intro E. rewrite (H1 E), fsub_fadd. reflexivity.
Qed.
Lemma amount_sub_assign_spec a b :
  (symbol a = symbol b -> amount_sub_assign a b = Ok (mkAmount (fsub (mag a) (mag b)) (symbol a)))
  /\ (symbol a <> symbol b -> amount_sub_assign a b = Panic).
Proof. unfold amount_sub_assign. destruct (ostr_eqb_spec (symbol a) (symbol b)); split; easy. Qed.
Lemma fcompare_swap x y : fcompare y x = option_map CompOpp (fcompare x y).
Proof.
  unfold fcompare. destruct (sf x) as [[]|[]| |[] m e], (sf y) as [[]|[]| |[] m' e'];
    try reflexivity; cbn [SFcompare option_map].
  all: rewrite (Z.compare_antisym e e'); destruct (e ?= e'); try reflexivity; cbn [CompOpp].
  all: change (Pos.compare_cont Eq) with Pos.compare; rewrite (Pos.compare_antisym m m');
    destruct (m ?= m')%positive; reflexivity.
Qed.
Lemma amount_cmp_spec a b :
  (symbol a = symbol b ->
     amount_cmp a b = Ok (if fltb (mag a) (mag b) then Lt
                          else if fltb (mag b) (mag a) then Gt else Eq))
  /\ (symbol a <> symbol b -> amount_cmp a b = Panic).
Proof.
  unfold amount_cmp. destruct (ostr_eqb_spec (symbol a) (symbol b)); split; try easy. intros _.
  f_equal.
  assert (forall x y, fltb x y = match fcompare x y with Some Lt => true | _ => false end) as L
    by reflexivity.
  rewrite !L.
  rewrite (fcompare_swap (mag a) (mag b)). destruct (fcompare (mag a) (mag b)) as [[]|]; reflexivity.
Qed.

(** ** C04 *)
Lemma f64_is_int x n : f64_is x (IZR n) <-> is_int x n.
Proof. unfold f64_is, is_int. rewrite ffin_SF, fR_SF. reflexivity. Qed.

Lemma fold_fadd_int l : forall zs x a,
  Forall2 (fun y z => f64_is y (IZR z)) l zs ->
  is_int x a ->
  Forall (fun s => Z.abs s <= 2 ^ 53) (partial_sums a zs) ->
  is_int (fold_left fadd l x) (a + Zsum zs).
Proof.
  induction l as [|y l IH]; intros zs x a H Hx P; inversion H as [|y' z l' zs' Hy Hl]; subst.
  - cbn [Zsum fold_right fold_left]. rewrite Z.add_0_r. exact Hx.
  - cbn [Zsum fold_right fold_left partial_sums] in *. inversion P as [|s ss P1 P2]; subst.
    replace (a + (z + fold_right Z.add 0 zs')) with ((a + z) + Zsum zs') by (unfold Zsum; lia).
    apply IH; try assumption. apply fadd_int; try assumption. apply f64_is_int, Hy.
Qed.
Lemma left_sum_int l zs :
  Forall2 (fun y z => f64_is y (IZR z)) l zs ->
  Forall (fun s => Z.abs s <= 2 ^ 53) (partial_sums 0 zs) ->
  f64_is (left_sum l) (IZR (Zsum zs)).
Proof.
  intros H P. apply f64_is_int. inversion H as [|y z l' zs' Hy Hl]; subst.
  - apply fzero_int.
  - cbn [left_sum]. change (Zsum (z :: zs')) with (z + Zsum zs').
    cbn [partial_sums] in P. inversion P; subst. apply fold_fadd_int; try assumption.
    apply f64_is_int, Hy.
Qed.
Lemma pool_only_mag ops sym : mag (pool_only (run_ops ops) sym) = left_sum (contributions sym ops).
Proof. rewrite pool_sum. destruct (contributions sym ops); reflexivity. Qed.

(** ** C09 *)
Lemma mark_semi s : (exists r, s = 59%N :: r) <-> nth_error s 0 = Some 59%N.
Proof.
  destruct s as [|c s]; cbn; split; try easy.
  - intros [r H]. discriminate.
  - intros [r H]. congruence.
  - intro H. injection H as ->. eauto.
Qed.
Lemma nth_error_skipn0 {A} (s : list A) i : nth_error (skipn i s) 0 = nth_error s i.
Proof. revert s. induction i; intros [|c s]; try reflexivity. apply IHi. Qed.
Lemma mark_slash s : (exists r, s = 47%N :: 47%N :: r) <-> starts_with (lit "//") s = true.
Proof. rewrite starts_with_iff. reflexivity. Qed.
Lemma mark_at_iff s i :
  mark_at (skipn i s) <-> nth_error s i = Some 59%N \/ starts_with (lit "//") (skipn i s) = true.
Proof.
  unfold mark_at. rewrite mark_slash, mark_semi, nth_error_skipn0. reflexivity.
Qed.

Lemma remove_comments_spec s :
  exists rest, s = remove_comments s ++ rest
    /\ (forall i, (i < List.length (remove_comments s))%nat -> ~ mark_at (skipn i s))
    /\ (rest = [] \/ mark_at rest).
Proof.
  unfold remove_comments. cbv zeta. change (chr ";") with 59%N.
  destruct (find_sub (lit "//") s) as [j|] eqn:J.
  - apply find_sub_Some in J. destruct J as (L & S & M).
    destruct (find_char 59%N s) as [i|] eqn:I.
    + apply find_char_Some in I. destruct I as [N K].
      assert (i < List.length s)%nat by (apply nth_error_Some; congruence).
      destruct (Nat.ltb_spec i j) as [T|T].
      * exists (skipn i s). rewrite firstn_skipn, firstn_length_le by lia. repeat split.
        -- intros k Hk H'. apply mark_at_iff in H'. destruct H' as [H'|H'].
           ++ apply (K k); assumption.
           ++ rewrite M in H' by lia. discriminate.
        -- right. apply mark_at_iff. left. exact N.
      * exists (skipn j s). rewrite firstn_skipn, firstn_length_le by lia. repeat split.
        -- intros k Hk H'. apply mark_at_iff in H'. destruct H' as [H'|H'].
           ++ apply (K k); [lia|assumption].
           ++ rewrite M in H' by lia. discriminate.
        -- right. apply mark_at_iff. right. exact S.
    + apply find_char_None in I. exists (skipn j s). rewrite firstn_skipn, firstn_length_le by lia.
      repeat split.
      * intros k Hk H'. apply mark_at_iff in H'. destruct H' as [H'|H'].
        -- apply I. eapply nth_error_In, H'.
        -- rewrite M in H' by lia. discriminate.
      * right. apply mark_at_iff. right. exact S.
  - assert (forall i, starts_with (lit "//") (skipn i s) = false) as M.
    { intro i. destruct (Nat.le_gt_cases i (List.length s)) as [H|H].
      - apply (proj1 (find_sub_None _ _) J i H).
      - rewrite skipn_all2 by lia. reflexivity. }
    destruct (find_char 59%N s) as [i|] eqn:I.
    + apply find_char_Some in I. destruct I as [N K].
      assert (i < List.length s)%nat by (apply nth_error_Some; congruence).
      exists (skipn i s). rewrite firstn_skipn, firstn_length_le by lia. repeat split.
      * intros k Hk H'. apply mark_at_iff in H'. destruct H' as [H'|H'].
        -- apply (K k); assumption.
        -- rewrite M in H'. discriminate.
      * right. apply mark_at_iff. left. exact N.
    + apply find_char_None in I. exists []. rewrite app_nil_r. repeat split; auto.
      intros k Hk H'. apply mark_at_iff in H'. destruct H' as [H'|H'].
      * apply I. eapply nth_error_In, H'.
      * rewrite M in H'. discriminate.
Qed.

(** The specification determines the result. *)
Lemma comment_cut_unique s r1 r2 t1 t2 :
  s = r1 ++ t1 -> (forall i, (i < List.length r1)%nat -> ~ mark_at (skipn i s)) -> (t1 = [] \/ mark_at t1) ->
  s = r2 ++ t2 -> (forall i, (i < List.length r2)%nat -> ~ mark_at (skipn i s)) -> (t2 = [] \/ mark_at t2) ->
  r1 = r2.
Proof.
  intros E1 H1 K1 E2 H2 K2.
  assert (List.length r1 = List.length r2) as L.
  { assert (forall a b u v, s = a ++ u -> s = b ++ v ->
              (forall i, (i < List.length b)%nat -> ~ mark_at (skipn i s)) -> (u = [] \/ mark_at u) ->
              (List.length b <= List.length a)%nat) as W.
    { intros a b u v Ea Eb Hb Ku. destruct (Nat.le_gt_cases (List.length b) (List.length a)); [assumption|].
      exfalso. destruct Ku as [->|Ku].
      - apply (f_equal (@List.length _)) in Ea, Eb. rewrite app_length in Ea, Eb. cbn in Ea. lia.
      - apply (Hb (List.length a)); [lia|]. rewrite Ea, skipn_app, skipn_all, Nat.sub_diag. exact Ku. }
    apply Nat.le_antisymm; eapply W; eassumption. }
  rewrite E1 in E2.
  apply (f_equal (firstn (List.length r1))) in E2.
  rewrite firstn_app, firstn_all, Nat.sub_diag in E2. rewrite L, firstn_app, firstn_all, Nat.sub_diag in E2.
  cbn [firstn] in E2. rewrite !app_nil_r in E2. exact E2.
Qed.

Lemma remove_comments_iff s r :
  remove_comments s = r <->
  exists rest, s = r ++ rest
    /\ (forall i, (i < List.length r)%nat -> ~ mark_at (skipn i s))
    /\ (rest = [] \/ mark_at rest).
Proof.
  split.
  - intros <-. apply remove_comments_spec.
  - intros (t & E & M & K). destruct (remove_comments_spec s) as (t' & E' & M' & K').
    eapply comment_cut_unique; eassumption.
Qed.
