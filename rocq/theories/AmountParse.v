(** Reading and printing amounts (C05-C08). *)
From Coq Require Import ZArith NArith List Bool String Reals Lia Lra.
From Coq Require Import Floats.SpecFloat.
From Flocq Require Import Core IEEE754.BinarySingleNaN.
From Verif Require Import Base Str StrFacts F64 F64Facts F64Text F64Round Amount SpecAmount AmountFacts.
Import ListNotations.
Local Open Scope Z_scope.

Lemma f64_is_fR x v : f64_is x v <-> ffin x = true /\ fR x = v.
Proof. unfold f64_is. rewrite ffin_SF, fR_SF. reflexivity. Qed.

Lemma nearest_iff x neg v : nearest_f64 x neg v <-> fin_or_inf x neg v.
Proof.
  unfold nearest_f64, fin_or_inf.
  change (round radix2 (FLT_exp (-1074) 53) ZnearestE v) with (rnd v). cbv zeta.
  rewrite f64_is_fR, <- fsign_SF. case Rlt_bool_spec; intro H; split.
  - intros [A _]. specialize (A H). tauto.
  - intros (A & C & D). split; [tauto|]. intro H'. lra.
  - intros [_ A]. apply A, H.
  - intro A. split; [intro H'; lra|auto].
Qed.

Lemma number_of_digits s : number_of s = digits_val s.
Proof.
  induction s as [|c s IH]; [reflexivity|]. cbn [number_of]. rewrite digits_val_cons, IH. reflexivity.
Qed.

Lemma digit_char_iff c : digit_char c <-> is_digit c = true.
Proof. symmetry. apply is_digit_range. Qed.
Lemma all_digits_Forall s : Forall digit_char s <-> all_digits s.
Proof.
  unfold all_digits. rewrite forallb_forall, Forall_forall.
  split; intros H c I; apply digit_char_iff, H, I.
Qed.
Lemma blank_Forall s : Forall blank_char s <-> all_ws s.
Proof. unfold all_ws. rewrite forallb_forall, Forall_forall. reflexivity. Qed.
Lemma token_iff s : token s <-> is_token s.
Proof.
  unfold token, is_token, blank_char. rewrite no_ws_In, Forall_forall.
  split; intros [N H]; split; auto; intros c I; specialize (H c I); destruct (is_ws c); congruence.
Qed.

(** ** Removing double dashes *)
Lemma replace_dashes s : replace (lit "--") [] s = without_double_dash s.
Proof.
  unfold replace. change (lit "--") with [45%N; 45%N].
  assert (forall n s, (List.length s <= n)%nat ->
            replace_aux [45%N; 45%N] [] 0 s = without_double_dash s) as H.
  { induction n as [|n IH]; intros t L.
    - destruct t; [reflexivity|cbn in L; lia].
    - destruct t as [|c t]; [reflexivity|]. cbn in L. cbn [replace_aux].
      unfold starts_with. cbn [strip_prefix].
      destruct (N.eqb_spec 45 c) as [<-|N].
      + destruct t as [|d t]; [reflexivity|]. destruct (N.eqb_spec 45 d) as [<-|N'].
        * cbn [List.length pred replace_aux app without_double_dash]. apply IH. cbn in L. lia.
        * rewrite IH by (cbn in *; lia).
          cbn [without_double_dash]. destruct d as [|p]; [reflexivity|].
          destruct p as [p|p|]; try reflexivity; destruct p as [p|p|]; try reflexivity;
          destruct p as [p|p|]; try reflexivity; destruct p as [p|p|]; try reflexivity;
          destruct p as [p|p|]; try reflexivity; destruct p as [p|p|]; try reflexivity.
          contradiction.
      + rewrite IH by lia. cbn [without_double_dash]. destruct c as [|p]; [reflexivity|].
        destruct p as [p|p|]; try reflexivity; destruct p as [p|p|]; try reflexivity;
        destruct p as [p|p|]; try reflexivity; destruct p as [p|p|]; try reflexivity;
        destruct p as [p|p|]; try reflexivity; destruct p as [p|p|]; try reflexivity.
        contradiction. }
  apply (H (List.length s)). lia.
Qed.

(** ** Tokens *)
Lemma one_token_iff s a : one_token s a <-> split_ws s = [a].
Proof.
  unfold one_token. split.
  - intros (T & w1 & w2 & A1 & A2 & ->). apply token_iff in T. apply blank_Forall in A1, A2.
    apply split_ws_cons. exists w1, w2. repeat split; try assumption; try apply T.
    + destruct w2; [exact I|]. apply all_ws_cons in A2. apply A2.
    + apply split_ws_all_ws, A2.
  - intro H. apply split_ws_cons in H. destruct H as (w & r & -> & A & T & R & E).
    apply split_ws_nil in E. split; [apply token_iff, T|].
    exists w, r. rewrite !blank_Forall. auto.
Qed.
Lemma two_tokens_iff s a b : two_tokens s a b <-> split_ws s = [a; b].
Proof.
  unfold two_tokens. split.
  - intros (Ta & Tb & w1 & w2 & w3 & A1 & A2 & A3 & N & ->).
    apply token_iff in Ta, Tb. apply blank_Forall in A1, A2, A3.
    apply split_ws_cons. exists w1, (w2 ++ b ++ w3). repeat split; try assumption; try apply Ta.
    + destruct w2; [contradiction|]. apply all_ws_cons in A2. apply A2.
    + rewrite split_ws_ws by exact A2. apply one_token_iff. split; [apply token_iff, Tb|].
      exists [], w3. rewrite !blank_Forall. repeat split; assumption.
  - intro H. apply split_ws_cons in H. destruct H as (w & r & -> & A & T & R & E).
    apply one_token_iff in E. destruct E as (Tb & w2 & w3 & A2 & A3 & ->).
    split; [apply token_iff, T|]. split; [exact Tb|].
    exists w, w2, w3. apply blank_Forall in A. repeat split; try assumption.
    intros ->. cbn [app] in R. destruct Tb as [Nb Tb]. destruct b as [|c b]; [contradiction|].
    inversion Tb; subst. cbn in R. contradiction.
Qed.

(** ** Numbers *)
Lemma span_digits_spec s a b :
  span_digits s = (a, b) ->
  s = a ++ b /\ all_digits a /\ (match b with c :: _ => is_digit c = false | [] => True end).
Proof.
  revert a b. induction s as [|c s IH]; intros a b; cbn [span_digits].
  - intro H. injection H as <- <-. repeat split.
  - destruct (is_digit c) eqn:D.
    + destruct (span_digits s) as [a' b'] eqn:E. intro H. injection H as <- <-.
      destruct (IH _ _ eq_refl) as (-> & A & K). repeat split; [|exact K].
      unfold all_digits. cbn [forallb]. rewrite D. exact A.
    + intro H. injection H as <- <-. repeat split. exact D.
Qed.

Lemma parse_unsigned_Some neg s m :
  parse_unsigned neg s = Some m <->
  exists ip fp, all_digits ip /\ all_digits fp /\ ip ++ fp <> []
    /\ ((s = ip /\ fp = []) \/ s = ip ++ chr "." :: fp)
    /\ m = fofdec neg (digits_val (ip ++ fp)) (List.length fp).
Proof.
  split.
  - unfold parse_unsigned. destruct (span_digits s) as [ip r] eqn:E.
    apply span_digits_spec in E. destruct E as (-> & A & K).
    destruct r as [|c r].
    + destruct ip as [|d0 ip0] eqn:Ei; [discriminate|]. rewrite <- Ei in *. intro H.
      exists ip, []. rewrite !app_nil_r. repeat split; auto; [subst ip; discriminate|].
      cbn [List.length]. congruence.
    + destruct (N.eqb_spec c (chr ".")) as [->|]; [|discriminate].
      destruct (span_digits r) as [fp r''] eqn:E. apply span_digits_spec in E.
      destruct E as (-> & F & _). destruct r''; [|discriminate]. rewrite app_nil_r.
      destruct (ip ++ fp) as [|d ds] eqn:Ed; [discriminate|]. rewrite <- Ed. intro H.
      exists ip, fp. repeat split; auto; [congruence|]. congruence.
  - intros (ip & fp & A & F & N & [[-> ->]| ->] & ->).
    + rewrite app_nil_r in *. apply parse_int; assumption.
    + apply parse_frac; assumption.
Qed.

Lemma parse_f64_Some s m :
  parse_f64 s = Some m <->
  exists neg ip fp, spells 46%N s neg ip fp
    /\ m = fofdec neg (digits_val (ip ++ fp)) (List.length fp).
Proof.
  unfold parse_f64, spells. split.
  - destruct s as [|c s]; [discriminate|].
    destruct (N.eqb_spec c (chr "-")) as [->|N]; intro H; apply parse_unsigned_Some in H;
      destruct H as (ip & fp & A & F & Nn & D & ->).
    + exists true, ip, fp. rewrite !all_digits_Forall. repeat split; try assumption.
      exists s. split; [reflexivity|]. destruct D as [[-> ->]| ->]; auto.
    + exists false, ip, fp. rewrite !all_digits_Forall. repeat split; try assumption.
      exists (c :: s). split; [reflexivity|]. destruct D as [[-> ->]| ->]; auto.
  - intros (neg & ip & fp & (A & F & N & body & -> & D) & ->).
    rewrite all_digits_Forall in A, F.
    assert (parse_unsigned neg body = Some (fofdec neg (digits_val (ip ++ fp)) (List.length fp))) as P.
    { apply parse_unsigned_Some. exists ip, fp. repeat split; auto. }
    destruct neg.
    + rewrite N.eqb_refl. exact P.
    + destruct body as [|c body].
      * destruct D as [[<- ->]|D]; [contradiction|]. destruct ip; discriminate.
      * destruct (N.eqb_spec c (chr "-")) as [->|_]; [|exact P].
        exfalso. destruct D as [[D _]|D].
        -- subst ip. apply andb_true_iff in A. destruct A as [A _]. discriminate.
        -- destruct ip as [|d ip]; [discriminate|]. injection D as <- _.
           apply andb_true_iff in A. destruct A as [A _]. discriminate.
Qed.

Lemma fofdec_nearest neg ip fp :
  Forall digit_char ip -> Forall digit_char fp ->
  nearest_f64 (fofdec neg (digits_val (ip ++ fp)) (List.length fp)) neg (decimal_value neg ip fp).
Proof.
  intros A F. apply nearest_iff. unfold decimal_value. rewrite number_of_digits.
  apply fofdec_correct. apply digits_val_nonneg. apply all_digits_app.
  rewrite <- !all_digits_Forall. auto.
Qed.

(** ** The pieces of [parse_amount] *)
Lemma is_mag_char_eq d c : is_mag_char d c = mag_char d c.
Proof. reflexivity. Qed.
Lemma is_symbol_char_eq d c : is_symbol_char d c = sym_char d c.
Proof. reflexivity. Qed.

Lemma filter_all {A} (f : A -> bool) l : forallb f l = true -> filter f l = l.
Proof.
  induction l as [|a l IH]; [reflexivity|]. cbn [forallb filter]. intro H.
  apply andb_true_iff in H. destruct H as [Ha H]. rewrite Ha, (IH H). reflexivity.
Qed.
Lemma filter_none {A} (f : A -> bool) l : forallb (fun a => negb (f a)) l = true -> filter f l = [].
Proof.
  induction l as [|a l IH]; [reflexivity|]. cbn [forallb filter]. intro H.
  apply andb_true_iff in H. destruct H as [Ha H]. apply negb_true_iff in Ha. rewrite Ha. apply IH, H.
Qed.
Lemma no_ws_filter f s : no_ws s -> no_ws (filter f s).
Proof. rewrite !no_ws_In. intros H c I. apply H. apply filter_In in I. apply I. Qed.

Lemma space_not_mag d : proper_dsym d -> mag_char d 32%N = false.
Proof.
  intros (_ & _ & N). unfold mag_char.
  destruct (N.eqb_spec 32 d) as [<-|_]; [|reflexivity]. exfalso. apply N. reflexivity.
Qed.
Lemma space_sym d : proper_dsym d -> sym_char d 32%N = true.
Proof. intro H. unfold sym_char. rewrite space_not_mag by exact H. reflexivity. Qed.

Lemma spells_dot d t neg ip fp :
  proper_dsym d -> forallb (mag_char d) t = true ->
  spells d t neg ip fp <->
  spells 46%N (if N.eqb d (chr ".") then t else replace_char d (chr ".") t) neg ip fp.
Proof.
  intros (Nd & Nm & Nw) Ht. destruct (N.eqb_spec d (chr ".")) as [->|N]; [reflexivity|].
  assert (forall ds, Forall digit_char ds -> replace_char d 46%N ds = ds) as Rd.
  { intros ds F. unfold replace_char. induction F as [|c ds Hc F IH]; [reflexivity|].
    cbn [map]. rewrite IH. destruct (N.eqb_spec c d) as [->|_]; [contradiction|reflexivity]. }
  assert (forall u v, forallb (mag_char d) u = true -> replace_char d 46%N u = replace_char d 46%N v ->
            forallb (mag_char d) v = true -> u = v) as Inj.
  { induction u as [|c u IH]; intros [|e v] Hu E Hv; try discriminate; [reflexivity|].
    cbn [replace_char map] in E. injection E as E1 E2. cbn [forallb] in Hu, Hv.
    apply andb_true_iff in Hu, Hv. destruct Hu as [Hc Hu], Hv as [He Hv].
    rewrite (IH v Hu E2 Hv). f_equal.
    assert (mag_char d 46%N = false) as K.
    { unfold mag_char. destruct (N.eqb_spec 46 d) as [E|E]; [|reflexivity]. exfalso. apply N. auto. }
    destruct (N.eqb_spec c d) as [->|_], (N.eqb_spec e d) as [->|_]; congruence. }
  assert (forall ds, Forall digit_char ds -> forallb (mag_char d) ds = true) as Md.
  { intros ds F. rewrite Forall_forall in F. apply forallb_forall. intros c I.
    apply F, digit_char_iff in I. unfold mag_char. unfold is_digit in I. rewrite I. reflexivity. }
  assert (mag_char d d = true) as Mdd.
  { unfold mag_char. rewrite N.eqb_refl. rewrite orb_true_r. reflexivity. }
  assert (mag_char d 45%N = true) as Mm.
  { unfold mag_char. rewrite orb_true_r. reflexivity. }
  change (chr ".") with 46%N.
  split; intros (A & F & Ne & body & E & D); (split; [exact A|split; [exact F|split; [exact Ne|]]]).
  - exists (replace_char d 46%N body). split.
    + subst t. destruct neg; [|reflexivity]. cbn [replace_char map].
      destruct (N.eqb_spec 45 d); [congruence|reflexivity].
    + destruct D as [[-> ->]| ->]; [left; split; [apply Rd, A|reflexivity]|right].
      unfold replace_char. rewrite map_app. cbn [map]. rewrite N.eqb_refl.
      f_equal; [apply Rd, A|]. f_equal. apply Rd, F.
  - exists (if neg then match t with _ :: b => b | [] => [] end else t).
    destruct neg.
    + destruct t as [|c t]; [discriminate|]. cbn [replace_char map] in E. injection E as E1 E2.
      cbn [forallb] in Ht. apply andb_true_iff in Ht. destruct Ht as [Hc Ht]. split.
      * f_equal. destruct (N.eqb_spec c d) as [->|_]; [discriminate E1|exact E1].
      * destruct D as [[D ->]|D]; [left|right].
        -- split; [|reflexivity]. apply Inj; [exact Ht| |apply Md, A]. rewrite (Rd ip A).
           change (replace_char d 46%N t) with (map (fun c => if N.eqb c d then 46%N else c) t). congruence.
        -- apply Inj; [exact Ht| |].
           ++ unfold replace_char. rewrite map_app. cbn [map]. rewrite N.eqb_refl.
              change (map _ ip) with (replace_char d 46%N ip).
              change (map _ fp) with (replace_char d 46%N fp). rewrite !Rd by assumption.
              congruence.
           ++ rewrite forallb_app. cbn [forallb]. rewrite !Md, Mdd by assumption. reflexivity.
    + split; [reflexivity|]. destruct D as [[D ->]|D]; [left|right].
      * split; [|reflexivity]. apply Inj; [exact Ht| |apply Md, A]. rewrite (Rd ip A). congruence.
      * apply Inj; [exact Ht| |].
        -- unfold replace_char. rewrite map_app. cbn [map]. rewrite N.eqb_refl.
           change (map _ ip) with (replace_char d 46%N ip).
           change (map _ fp) with (replace_char d 46%N fp). rewrite !Rd by assumption.
           unfold replace_char in E. congruence.
        -- rewrite forallb_app. cbn [forallb]. rewrite !Md, Mdd by assumption. reflexivity.
Qed.

Lemma trimmed_no_ws s : no_ws s -> trimmed s.
Proof.
  intro H. destruct s as [|c s]; [split; exact I|]. apply trimmed_token. split; [discriminate|exact H].
Qed.

Lemma trim_two fa fb :
  no_ws fa -> no_ws fb ->
  (match trim (fa ++ 32%N :: fb) with [] => None | _ :: _ => Some (trim (fa ++ 32%N :: fb)) end) = symbol_of fa fb.
Proof.
  intros A B. destruct fa as [|a fa].
  - assert (trim ([] ++ 32%N :: fb) = fb) as ->.
    { change ([] ++ 32%N :: fb) with ([32%N] ++ fb). rewrite <- (app_nil_r fb) at 1.
      apply trim_wrap; [reflexivity|reflexivity|apply trimmed_no_ws, B]. }
    destruct fb; reflexivity.
  - destruct fb as [|b fb].
    + assert (trim ((a :: fa) ++ [32%N]) = a :: fa) as ->; [|reflexivity].
      apply (trim_wrap [] (a :: fa) [32%N]); [reflexivity|reflexivity|apply trimmed_no_ws, A].
    + rewrite trim_id; [reflexivity|]. split.
      * apply no_ws_cons in A. apply A.
      * rewrite rev_app_distr. cbn [rev].
        apply no_ws_rev in B. cbn [rev] in B.
        destruct (rev fb ++ [b]) as [|x l] eqn:E; [destruct (rev fb); discriminate|].
        apply no_ws_cons in B. apply B.
Qed.
Lemma trim_one fa :
  no_ws fa -> (match trim fa with [] => None | _ :: _ => Some (trim fa) end) = symbol_of fa [].
Proof. intro A. rewrite trim_id by apply trimmed_no_ws, A. destruct fa; reflexivity. Qed.

Lemma parse_amount_iff s d a :
  proper_dsym d ->
  parse_amount s d = Ok a <-> amount_text s d (mag a) (symbol a).
Proof.
  intro Pd. unfold parse_amount, amount_text. rewrite replace_dashes. cbv zeta.
  set (t := without_double_dash s).
  assert (forall x, is_token x -> no_ws (filter (sym_char d) x)) as NW.
  { intros x [_ H]. apply no_ws_filter, H. }
  assert (forall u, forallb (mag_char d) (filter (mag_char d) u) = true) as MF.
  { intro u. apply forallb_forall. intros c I. apply filter_In in I. apply I. }
  assert (forall u (m : f64) (sym : option str),
    (match parse_f64 (if (d =? chr ".")%N then filter (mag_char d) u
                      else replace_char d (chr ".") (filter (mag_char d) u)) with
     | Some m0 => Ok (mkAmount m0 (match trim (filter (sym_char d) u) with [] => None | _ :: _ => Some (trim (filter (sym_char d) u)) end))
     | None => Err (EParse (AmountMag t))
     end = Ok (mkAmount m sym)) <->
    (exists neg ip fp, nearest_f64 m neg (decimal_value neg ip fp)
       /\ spells d (filter (mag_char d) u) neg ip fp
       /\ sym = match trim (filter (sym_char d) u) with [] => None | _ :: _ => Some (trim (filter (sym_char d) u)) end)) as Fin.
  { intros u m sym. split.
    - destruct (parse_f64 _) as [m0|] eqn:E; [|discriminate]. intro H. injection H as <- <-.
      apply parse_f64_Some in E. destruct E as (neg & ip & fp & S & ->).
      exists neg, ip, fp. split; [apply fofdec_nearest; apply S|]. split; [|reflexivity].
      apply spells_dot; [exact Pd|apply MF|exact S].
    - intros (neg & ip & fp & Nr & S & ->).
      assert (m = fofdec neg (digits_val (ip ++ fp)) (List.length fp)) as ->.
      { eapply fin_or_inf_unique; apply nearest_iff; [exact Nr|]. apply fofdec_nearest; apply S. }
      apply spells_dot in S; [|exact Pd|apply MF].
      rewrite (proj2 (parse_f64_Some _ (fofdec neg (digits_val (ip ++ fp)) (List.length fp))));
        [reflexivity|]. exists neg, ip, fp. auto. }
  destruct a as [m sym]. cbn [mag symbol].
  change (is_mag_char d) with (mag_char d). change (is_symbol_char d) with (sym_char d).
  assert (F := split_ws_tokens t).
  destruct (split_ws t) as [|x [|y [|z l]]] eqn:E.
  - split; [discriminate|]. intros (neg & ip & fp & _ & [(a & H & _)|(a & b & H & _)]).
    + apply one_token_iff in H. congruence.
    + apply two_tokens_iff in H. congruence.
  - inversion F as [|? ? Tx _]; subst. rewrite Fin. rewrite (trim_one (filter (sym_char d) x)) by auto.
    split.
    + intros (neg & ip & fp & N & S & ->). exists neg, ip, fp. split; [exact N|]. left.
      exists x. split; [apply one_token_iff, E|]. auto.
    + intros (neg & ip & fp & N & [(a & H & S & ->)|(a & b & H & _)]).
      * apply one_token_iff in H. assert (a = x) by congruence. subst a.
        exists neg, ip, fp. auto.
      * apply two_tokens_iff in H. congruence.
  - inversion F as [|? ? Tx F2]; subst. inversion F2 as [|? ? Ty _]; subst.
    cbn [join]. change (lit " ") with [32%N]. cbn [app]. rewrite Fin.
    assert (filter (mag_char d) (x ++ 32%N :: y) = filter (mag_char d) x ++ filter (mag_char d) y) as ->.
    { rewrite filter_app. cbn [filter]. rewrite space_not_mag by exact Pd. reflexivity. }
    assert (filter (sym_char d) (x ++ 32%N :: y)
            = filter (sym_char d) x ++ 32%N :: filter (sym_char d) y) as ->.
    { rewrite filter_app. cbn [filter]. rewrite space_sym by exact Pd. reflexivity. }
    rewrite trim_two by auto. split.
    + intros (neg & ip & fp & N & S & ->). exists neg, ip, fp. split; [exact N|]. right.
      exists x, y. split; [apply two_tokens_iff, E|]. auto.
    + intros (neg & ip & fp & N & [(a & H & _)|(a & b & H & S & ->)]).
      * apply one_token_iff in H. congruence.
      * apply two_tokens_iff in H. assert (a = x /\ b = y) as [-> ->] by (split; congruence).
        exists neg, ip, fp. auto.
  - split; [discriminate|]. intros (neg & ip & fp & _ & [(a & H & _)|(a & b & H & _)]).
    + apply one_token_iff in H. congruence.
    + apply two_tokens_iff in H. congruence.
Qed.

Lemma parse_amount_any s d a : parse_amount s d = Ok a <-> amount_text_any s d (mag a) (symbol a).
Proof.
  unfold parse_amount, amount_text_any, clump. rewrite replace_dashes. cbv zeta.
  set (t := without_double_dash s).
  assert (forall u, (if (d =? chr ".")%N then filter (mag_char d) u else replace_char d (chr ".") (filter (mag_char d) u))
    = with_dots d (filter (mag_char d) u)) as Dots.
  { intro u. unfold with_dots, replace_char. destruct (N.eqb_spec d (chr ".")) as [->|_]; [|reflexivity].
    rewrite <- (map_id (filter _ u)) at 1. apply map_ext. intro c. destruct (N.eqb_spec c (chr ".")) as [->|N]; [reflexivity|].
    destruct (N.eqb_spec c (chr ".")); [contradiction|reflexivity]. }
  assert (forall u (m : f64) (sym : option str),
    (match parse_f64 (if (d =? chr ".")%N then filter (mag_char d) u
                      else replace_char d (chr ".") (filter (mag_char d) u)) with
     | Some m0 => Ok (mkAmount m0 (match trim (filter (sym_char d) u) with [] => None | _ :: _ => Some (trim (filter (sym_char d) u)) end))
     | None => Err (EParse (AmountMag t))
     end = Ok (mkAmount m sym)) <->
    (exists neg ip fp, nearest_f64 m neg (decimal_value neg ip fp)
       /\ spells 46%N (with_dots d (filter (mag_char d) u)) neg ip fp
       /\ sym = match trim (filter (sym_char d) u) with [] => None | t => Some t end)) as Fin.
  { intros u m sym. rewrite Dots.
    assert ((match trim (filter (sym_char d) u) with [] => None | _ :: _ => Some (trim (filter (sym_char d) u)) end)
      = match trim (filter (sym_char d) u) with [] => None | t => Some t end) as -> by (destruct (trim _); reflexivity).
    split.
    - destruct (parse_f64 _) as [m0|] eqn:E; [|discriminate]. intro H. injection H as <- <-.
      apply parse_f64_Some in E. destruct E as (neg & ip & fp & S & ->).
      exists neg, ip, fp. split; [apply fofdec_nearest; apply S|]. split; [exact S|reflexivity].
    - intros (neg & ip & fp & Nr & S & ->).
      assert (m = fofdec neg (digits_val (ip ++ fp)) (List.length fp)) as ->.
      { eapply fin_or_inf_unique; apply nearest_iff; [exact Nr|]. apply fofdec_nearest; apply S. }
      rewrite (proj2 (parse_f64_Some _ (fofdec neg (digits_val (ip ++ fp)) (List.length fp))));
        [reflexivity|]. exists neg, ip, fp. auto. }
  destruct a as [m sym]. cbn [mag symbol].
  change (is_mag_char d) with (mag_char d). change (is_symbol_char d) with (sym_char d).
  destruct (split_ws t) as [|x [|y [|z l]]] eqn:E.
  - split; [discriminate|]. intros (c & neg & ip & fp & [H|(a & b & H & _)] & _).
    + apply one_token_iff in H. congruence.
    + apply two_tokens_iff in H. congruence.
  - rewrite Fin. split.
    + intros (neg & ip & fp & H). exists x, neg, ip, fp. split; [left; apply one_token_iff, E|exact H].
    + intros (c & neg & ip & fp & [H|(a & b & H & _)] & R).
      * apply one_token_iff in H. assert (c = x) by congruence. subst c. exists neg, ip, fp. exact R.
      * apply two_tokens_iff in H. congruence.
  - rewrite Fin. change (join (lit " ") [x; y]) with (x ++ 32%N :: y). split.
    + intros (neg & ip & fp & H). exists (x ++ 32%N :: y), neg, ip, fp.
      split; [right; exists x, y; split; [apply two_tokens_iff, E|reflexivity]|exact H].
    + intros (c & neg & ip & fp & [H|(a & b & H & ->)] & R).
      * apply one_token_iff in H. congruence.
      * apply two_tokens_iff in H. assert (a = x /\ b = y) as [-> ->] by (split; congruence). exists neg, ip, fp. exact R.
  - split; [discriminate|]. intros (c & neg & ip & fp & [H|(a & b & H & _)] & _).
    + apply one_token_iff in H. congruence.
    + apply two_tokens_iff in H. congruence.
Qed.

Lemma parse_amount_total s d :
  (exists a, parse_amount s d = Ok a)
  \/ parse_amount s d = Err (EParse (AmountTokens (without_double_dash s)))
  \/ parse_amount s d = Err (EParse (AmountMag (without_double_dash s))).
Proof.
  unfold parse_amount. cbv zeta. rewrite replace_dashes.
  destruct (split_ws _) as [|x [|y [|z l]]]; auto; destruct (parse_f64 _); eauto.
Qed.

(** Symbols that come out of the parser. *)
Lemma symbol_of_chars (P : char -> Prop) a b s :
  symbol_of a b = Some s -> P 32%N -> Forall P a -> Forall P b -> Forall P s.
Proof.
  intros H P32 A B. destruct a as [|x a], b as [|y b]; cbn in H; try discriminate;
    injection H as <-; try assumption.
  inversion A; subst. constructor; [assumption|]. apply Forall_app. split; [assumption|].
  constructor; assumption.
Qed.
Lemma amount_symbol_clean s d m sym :
  proper_dsym d -> amount_text s d m (Some sym) ->
  sym <> [] /\ trimmed sym
  /\ Forall (fun c => ~ digit_char c /\ c <> 45%N /\ c <> 46%N /\ c <> 44%N /\ c <> d) sym.
Proof.
  intros Pd (neg & ip & fp & _ & H).
  assert (forall u, Forall (fun c => ~ digit_char c /\ c <> 45%N /\ c <> 46%N /\ c <> 44%N /\ c <> d)
                      (filter (sym_char d) u)) as K.
  { intro u. apply Forall_forall. intros c I. apply filter_In in I. destruct I as [_ I].
    unfold sym_char, mag_char in I. rewrite !andb_true_iff, !negb_true_iff in I.
    destruct I as ((I & I46) & I44). rewrite !orb_false_iff in I. destruct I as ((Id & Idd) & I45).
    apply N.eqb_neq in I46, I44, Idd, I45. repeat split; try assumption.
    intro D. unfold digit_char in D. apply andb_false_iff in Id. rewrite !N.leb_gt in Id. lia. }
  assert (~ digit_char 32%N /\ 32%N <> 45%N /\ 32%N <> 46%N /\ 32%N <> 44%N /\ 32%N <> d) as K32.
  { repeat split; try discriminate.
    - unfold digit_char. lia.
    - intros <-. destruct Pd as (_ & _ & N). apply N. reflexivity. }
  assert (forall u, is_token u -> no_ws (filter (sym_char d) u)) as NW.
  { intros x [_ Hx]. apply no_ws_filter, Hx. }
  destruct H as [(a & T & _ & E)|(a & b & T & _ & E)]; symmetry in E.
  - destruct T as (Ta & _). apply token_iff in Ta.
    assert (sym = filter (sym_char d) a /\ sym <> []) as [-> N].
    { destruct (filter (sym_char d) a); cbn in E; [discriminate|]. injection E as <-. easy. }
    split; [exact N|]. split; [apply trimmed_no_ws; auto|apply K].
  - destruct T as (Ta & Tb & _). apply token_iff in Ta, Tb.
    split; [|split].
    + destruct (filter (sym_char d) a), (filter (sym_char d) b); cbn in E; try discriminate;
        injection E as <-; discriminate.
    + specialize (NW a Ta) as Wa. specialize (NW b Tb) as Wb.
      destruct (filter (sym_char d) a) as [|x fa], (filter (sym_char d) b) as [|y fb];
        cbn in E; try discriminate; injection E as <-; try (apply trimmed_no_ws; assumption).
      split.
      * apply no_ws_cons in Wa. apply Wa.
      * change (x :: fa ++ 32%N :: y :: fb) with ((x :: fa) ++ 32%N :: y :: fb).
        rewrite rev_app_distr. cbn [rev]. apply no_ws_rev in Wb. cbn [rev] in Wb.
        destruct (rev fb ++ [y]) as [|u l] eqn:R; [destruct (rev fb); discriminate|].
        apply no_ws_cons in Wb. apply Wb.
    + eapply (symbol_of_chars _ _ _ _ E); [exact K32|apply K|apply K].
Qed.

(** ** C05 *)
Lemma wdd_cons c s : c <> 45%N -> without_double_dash (c :: s) = c :: without_double_dash s.
Proof.
  intro H. cbn [without_double_dash]. destruct c as [|p]; [reflexivity|].
  destruct p as [p|p|]; try reflexivity; destruct p as [p|p|]; try reflexivity;
  destruct p as [p|p|]; try reflexivity; destruct p as [p|p|]; try reflexivity;
  destruct p as [p|p|]; try reflexivity; destruct p as [p|p|]; try reflexivity.
  contradiction.
Qed.
Lemma wdd_none a : ~ In 45%N a -> without_double_dash a = a.
Proof.
  induction a as [|c a IH]; intro H; [reflexivity|].
  rewrite wdd_cons by (intros ->; apply H; left; reflexivity).
  rewrite IH; [reflexivity|]. intro I. apply H. right. exact I.
Qed.
Lemma wdd_one a b : ~ In 45%N a -> ~ In 45%N b -> without_double_dash (a ++ 45%N :: b) = a ++ 45%N :: b.
Proof.
  induction a as [|c a IH]; intros Ha Hb.
  - cbn [app]. destruct b as [|d b]; [reflexivity|].
    assert (d <> 45%N) as Hd by (intros ->; apply Hb; left; reflexivity).
    assert (without_double_dash (45%N :: d :: b) = 45%N :: without_double_dash (d :: b)) as ->.
    { cbn [without_double_dash]. destruct d as [|p]; [reflexivity|].
      destruct p as [p|p|]; try reflexivity; destruct p as [p|p|]; try reflexivity;
      destruct p as [p|p|]; try reflexivity; destruct p as [p|p|]; try reflexivity;
      destruct p as [p|p|]; try reflexivity; destruct p as [p|p|]; try reflexivity.
      contradiction. }
    rewrite wdd_none by exact Hb. reflexivity.
  - cbn [app]. rewrite wdd_cons by (intros ->; apply Ha; left; reflexivity).
    rewrite IH; [reflexivity| |exact Hb]. intro I. apply Ha. right. exact I.
Qed.

Lemma digit_not_ws c : digit_char c -> is_ws c = false.
Proof.
  unfold digit_char, is_ws. intro H.
  assert (c = 48 \/ c = 49 \/ c = 50 \/ c = 51 \/ c = 52 \/ c = 53 \/ c = 54 \/ c = 55 \/ c = 56 \/ c = 57)%N as E by lia.
  clear H. repeat destruct E as [->|E]; [reflexivity..|]. subst c. reflexivity.
Qed.
Lemma digit_mag d c : digit_char c -> mag_char d c = true.
Proof.
  intro H. unfold mag_char. apply digit_char_iff in H. unfold is_digit in H. rewrite H. reflexivity.
Qed.

Lemma spells_chars d t neg ip fp :
  proper_dsym d -> spells d t neg ip fp ->
  is_token t /\ forallb (mag_char d) t = true /\ without_double_dash t = t.
Proof.
  intros Pd (A & F & N & body & -> & D).
  assert (body <> [] /\ forall c, In c body -> digit_char c \/ c = d) as [Nb Cb].
  { destruct D as [[-> ->]| ->].
    - rewrite app_nil_r in N. split; [exact N|]. intros c I. left. rewrite Forall_forall in A. auto.
    - split; [destruct ip; discriminate|]. intros c I. apply in_app_iff in I.
      rewrite Forall_forall in A, F. destruct I as [I|[<-|I]]; auto. }
  destruct Pd as (Pd1 & Pd2 & Pd3).
  assert (~ In 45%N body) as N45.
  { intro I. apply Cb in I. destruct I as [I|I]; [unfold digit_char in I; lia|congruence]. }
  assert (no_ws body) as W.
  { apply no_ws_In. intros c I. apply Cb in I. destruct I as [I| ->]; [apply digit_not_ws, I|].
    unfold blank_char in Pd3. destruct (is_ws d); congruence. }
  assert (forallb (mag_char d) body = true) as M.
  { apply forallb_forall. intros c I. apply Cb in I. destruct I as [I| ->]; [apply digit_mag, I|].
    unfold mag_char. rewrite N.eqb_refl. rewrite orb_true_r. reflexivity. }
  destruct neg.
  - repeat split; [discriminate|apply no_ws_cons; auto| |].
    + cbn [forallb]. rewrite M. unfold mag_char. rewrite orb_true_r. reflexivity.
    + apply (wdd_one [] body); auto.
  - repeat split; try assumption. apply wdd_none, N45.
Qed.

Lemma parse_spelled d t neg ip fp :
  proper_dsym d -> spells d t neg ip fp ->
  exists m, parse_amount t d = Ok (mkAmount m None)
            /\ nearest_f64 m neg (decimal_value neg ip fp).
Proof.
  intros Pd S. destruct (spells_chars d t neg ip fp Pd S) as (T & M & W).
  exists (fofdec neg (digits_val (ip ++ fp)) (List.length fp)).
  assert (nearest_f64 (fofdec neg (digits_val (ip ++ fp)) (List.length fp)) neg
            (decimal_value neg ip fp)) as Nr by (apply fofdec_nearest; apply S).
  split; [|exact Nr]. apply parse_amount_iff; [exact Pd|]. cbn [mag symbol].
  exists neg, ip, fp. split; [exact Nr|]. left. exists t. rewrite W. split; [|split].
  - apply one_token_iff, split_ws_one, T.
  - rewrite filter_all by exact M. exact S.
  - rewrite filter_none; [reflexivity|]. apply forallb_forall. intros c I.
    rewrite forallb_forall in M. unfold sym_char. rewrite (M c I). reflexivity.
Qed.

(** ** C07 *)
Lemma proper_dot : proper_dsym 46%N.
Proof. unfold proper_dsym, digit_char, blank_char. repeat split; try discriminate. lia. Qed.

Lemma parse_amount_parts s a m :
  split_ws (without_double_dash s) = [a] ->
  parse_f64 (filter (mag_char 46%N) a) = Some m ->
  parse_amount s 46%N = Ok (mkAmount m (symbol_of (filter (sym_char 46%N) a) [])).
Proof.
  intros E P. apply parse_amount_iff; [apply proper_dot|]. cbn [mag symbol].
  apply parse_f64_Some in P. destruct P as (neg & ip & fp & S & ->).
  exists neg, ip, fp. split; [apply fofdec_nearest; apply S|]. left.
  exists a. split; [apply one_token_iff, E|]. auto.
Qed.
Lemma parse_amount_parts2 s a b m :
  split_ws (without_double_dash s) = [a; b] ->
  parse_f64 (filter (mag_char 46%N) a ++ filter (mag_char 46%N) b) = Some m ->
  parse_amount s 46%N = Ok (mkAmount m (symbol_of (filter (sym_char 46%N) a) (filter (sym_char 46%N) b))).
Proof.
  intros E P. apply parse_amount_iff; [apply proper_dot|]. cbn [mag symbol].
  apply parse_f64_Some in P. destruct P as (neg & ip & fp & S & ->).
  exists neg, ip, fp. split; [apply fofdec_nearest; apply S|]. right.
  exists a, b. split; [apply two_tokens_iff, E|]. auto.
Qed.

(** What is printed for a finite float. *)
Definition printed_number (D : str) : Prop :=
  is_token D /\ forallb (mag_char 46%N) D = true
  /\ exists sgn body, D = sgn ++ body /\ ~ In 45%N body /\ (sgn = [] \/ sgn = [45%N]).
Lemma show_f64_printed x : ffin x = true -> printed_number (show_f64 x).
Proof.
  intro F. destruct (show_f64_text x F) as (s & ip & fp & (A & N & Fp & D) & ->).
  assert (spells 46%N ((if fsign x then [chr "-"] else []) ++ s) (fsign x) ip fp) as S.
  { repeat split; try (apply all_digits_Forall; assumption).
    - destruct ip; [contradiction|discriminate].
    - exists s. split; [destruct (fsign x); reflexivity|].
      destruct D as [[-> ->]|[_ ->]]; auto. }
  destruct (spells_chars _ _ _ _ _ proper_dot S) as (T & M & _).
  split; [exact T|]. split; [exact M|].
  exists (if fsign x then [45%N] else []), s. split; [reflexivity|]. split.
  - assert (forall c, In c s -> digit_char c \/ c = 46%N) as C.
    { intros c I. rewrite <- all_digits_Forall, Forall_forall in A, Fp.
      destruct D as [[-> ->]|[_ ->]]; [auto|]. apply in_app_iff in I. destruct I as [I|[<-|I]]; auto. }
    intro I. apply C in I. destruct I as [I|I]; [unfold digit_char in I; lia|discriminate].
  - destruct (fsign x); auto.
Qed.

Lemma plain_no45 s : plain_symbol (Some s) -> ~ In 45%N s.
Proof. intros [_ F] I. rewrite Forall_forall in F. apply F in I. tauto. Qed.
Lemma plain_mag s : plain_symbol (Some s) -> filter (mag_char 46%N) s = [].
Proof.
  intros [_ F]. apply filter_none. apply forallb_forall. intros c I. rewrite Forall_forall in F.
  destruct (F c I) as (D & N1 & N2 & N3). unfold mag_char.
  rewrite (proj2 (N.eqb_neq c 45) N1), (proj2 (N.eqb_neq c 46) N2), !orb_false_r.
  destruct ((48 <=? c) && (c <=? 57))%N eqn:E; [|reflexivity].
  exfalso. apply D. apply digit_char_iff. exact E.
Qed.
Lemma plain_sym s : plain_symbol (Some s) -> filter (sym_char 46%N) s = s.
Proof.
  intros H. assert (M := plain_mag s H). destruct H as [_ F].
  apply filter_all. apply forallb_forall. intros c I. rewrite Forall_forall in F.
  destruct (F c I) as (D & N1 & N2 & N3). unfold sym_char.
  rewrite (proj2 (N.eqb_neq c 44) N3), (proj2 (N.eqb_neq c 46) N2). cbn [negb].
  rewrite !andb_true_r. destruct (mag_char 46%N c) eqn:E; [|reflexivity].
  assert (In c []) as []. rewrite <- M. apply filter_In. auto.
Qed.
Lemma printed_sym D : forallb (mag_char 46%N) D = true -> filter (sym_char 46%N) D = [].
Proof.
  intro M. apply filter_none. apply forallb_forall. intros c I. rewrite forallb_forall in M.
  unfold sym_char. rewrite (M c I). reflexivity.
Qed.

Lemma wdd_around a D b :
  printed_number D -> ~ In 45%N a -> ~ In 45%N b ->
  without_double_dash (a ++ D ++ b) = a ++ D ++ b.
Proof.
  intros (_ & _ & sgn & body & -> & Nb & [->| ->]) Ha Hb.
  - apply wdd_none. rewrite !in_app_iff. cbn. tauto.
  - cbn [app]. apply wdd_one; [exact Ha|]. rewrite in_app_iff. tauto.
Qed.

Lemma split_ws_lead c s : is_ws c = true -> split_ws (c :: s) = split_ws s.
Proof.
  intro H. apply (split_ws_ws [c] s). apply all_ws_cons. split; [exact H|reflexivity].
Qed.

Lemma parse_show_amount a :
  ffin (rounded_mag a) = true -> plain_symbol (symbol a) ->
  parse_amount (show_amount a) 46%N = Ok (mkAmount (rounded_mag a) (symbol a)).
Proof.
  intros F P. unfold show_amount. set (r := rounded_mag a) in *.
  assert (K := show_f64_printed r F). assert (R := parse_show_f64 r F).
  set (D := show_f64 r) in *.
  assert (T := proj1 K). assert (M := proj1 (proj2 K)).
  change (chr " ") with 32%N.
  assert (forall b, ~ In 45%N b -> without_double_dash (D ++ b) = D ++ b) as W0.
  { intros b Hb. apply (wdd_around [] D b K); [easy|exact Hb]. }
  assert (forall b, ~ In 45%N b -> without_double_dash (32%N :: D ++ b) = 32%N :: D ++ b) as W1.
  { intros b Hb. apply (wdd_around [32%N] D b K); [|exact Hb]. intros [E|[]]. discriminate. }
  destruct (symbol a) as [sym|] eqn:Es.
  - assert (T2 := proj1 P). apply token_iff in T2.
    assert (N45 := plain_no45 _ P). assert (PM := plain_mag _ P). assert (PS := plain_sym _ P).
    assert (sym <> []) as Nsym by apply T2.
    destruct (Nat.leb (byte_len sym) 2).
    + destruct (fltb (mag a) fzero).
      * rewrite (parse_amount_parts _ (sym ++ D) r).
        -- rewrite filter_app, PS, (printed_sym D M), app_nil_r. destruct sym; [contradiction|reflexivity].
        -- assert (W := wdd_around sym D [] K N45 (fun x => x)). rewrite app_nil_r in W. rewrite W.
           apply split_ws_one. destruct T2 as [_ W2], T as [NT W3]. split.
           ++ destruct sym; [contradiction|discriminate].
           ++ apply no_ws_app. auto.
        -- rewrite filter_app, PM, (filter_all _ D M). exact R.
      * rewrite (parse_amount_parts2 _ sym D r).
        -- rewrite PS, (printed_sym D M). destruct sym; [contradiction|reflexivity].
        -- assert (W := wdd_around (sym ++ [32%N]) D [] K). rewrite app_nil_r in W.
           rewrite <- app_assoc in W. cbn [app] in W. rewrite W.
           ++ rewrite split_ws_tok by (try exact T2; reflexivity).
              rewrite split_ws_lead by reflexivity. rewrite split_ws_one by exact T. reflexivity.
           ++ rewrite in_app_iff. intros [I|[I|[]]]; [contradiction|discriminate].
           ++ easy.
        -- rewrite PM, (filter_all _ D M). exact R.
    + assert (~ In 45%N (32%N :: sym)) as N45' by (intros [E|E]; [discriminate|contradiction]).
      assert (split_ws (D ++ 32%N :: sym) = [D; sym]) as S2.
      { rewrite split_ws_tok by (try exact T; reflexivity).
        rewrite split_ws_lead by reflexivity. rewrite split_ws_one by exact T2. reflexivity. }
      destruct (fltb (mag a) fzero).
      * rewrite (parse_amount_parts2 _ D sym r).
        -- rewrite PS, (printed_sym D M). destruct sym; [contradiction|reflexivity].
        -- rewrite W0 by exact N45'. exact S2.
        -- rewrite PM, (filter_all _ D M), app_nil_r. exact R.
      * cbn [app]. rewrite (parse_amount_parts2 _ D sym r).
        -- rewrite PS, (printed_sym D M). destruct sym; [contradiction|reflexivity].
        -- rewrite W1 by exact N45'. rewrite split_ws_lead by reflexivity. exact S2.
        -- rewrite PM, (filter_all _ D M), app_nil_r. exact R.
  - destruct (fltb (mag a) fzero).
    + rewrite (parse_amount_parts _ D r).
      * rewrite (printed_sym D M). reflexivity.
      * specialize (W0 []). rewrite app_nil_r in W0. rewrite W0 by easy. apply split_ws_one, T.
      * rewrite (filter_all _ D M). exact R.
    + rewrite (parse_amount_parts _ D r).
      * rewrite (printed_sym D M). reflexivity.
      * specialize (W1 []). rewrite app_nil_r in W1. rewrite W1 by easy.
        rewrite split_ws_lead by reflexivity. apply split_ws_one, T.
      * rewrite (filter_all _ D M). exact R.
Qed.

(** ** C08 *)
Lemma short_decimal_stable a neg ip fp :
  Forall digit_char ip -> Forall digit_char fp -> (List.length fp <= 8)%nat ->
  number_of (ip ++ fp) * 10 ^ (8 - Z.of_nat (List.length fp)) < 2 ^ 51 ->
  nearest_f64 (mag a) neg (decimal_value neg ip fp) ->
  ffin (mag a) = true /\ rounded_mag a = mag a.
Proof.
  intros A F L B Nr.
  set (k := Z.of_nat (List.length fp)) in *. set (n := number_of (ip ++ fp)) in *.
  assert (0 <= n) as Hn.
  { unfold n. rewrite number_of_digits. apply digits_val_nonneg, all_digits_app.
    rewrite <- !all_digits_Forall. auto. }
  assert (0 <= k <= 8) as Hk by (unfold k; lia).
  assert (0 < 10 ^ (8 - k)) as P1 by (apply Z.pow_pos_nonneg; lia).
  assert (0 < 10 ^ k) as P2 by (apply Z.pow_pos_nonneg; lia).
  assert (10 ^ k * 10 ^ (8 - k) = 100000000) as P3.
  { rewrite <- Z.pow_add_r by lia. replace (k + (8 - k)) with 8 by lia. reflexivity. }
  set (N := (if neg then -1 else 1) * (n * 10 ^ (8 - k))).
  assert (decimal_value neg ip fp = IZR N / 100000000)%R as V.
  { unfold decimal_value, N. fold n k. rewrite <- P3, !mult_IZR.
    assert (IZR (10 ^ k) <> 0)%R by (apply IZR_neq; lia).
    assert (IZR (10 ^ (8 - k)) <> 0)%R by (apply IZR_neq; lia).
    destruct neg; field; auto. }
  assert (Z.abs N < 2 ^ 51) as HN.
  { unfold N. destruct neg; rewrite Z.abs_mul; [change (Z.abs (-1)) with 1|change (Z.abs 1) with 1];
      rewrite Z.mul_1_l, Z.abs_eq; try assumption; apply Z.mul_nonneg_nonneg; lia. }
  rewrite V in Nr. apply nearest_iff in Nr. unfold fin_or_inf in Nr.
  assert (Rabs (rnd (IZR N / 100000000)) < bpow radix2 1024)%R as Bd.
  { apply Rle_lt_trans with (IZR (2 ^ 51)).
    - assert (Rabs (IZR N / 100000000) <= IZR (2 ^ 51))%R as K.
      { unfold Rdiv. rewrite Rabs_mult, (Rabs_pos_eq (/ 100000000)) by lra.
        rewrite <- abs_IZR. assert (IZR (Z.abs N) <= IZR (2 ^ 51))%R by (apply IZR_le; lia).
        assert (0 <= IZR (Z.abs N))%R by (apply IZR_le; lia). lra. }
      apply Rabs_le_inv in K. destruct K as [K1 K2]. apply Rabs_le. split.
      + apply rnd_le in K1. rewrite <- opp_IZR, rnd_Z in K1 by (cbv; discriminate).
        rewrite <- opp_IZR. exact K1.
      + apply rnd_le in K2. rewrite rnd_Z in K2 by (cbv; discriminate). exact K2.
    - eapply Rle_lt_trans; [|apply pow53_lt_1024]. apply IZR_le. lia. }
  rewrite Rlt_bool_true in Nr by exact Bd. destruct Nr as (R & Fin & _).
  split; [exact Fin|]. unfold rounded_mag. eapply rounded_stable; eassumption.
Qed.

(** Rounding for display keeps the value to 8 decimals. *)
Lemma rnd_abs v : (Rabs (rnd v - v) <= bpow radix2 (-53) * Rabs v + bpow radix2 (-1022))%R.
Proof.
  destruct (Rle_or_lt (bpow radix2 (-1022)) (Rabs v)) as [H|H].
  - assert (K := rnd_rel v H). assert (B := bpow_ge_0 radix2 (-1022)). lra.
  - assert (Rabs (rnd v - v) <= / 2 * bpow radix2 (-1074))%R as K.
    { assert (E := error_le_half_ulp radix2 fexp64 (fun n => negb (Z.even n)) v).
      unfold rnd. eapply Rle_trans; [exact E|]. apply Rmult_le_compat_l; [lra|].
      unfold fexp64. change (SpecFloat.fexp prec emax) with (FLT_exp (-1074) 53).
      rewrite ulp_FLT_small; [lra|reflexivity|]. eapply Rlt_le_trans; [exact H|]. apply bpow_le. lia. }
    assert (bpow radix2 (-1074) <= bpow radix2 (-1022))%R by (apply bpow_le; lia).
    assert (0 <= bpow radix2 (-53) * Rabs v)%R by (apply Rmult_le_pos; [apply bpow_ge_0|apply Rabs_pos]).
    assert (B := bpow_ge_0 radix2 (-1022)). lra.
Qed.

(** A quotient by 10^8 is finite only if the dividend is. *)
Lemma fdiv_fin x : ffin (fdiv x f1e8) = true -> ffin x = true.
Proof.
  rewrite !ffin_SF. destruct x as [[s|s| |s m e] V]; try reflexivity; [destruct s|]; intro H; vm_compute in H; discriminate H.
Qed.
Lemma fround_fin x : ffin (fround x) = true -> ffin x = true.
Proof. rewrite !ffin_SF. destruct x as [[s|s| |s m e] V]; try reflexivity; intro H; exact H. Qed.
Lemma fmul_fin x y : ffin (fmul x y) = true ->
  ffin x = true /\ ffin y = true /\ fR (fmul x y) = rnd (fR x * fR y).
Proof.
  intro H. assert (ffin x = true /\ ffin y = true) as [Fx Fy].
  { revert H. rewrite !ffin_SF. destruct x as [[a|a| |a m e] V], y as [[b|b| |b m' e'] V'];
      try (split; reflexivity); intro H; exfalso; try destruct a; try destruct b; vm_compute in H; discriminate H. }
  split; [exact Fx|]. split; [exact Fy|]. revert H. unfold ffin, fR. rewrite B_fmul.
  generalize (Bmult_correct prec emax Hprec Hmax mode_NE (B x) (B y)).
  destruct (Rlt_bool _ _); [intros (A & _) _; exact A|].
  intros E H. exfalso. rewrite <- is_finite_SF_B2SF, E in H. unfold binary_overflow, overflow_to_inf in H. cbn in H. discriminate.
Qed.

Lemma rounded_mag_near a :
  ffin (rounded_mag a) = true -> eight_decimals (rounded_mag a) (mag a).
Proof.
  intros F. destruct fofZ_1e8 as [F8 R8]. unfold rounded_mag in F |- *.
  pose proof (fdiv_fin _ F) as F1. pose proof (fround_fin _ F1) as F2.
  destruct (fmul_fin _ _ F2) as (Fm & _ & M1). rewrite R8 in M1.
  set (v := (fR (mag a) * 100000000)%R) in *.
  destruct (fround_whole _ F2) as (n & N1 & A1 & A2). rewrite M1 in N1.
  exists n. rewrite <- fR_SF. fold v. split.
  - assert (K := rnd_abs v).
    replace (IZR n - v)%R with ((IZR n - rnd v) + (rnd v - v))%R by ring.
    eapply Rle_trans; [apply Rabs_triang|]. lra.
  - destruct (fdiv_correct (fround (fmul (mag a) f1e8)) f1e8 A1) as [D1 D2].
    + rewrite R8. lra.
    + rewrite A2, R8. eapply Rle_lt_trans; [|apply (abs_B2R_lt_emax prec emax (B (fround (fmul (mag a) f1e8))))].
      change (B2R (B (fround (fmul (mag a) f1e8)))) with (fR (fround (fmul (mag a) f1e8))). rewrite A2.
      assert (rnd (IZR n) = IZR n) as E by (rewrite <- A2; apply rnd_format, generic_format_B2R).
      rewrite <- (Rabs_pos_eq (Rabs (IZR n))) by apply Rabs_pos.
      assert (0 <= Rabs (IZR n))%R by apply Rabs_pos.
      assert (Rabs (IZR n / 100000000) <= Rabs (IZR n))%R as L.
      { unfold Rdiv. rewrite Rabs_mult, (Rabs_pos_eq (/ 100000000)) by lra. lra. }
      rewrite (Rabs_pos_eq (Rabs _)) by assumption.
      assert (rnd (Rabs (IZR n)) = Rabs (IZR n)) as Ea.
      { unfold Rabs. destruct Rcase_abs; [rewrite rnd_opp, E; reflexivity|exact E]. }
      apply Rabs_le_inv in L. apply Rabs_le. rewrite <- Ea. rewrite <- rnd_opp. split; apply rnd_le; lra.
    + rewrite A2, R8 in D1. apply f64_is_fR. split; [exact D2|exact D1].
Qed.
