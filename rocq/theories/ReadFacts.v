(** Lemmas about the texts that are read as dates. *)
From Coq Require Import ZArith NArith List Bool String Lia.
From Verif Require Import Base Str F64 F64Text Date SpecDate SpecTime SpecRead StrFacts
  DateBasics DateFacts WeekFacts DateFormat TimeFacts.
Import ListNotations.
Local Open Scope Z_scope.

Lemma white_all w : white w <-> all_ws w.
Proof. unfold white, all_ws. rewrite forallb_forall. reflexivity. Qed.
Lemma white_start s : exists w, white w /\ s = w ++ trim_start s
  /\ match trim_start s with [] => True | c :: _ => is_ws c = false end.
Proof. destruct (trim_start_spec s) as (w & E & A & H). exists w. rewrite white_all. auto. Qed.

Lemma digit_dig c : is_digit c = true -> c = dig (digit_val c) /\ 0 <= digit_val c < 10.
Proof.
  intro D. apply is_digit_range in D. unfold dig, digit_val.
  assert (0 <= Z.of_N c - 48 < 10) by lia. rewrite Z.mod_small by lia. split; lia.
Qed.
Lemma digits_fixed_val ds : all_digits ds -> fixed (List.length ds) (digits_val ds) = ds
  /\ 0 <= digits_val ds < 10 ^ Z.of_nat (List.length ds).
Proof.
  induction ds as [|c ds IH] using rev_ind; intro D; [split; [reflexivity|vm_compute; auto; split; congruence]|].
  unfold all_digits in D. rewrite forallb_app in D. apply andb_true_iff in D. destruct D as [D C]. destruct (IH D) as [E B].
  cbn [forallb] in C. rewrite andb_true_r in C. destruct (digit_dig c C) as [Ec Bc].
  rewrite app_length, digits_val_app. change (List.length [c]) with 1%nat. rewrite Nat.add_1_r. cbn [fixed].
  change (digits_val [c]) with (10 * 0 + digit_val c). change (10 ^ Z.of_nat 1) with 10.
  rewrite Nat2Z.inj_succ, Z.pow_succ_r by lia.
  assert (E1 : (digits_val ds * 10 + (10 * 0 + digit_val c)) / 10 = digits_val ds) by (Z.div_mod_to_equations; lia).
  assert (E2 : dig (digits_val ds * 10 + (10 * 0 + digit_val c)) = c).
  { rewrite Ec at 2. unfold dig. do 2 f_equal. Z.div_mod_to_equations; lia. }
  split; [|lia]. rewrite E1, E2, E. reflexivity.
Qed.
Lemma take_digits_inv w : forall s a b, take_digits w s = (a, b) ->
  s = a ++ b /\ all_digits a /\ (List.length a <= w)%nat /\ (List.length a = w \/ ~ starts_digit b).
Proof.
  induction w as [|w IH]; intros s a b H.
  - assert (E : take_digits 0 s = ([], s)) by (destruct s; reflexivity). rewrite E in H. injection H as <- <-. cbn. split; [reflexivity|]. split; [reflexivity|]. auto.
  - destruct s as [|c s]; [injection H as <- <-; cbn; split; [reflexivity|]; split; [reflexivity|]; split; [lia|]; right; auto|]. cbn [take_digits] in H.
    destruct (is_digit c) eqn:D.
    + destruct (take_digits w s) as [a' b'] eqn:T. injection H as <- <-. destruct (IH _ _ _ T) as (E & A & L & G).
      split; [rewrite E; reflexivity|]. split; [unfold all_digits; cbn [forallb]; rewrite D; exact A|]. cbn [List.length].
      split; [lia|]. destruct G; [left; lia|auto].
    + injection H as <- <-. cbn. split; [reflexivity|]. split; [reflexivity|]. split; [lia|]. right. intro K.
      apply (is_digit_range c) in K. congruence.
Qed.
Lemma starts_digit_is c s : is_digit c = true <-> starts_digit (c :: s).
Proof. cbn [starts_digit]. apply is_digit_range. Qed.

Definition scan_run (max : nat) (r : str) : option (Z * str) :=
  match take_digits max r with
  | ([], _) => None
  | (ds, rest) => if digits_val ds <? 2 ^ 63 then Some (digits_val ds, rest) else None
  end.
Lemma scan_num_run signed w s : scan_num signed w s =
  match trim_start s with
  | c :: r =>
      if signed && N.eqb c 45 then option_map (fun p => (- fst p, snd p)) (scan_run (List.length r) r)
      else if signed && N.eqb c 43 then scan_run (List.length r) r
      else scan_run w (c :: r)
  | [] => None
  end.
Proof. unfold scan_num. destruct (trim_start s); reflexivity. Qed.
Lemma scan_run_inv max q v r : scan_run max q = Some (v, r) ->
  exists k, (1 <= k <= max)%nat /\ q = fixed k v ++ r /\ 0 <= v < 10 ^ Z.of_nat k /\ (k = max \/ ~ starts_digit r).
Proof.
  unfold scan_run. destruct (take_digits max q) as [ds rest] eqn:T. destruct (take_digits_inv _ _ _ _ T) as (E1 & A & L & K).
  destruct ds as [|d ds]; [discriminate|]. destruct (digits_val (d :: ds) <? 2 ^ 63); [|discriminate]. intro H. injection H as <- <-.
  destruct (digits_fixed_val _ A) as [F V]. exists (List.length (d :: ds)). rewrite F. split; [split; [cbn [List.length]; lia|exact L]|]. auto.
Qed.
Lemma scan_all_inv q v r : scan_run (List.length q) q = Some (v, r) ->
  exists k, (1 <= k)%nat /\ q = fixed k v ++ r /\ 0 <= v < 10 ^ Z.of_nat k /\ ~ starts_digit r.
Proof.
  intro H. destruct (scan_run_inv _ _ _ _ H) as (k & K & E1 & V & D). exists k. split; [lia|]. split; [exact E1|]. split; [exact V|].
  destruct D as [D|D]; [|exact D]. apply (f_equal (@List.length N)) in E1. rewrite app_length, fixed_length in E1.
  destruct r; [intros []|cbn in E1; lia].
Qed.
Lemma scan_num_inv signed w s v r : scan_num signed w s = Some (v, r) ->
  exists t, s = t ++ r /\ number_said signed w v r t /\ (signed = false -> 0 <= v).
Proof.
  rewrite scan_num_run. destruct (white_start s) as (b & B & E & _). destruct (trim_start s) as [|c q]; [discriminate|].
  destruct (signed && N.eqb c 45) eqn:Sm.
  { apply andb_true_iff in Sm. destruct Sm as [-> Cm]. apply N.eqb_eq in Cm. subst c.
    destruct (scan_run (List.length q) q) as [[v' r']|] eqn:H; [|discriminate]. intro K. injection K as <- <-.
    destruct (scan_all_inv _ _ _ H) as (k & K & E1 & V & D). exists (b ++ 45%N :: fixed k v'). split; [|split; [|discriminate]].
    - rewrite E, E1, <- app_assoc. reflexivity.
    - cbn [fst snd]. replace v' with (- - v') at 2 by lia. apply said_minus; auto. lia. }
  destruct (signed && N.eqb c 43) eqn:Sp.
  { apply andb_true_iff in Sp. destruct Sp as [-> Cm]. apply N.eqb_eq in Cm. subst c.
    intro H. destruct (scan_all_inv _ _ _ H) as (k & K & E1 & V & D). exists (b ++ 43%N :: fixed k v). split; [|split; [|discriminate]].
    - rewrite E, E1, <- app_assoc. reflexivity.
    - apply said_plus; auto. }
  intro H. destruct (scan_run_inv _ _ _ _ H) as (k & K & E1 & V & D). exists (b ++ fixed k v). split; [|split; [|lia]].
  - rewrite E, E1, <- app_assoc. reflexivity.
  - apply said_plain; auto.
Qed.
Lemma scan_run_fixed k u max r : (1 <= k <= max)%nat -> 0 <= u < 10 ^ Z.of_nat k -> k = max \/ ~ starts_digit r -> u < 2 ^ 63 ->
  scan_run max (fixed k u ++ r) = Some (u, r).
Proof.
  intros K U D L. unfold scan_run. rewrite take_digits_app; [|apply fixed_digits|rewrite fixed_length; lia|rewrite fixed_length; exact D].
  destruct (fixed_first k u) as (c & l & E & _); [lia|]. rewrite E, <- E, fixed_val by exact U. rewrite (proj2 (Z.ltb_lt _ _) L). reflexivity.
Qed.
Lemma scan_num_said signed w v r t : number_said signed w v r t -> Z.abs v < 2 ^ 63 -> scan_num signed w (t ++ r) = Some (v, r).
Proof.
  intros H V. rewrite scan_num_run.
  assert (L : forall k u, (k <= List.length (fixed k u ++ r))%nat) by (intros; rewrite app_length, fixed_length; lia).
  destruct H as [b k B K U D|b k -> B K U D|b k -> B K U D]; rewrite <- app_assoc, trim_start_ws by (apply white_all, B).
  - destruct (fixed_first k v) as (c & l & E & Dc & Wc); [lia|]. rewrite E. cbn [app]. rewrite trim_start_visible by exact Wc.
    apply is_digit_range in Dc. rewrite (proj2 (N.eqb_neq c 45)), (proj2 (N.eqb_neq c 43)) by lia. rewrite !andb_false_r.
    change (c :: l ++ r) with ((c :: l) ++ r). rewrite <- E. apply scan_run_fixed; auto. lia.
  - rewrite <- app_comm_cons, trim_start_visible by reflexivity. cbn [andb N.eqb Pos.eqb]. apply scan_run_fixed; auto; lia.
  - rewrite <- app_comm_cons, trim_start_visible by reflexivity. cbn [andb N.eqb Pos.eqb]. rewrite scan_run_fixed; auto; [|lia].
    cbn [option_map fst snd]. do 2 f_equal. lia.
Qed.

(** ** Names *)
Lemma lower_length a b : caseless a b -> List.length a = List.length b.
Proof. intro H. apply (f_equal (@List.length N)) in H. rewrite !map_length in H. exact H. Qed.
Lemma lower_start p s : starts_with (map ascii_lower p) (map ascii_lower s) = true <-> exists t r, s = t ++ r /\ caseless t p.
Proof.
  rewrite starts_with_iff. split.
  - intros (q & E). exists (firstn (List.length p) s), (skipn (List.length p) s). rewrite firstn_skipn. split; [reflexivity|].
    unfold caseless. rewrite <- firstn_map, E. rewrite <- (map_length ascii_lower p), firstn_app, firstn_all, Nat.sub_diag, app_nil_r. reflexivity.
  - intros (t & r & -> & C). exists (map ascii_lower r). rewrite map_app, C. reflexivity.
Qed.
Lemma skip_three (t q : str) : List.length t = 3%nat -> skipn 3 (t ++ q) = q.
Proof. intro L. rewrite <- L. apply skipn_app_exact. Qed.
Definition proper_names (names : list string) : Prop :=
  Forall (fun n => (3 <= List.length (lit n))%nat) names /\ NoDup (map (fun n => map ascii_lower (firstn 3 (lit n))) names).
Lemma scan_name_inv long names : proper_names names -> forall i s v r, scan_name long (map lit names) i s = Some (v, r) ->
  exists k name t, nth_error names k = Some name /\ v = i + Z.of_nat k /\ s = t ++ r /\ name_said long name r t.
Proof.
  intros [F _]. induction F as [|n names L F IH]; intros i s v r H; [discriminate|]. cbn [map scan_name] in H.
  destruct (starts_with (map ascii_lower (firstn 3 (lit n))) (map ascii_lower s)) eqn:S3.
  - apply lower_start in S3. destruct S3 as (t & q & -> & C). exists 0%nat, n.
    rewrite skip_three in H by (rewrite (lower_length _ _ C), firstn_length; lia).
    set (rest := skipn 3 (lit n)) in *. 
    destruct (long && starts_with (map ascii_lower rest) (map ascii_lower q)) eqn:S4.
    + apply andb_true_iff in S4. destruct S4 as [-> S4]. apply lower_start in S4. destruct S4 as (t' & r' & -> & C').
      rewrite <- (lower_length _ _ C'), skipn_app_exact in H. injection H as <- <-.
      exists (t ++ t'). split; [reflexivity|]. split; [lia|]. split; [apply app_assoc|]. apply said_whole; [reflexivity|].
      unfold caseless. rewrite map_app, C, C', <- map_app. unfold rest. rewrite firstn_skipn. reflexivity.
    + injection H as <- <-. exists t. split; [reflexivity|]. split; [lia|]. split; [reflexivity|]. apply said_short; [exact C|].
      intros -> t' r' C' ->. cbn [andb] in S4. rewrite (proj2 (lower_start _ _)) in S4; [discriminate|]. eauto.
  - destruct (IH _ _ _ _ H) as (k & name & t & K & -> & E & N). exists (S k), name, t. split; [exact K|]. split; [lia|]. auto.
Qed.
Lemma scan_name_said long names : proper_names names -> forall i k name r t,
  nth_error names k = Some name -> name_said long name r t -> scan_name long (map lit names) i (t ++ r) = Some (i + Z.of_nat k, r).
Proof.
  intros [F D]. induction F as [|n names L F IH]; intros i k name r t K S; [destruct k; discriminate|].
  cbn [map] in D. apply NoDup_cons_iff in D. destruct D as [Nd D]. cbn [map scan_name].
  assert (Ln : (3 <= List.length (lit name))%nat) by (apply nth_error_In in K; destruct K as [<-|K]; [exact L|]; rewrite Forall_forall in F; apply F, K).
  assert (S3 : exists u q, t ++ r = u ++ q /\ caseless u (firstn 3 (lit name))).
  { destruct S as [t Lg C|t C _]; [|eauto]. exists (firstn 3 t), (skipn 3 t ++ r). rewrite app_assoc, firstn_skipn. split; [reflexivity|].
    unfold caseless in *. rewrite <- !firstn_map, C. reflexivity. }
  destruct k as [|k].
  - cbn in K. injection K as ->. rewrite (proj2 (lower_start _ _) S3). replace (i + Z.of_nat 0) with i by lia. do 2 f_equal.
    set (rest := skipn 3 (lit name)) in *. destruct S as [t -> C|t C G].
    + assert (Lt : (3 <= List.length t)%nat) by (rewrite (lower_length _ _ C); exact Ln).
      assert (C' : caseless (skipn 3 t) rest) by (unfold caseless, rest in *; rewrite <- !skipn_map, C; reflexivity).
      rewrite skipn_app. replace (3 - List.length t)%nat with 0%nat by lia. change (skipn 0 r) with r.
      rewrite (proj2 (lower_start _ _)) by eauto. cbn [andb]. rewrite <- (lower_length _ _ C'). apply skipn_app_exact.
    + rewrite skip_three by (rewrite (lower_length _ _ C), firstn_length; lia).
      destruct (long && starts_with (map ascii_lower rest) (map ascii_lower r)) eqn:S4; [|reflexivity].
      apply andb_true_iff in S4. destruct S4 as [-> S4]. apply lower_start in S4. destruct S4 as (t' & r' & E & C'). destruct (G eq_refl t' r' C' E).
  - cbn in K. destruct (starts_with (map ascii_lower (firstn 3 (lit n))) (map ascii_lower (t ++ r))) eqn:S4.
    + exfalso. apply Nd. apply in_map_iff. exists name. split; [|apply nth_error_In in K; exact K].
      apply lower_start in S4. destruct S4 as (u' & q' & E' & C'). destruct S3 as (u & q & E & C).
      assert (u = u').
      { rewrite E in E'. assert (Lu := lower_length _ _ C). assert (Lu' := lower_length _ _ C'). rewrite firstn_length in Lu, Lu'.
        apply (f_equal (firstn 3)) in E'. rewrite !firstn_app, !firstn_all2 in E' by lia.
        replace (3 - List.length u)%nat with 0%nat in E' by lia. replace (3 - List.length u')%nat with 0%nat in E' by lia.
        rewrite !firstn_O, !app_nil_r, firstn_all2 in E' by lia. exact E'. }
      subst u'. unfold caseless in *. congruence.
    + rewrite (IH D (i + 1) k name r t K S). do 2 f_equal. lia.
Qed.
Lemma proper_months : proper_names names_of_months.
Proof. split; [repeat constructor|]. repeat constructor; vm_compute; intuition congruence. Qed.
Definition day_order : list string := ["Monday"; "Tuesday"; "Wednesday"; "Thursday"; "Friday"; "Saturday"; "Sunday"]%string.
Lemma proper_days : proper_names day_order.
Proof. split; [repeat constructor|]. repeat constructor; vm_compute; intuition congruence. Qed.

(** ** From the fields to the date *)
Definition grows (p q : parsed) : Prop := forall a v, p a = Some v -> q a = Some v.
Lemma grows_trans p q r : grows p q -> grows q r -> grows p r.
Proof. unfold grows. auto. Qed.
Lemma set_grows p a v q : set_field p a v = Some q -> grows p q /\ q a = Some v.
Proof.
  unfold set_field, grows. destruct (p a) as [w|] eqn:E.
  - destruct (v =? w) eqn:V; [|discriminate]. apply Z.eqb_eq in V. subst w. intro H. injection H as <-. auto.
  - intro H. injection H as <-. assert (K : forall b, field_eqb a b = true <-> a = b) by (intro b; destruct a, b; cbn; split; congruence). split.
    + intros b w Hb. destruct (field_eqb a b) eqn:Eb; [apply K in Eb; congruence|exact Hb].
    + rewrite (proj2 (K a) eq_refl). reflexivity.
Qed.
Lemma sets_grow l : forall p q, set_fields p l = Some q -> grows p q.
Proof.
  induction l as [|[a v] l IH]; intros p q H; [injection H as <-; intros b w; auto|]. cbn [set_fields] in H.
  destruct (set_field p a v) as [p'|] eqn:E; [|discriminate]. apply set_grows in E. apply grows_trans with p'; [apply E|apply IH, H].
Qed.
(** The fields of a date, as they are after reading. *)
Definition holds (x : date) (p : parsed) : Prop :=
  forall a v, p a = Some v -> of_time a = false -> v = field_of (fun _ => 0) x a
    /\ match a with ACentury | AShortYear => 0 <= year x | AIsoShort => 0 <= week_year x | _ => True end.
Lemma agree_true o v w : agree o v = true -> o = Some w -> w = v.
Proof. intros H ->. apply Z.eqb_eq, H. Qed.
Lemma agree_part_true o y v w : agree_part o y v = true -> o = Some w -> w = v /\ 0 <= y.
Proof. intros H ->. apply andb_true_iff in H. destruct H as [A B]. split; [apply Z.eqb_eq, B|apply Z.leb_le, A]. Qed.
Lemma to_date_holds p x : to_date p = Some x -> holds x p.
Proof.
  unfold to_date. destruct (resolve_year (p AYear) _ _) as [y|]; [|discriminate]. destruct (resolve_year (p AIsoYear) _ _) as [iy|]; [|discriminate].
  cbv zeta. match goal with |- match ?f with _ => _ end = _ -> _ => destruct f as [z|]; [|discriminate] end.
  match goal with |- (if ?c then _ else _) = _ -> _ => destruct c eqn:G; [|discriminate] end. intro H. injection H as ->.
  repeat (apply andb_true_iff in G; let G' := fresh "G" in destruct G as [G G']). rewrite week_year_iso in *.
  intros a v E T. destruct a; try discriminate T; cbn [field_of];
    first [split; [eapply agree_true; eassumption|exact I] | eapply agree_part_true; eassumption].
Qed.
Lemma holds_grows x p q : holds x q -> grows p q -> holds x p.
Proof. intros H G a v E. apply H, G, E. Qed.
Lemma number_holds x n v : n_least (read_num n) <= v <= n_most (read_num n) ->
  n_value (read_num n) v = field_of (fun _ => 0) x (n_field (read_num n)) -> v = number_of x n.
Proof.
  destruct n; cbn [read_num n_least n_most n_value n_field field_of number_of]; intros B E; try exact E.
  - rewrite E. apply ordinal_day.
  - unfold weekday_of in E. Z.div_mod_to_equations. lia.
  - unfold weekday_of in E. lia.
  - rewrite E. apply week_iso.
  - rewrite E. apply weeks_sunday.
  - rewrite E. apply weeks_monday.
  - unfold quarter in E. Z.div_mod_to_equations. lia.
Qed.
Lemma month_said x b k name r t : nth_error names_of_months k = Some name -> 1 + Z.of_nat k = month x -> name_said b name r t ->
  name_said b (nth (Z.to_nat (month x - 1)) names_of_months ""%string) r t.
Proof. intros K <- S. replace (Z.to_nat (1 + Z.of_nat k - 1)) with k by lia. rewrite (nth_error_nth _ _ _ K). exact S. Qed.
Lemma turned_day x : exists k, (k < 7)%nat /\ weekday_of x = Z.of_nat k
  /\ nth_error day_order k = Some (nth (Z.to_nat (dayn x mod 7)) names_of_days ""%string).
Proof.
  rewrite weekday_turn. assert (B := weekday_bounds x). exists (Z.to_nat (weekday_of x)). split; [lia|]. split; [lia|].
  assert (Wc : weekday_of x = 0 \/ weekday_of x = 1 \/ weekday_of x = 2 \/ weekday_of x = 3 \/ weekday_of x = 4
            \/ weekday_of x = 5 \/ weekday_of x = 6) by lia.
  destruct Wc as [E|[E|[E|[E|[E|[E|E]]]]]]; rewrite E; reflexivity.
Qed.
Lemma day_said x b k name r t : nth_error day_order k = Some name -> 0 + Z.of_nat k = weekday_of x -> name_said b name r t ->
  name_said b (nth (Z.to_nat (dayn x mod 7)) names_of_days ""%string) r t.
Proof.
  intros K E S. destruct (turned_day x) as (j & _ & Ej & Nj). assert (k = j) by lia. subst j. rewrite K in Nj. apply (f_equal (fun o => match o with Some a => a | None => name end)) in Nj. rewrite <- Nj. exact S.
Qed.
Lemma skip_while_inv f s : exists w, s = w ++ skip_while f s /\ (forall c, In c w -> f c = true)
  /\ match skip_while f s with c :: _ => f c = false | [] => True end.
Proof.
  induction s as [|c s IH]; [exists []; cbn; intuition|]. cbn [skip_while]. destruct (f c) eqn:E.
  - destruct IH as (w & Es & W & G). exists (c :: w). split; [cbn [app]; congruence|]. split; [|exact G]. intros d [<-|I]; [exact E|apply W, I].
  - exists []. split; [reflexivity|]. split; [intros d []|exact E].
Qed.
Lemma two_digits_inv s v r : two_digits s = Some (v, r) -> s = fixed 2 v ++ r /\ 0 <= v < 100.
Proof.
  destruct s as [|a [|b q]]; try discriminate. cbn [two_digits]. destruct (is_digit a) eqn:A; [|discriminate]. destruct (is_digit b) eqn:B; [|discriminate].
  cbn [andb]. intro H. injection H as <- <-.
  destruct (digits_fixed_val [a; b]) as [F V]; [unfold all_digits; cbn [forallb]; rewrite A, B; reflexivity|].
  change (List.length [a; b]) with 2%nat in F, V. rewrite F. split; [reflexivity|exact V].
Qed.
Lemma scan_offset_inv z s v r : scan_offset z s = Some (v, r) -> exists b o, white b /\ s = (b ++ o) ++ r /\ offset_said z o.
Proof.
  unfold scan_offset. destruct (white_start s) as (b & B & E & _). set (u := trim_start s) in *. clearbody u. subst s. cbv zeta.
  assert (K : forall o, u = o ++ r -> offset_said z o -> exists b0 o0, white b0 /\ b ++ u = (b0 ++ o0) ++ r /\ offset_said z o0).
  { intros o -> O. exists b, o. rewrite <- app_assoc. auto. }
  destruct (z_utc z && starts_with (lit "utc") (map ascii_lower (firstn 3 u))) eqn:U.
  { apply andb_true_iff in U. destruct U as [Z U]. intro H. assert (Hr : skipn 3 u = r) by congruence. apply (K (firstn 3 u)).
    - rewrite <- Hr, firstn_skipn. reflexivity.
    - apply offset_utc; [exact Z|]. unfold caseless. change (map ascii_lower (lit "utc")) with (lit "utc"). apply starts_with_iff in U.
      destruct U as (q & U). assert (L := f_equal (@List.length N) U). rewrite map_length, firstn_length, app_length in L. change (List.length (lit "utc")) with 3%nat in L.
      destruct q; [rewrite U; apply app_nil_r|cbn [List.length] in L; lia]. }
  destruct (z_zulu z && match u with a :: _ => N.eqb (ascii_lower a) (chr "z") | [] => false end) eqn:Zu.
  { apply andb_true_iff in Zu. destruct Zu as [Z Zu]. destruct u as [|a u]; [discriminate|]. intro H. assert (Hr : u = r) by (cbn [skipn] in H; congruence). subst u. apply (K [a]); [reflexivity|].
    apply offset_zulu; [exact Z|]. apply N.eqb_eq in Zu. unfold caseless. cbn [map]. rewrite Zu. reflexivity. }
  destruct (offset_sign u) as [[sg s1]|] eqn:Sg; [|discriminate].
  assert (C : exists c, u = c :: s1 /\ In c [43; 45; 8722]%N).
  { unfold offset_sign in Sg. destruct u as [|c u]; [discriminate|]. exists c. destruct (N.eqb c (chr "+")) eqn:P.
    - apply N.eqb_eq in P. injection Sg as _ <-. split; [reflexivity|]. left. symmetry. exact P.
    - destruct (N.eqb c (chr "-")) eqn:M; cbn [orb] in Sg.
      + apply N.eqb_eq in M. injection Sg as _ <-. split; [reflexivity|]. right. left. symmetry. exact M.
      + destruct (N.eqb c 8722) eqn:M2; [|discriminate]. apply N.eqb_eq in M2. injection Sg as _ <-. split; [reflexivity|]. right. right. left. symmetry. exact M2. }
  destruct C as (c & -> & Ic). destruct (two_digits s1) as [[h s2]|] eqn:T; [|discriminate]. apply two_digits_inv in T. destruct T as [-> Bh].
  destruct (skip_while_inv (fun c => N.eqb c (chr ":") || is_ws c) s2) as (sep & Es & W & _). set (s3 := skip_while _ s2) in *. clearbody s3. subst s2.
  assert (W' : forall d, In d sep -> d = 58%N \/ is_ws d = true).
  { intros d D. apply W, orb_true_iff in D. destruct D as [D|D]; [left; apply N.eqb_eq, D|auto]. }
  destruct s3 as [|d s3].
  { destruct (z_short z) eqn:Z; [|discriminate]. intro H. assert (r = []) as -> by congruence. apply (K (c :: fixed 2 h ++ sep)).
    - rewrite !app_nil_r. reflexivity.
    - apply offset_hours; auto. }
  destruct (two_digits (d :: s3)) as [[m r']|] eqn:T; [|discriminate]. apply two_digits_inv in T. destruct T as [E3 Bm]. rewrite E3 in K |- *.
  destruct (m <=? 59) eqn:M; [|discriminate]. apply Z.leb_le in M. intro H. assert (r' = r) as -> by congruence. apply (K (c :: fixed 2 h ++ sep ++ fixed 2 m)).
  - cbn [app]. rewrite <- !app_assoc. reflexivity.
  - apply offset_minutes; auto. lia.
Qed.
Lemma map_inv {A B} (f : A -> B) o y : option_map f o = Some y -> exists x, o = Some x /\ y = f x.
Proof. destruct o; [|discriminate]. intro H. injection H as <-. eauto. Qed.
Lemma item_said q s p r p' : parse_item (titem q) s p = Some (r, p') ->
  grows p p' /\ forall x, holds x p' -> exists t, s = t ++ r /\ part x q r t.
Proof.
  destruct q as [[n f|b|b|c]|k| | |n| |z|]; cbn [titem item_of].
  - cbn [parse_item]. destruct (scan_num _ _ s) as [[v r']|] eqn:E; [|discriminate]. destruct (_ && _) eqn:B; [|discriminate].
    apply andb_true_iff in B. rewrite !Z.leb_le in B. intro H. apply map_inv in H. destruct H as (q & Q & H). injection H as <- <-.
    apply set_grows in Q. destruct Q as [G Q]. split; [exact G|]. intros x Hx. apply scan_num_inv in E. destruct E as (t & Et & N & _). exists t. split; [exact Et|].
    cbn [part]. destruct (Hx _ _ Q) as [V P]; [destruct n; reflexivity|]. rewrite <- (number_holds x n v B V).
    split; [destruct n; exact N|destruct n; exact P || exact I].
  - cbn [parse_item]. change month_names with (map lit names_of_months). destruct (scan_name b _ 1 s) as [[v r']|] eqn:E; [|discriminate].
    intro H. apply map_inv in H. destruct H as (q & Q & H). injection H as <- <-. apply set_grows in Q. destruct Q as [G Q]. split; [exact G|]. intros x Hx.
    apply (scan_name_inv b _ proper_months) in E. destruct E as (k & name & t & K & -> & Et & N). exists t. split; [exact Et|].
    destruct (Hx _ _ Q eq_refl) as [V _]. apply (month_said x b k name r t K V N).
  - cbn [parse_item]. change day_names with (map lit day_order). destruct (scan_name b _ 0 s) as [[v r']|] eqn:E; [|discriminate].
    intro H. apply map_inv in H. destruct H as (q & Q & H). injection H as <- <-. apply set_grows in Q. destruct Q as [G Q]. split; [exact G|]. intros x Hx.
    apply (scan_name_inv b _ proper_days) in E. destruct E as (k & name & t & K & -> & Et & N). exists t. split; [exact Et|].
    destruct (Hx _ _ Q eq_refl) as [V _]. apply (day_said x b k name r t K V N).
  - cbn [part]. destruct (is_ws c) eqn:W; cbn [parse_item].
    + intro H. injection H as <- <-. split; [intros a v; auto|]. intros x _. destruct (white_start s) as (w & Ww & E & _). eauto.
    + destruct s as [|a s]; [discriminate|]. destruct (N.eqb a c) eqn:E; [|discriminate]. apply N.eqb_eq in E. subst a. intro H. injection H as <- <-.
      split; [intros a v; auto|]. intros x _. exists [c]. auto.
  - cbn [parse_item]. destruct (scan_num _ _ s) as [[v r']|] eqn:E; [|discriminate]. destruct (clock_fields k v) as [l|] eqn:C; [|discriminate].
    intro H. apply map_inv in H. destruct H as (q & Q & H). injection H as <- <-. apply sets_grow in Q. split; [exact Q|]. intros x _.
    apply scan_num_inv in E. destruct E as (t & Et & N & V). specialize (V eq_refl). exists t. split; [exact Et|]. cbn [part]. exists v, (clock_width k s). split; [exact N|].
    split.
    + unfold clock_fields in C. destruct k; cbn [clock_range]; auto;
        match type of C with (if ?g then _ else _) = _ => destruct g eqn:B; [|discriminate] end; apply andb_true_iff in B; rewrite !Z.leb_le in B; lia.
    + destruct k; cbn [clock_width clock_places]; try (right; split; [discriminate|reflexivity]). left. split; [reflexivity|].
      inversion N as [b j B K U D|? ? X|? ? X]; try discriminate X. destruct D as [D|D]; [|exact D]. subst t. subst s.
      cbn [clock_width] in *. rewrite !app_length, fixed_length in D. destruct r as [|c r]; [intros []|cbn [List.length] in D; lia].
  - cbn [parse_item]. destruct s as [|a [|b s]]; try discriminate. destruct (N.eqb (ascii_lower b) (chr "m")) eqn:Em; [|discriminate]. apply N.eqb_eq in Em.
    destruct (N.eqb (ascii_lower a) (chr "a")) eqn:Ea.
    + apply N.eqb_eq in Ea. intro H. apply map_inv in H. destruct H as (q & Q & H). injection H as <- <-. apply set_grows in Q. split; [apply Q|]. intros x _.
      exists [a; b]. split; [reflexivity|]. left. unfold caseless. cbn [map]. rewrite Em, Ea. reflexivity.
    + destruct (N.eqb (ascii_lower a) (chr "p")) eqn:Ep; [|discriminate]. apply N.eqb_eq in Ep. intro H. apply map_inv in H. destruct H as (q & Q & H). injection H as <- <-. apply set_grows in Q. split; [apply Q|]. intros x _.
      exists [a; b]. split; [reflexivity|]. right. unfold caseless. cbn [map]. rewrite Em, Ep. reflexivity.
  - cbn [parse_item part]. destruct s as [|c s].
    + intro H. injection H as <- <-. split; [intros a v; auto|]. intros x _. exists []. auto.
    + destruct (N.eqb c (chr ".")) eqn:E.
      * apply N.eqb_eq in E. subst c. destruct (scan_fraction s) as [[v r']|] eqn:F; [|discriminate]. intro H. apply map_inv in H. destruct H as (q & Q & H). injection H as <- <-.
        apply set_grows in Q. split; [apply Q|]. intros x _. unfold scan_fraction in F. destruct (take_digits 9 s) as [ds rest] eqn:T. destruct (take_digits_inv _ _ _ _ T) as (Es & A & L & _).
        destruct ds as [|d ds]; [discriminate|]. assert (Hr : skip_while is_digit rest = r) by congruence.
        destruct (skip_while_inv is_digit rest) as (w & Er & W & G). rewrite Hr in Er, G.
        assert (A' : all_digits ((d :: ds) ++ w)).
        { unfold all_digits in *. rewrite forallb_app, A. apply forallb_forall. exact W. }
        destruct (digits_fixed_val _ A') as [Fx V]. exists (46%N :: (d :: ds) ++ w). split; [rewrite Es, Er, app_assoc; reflexivity|].
        right. exists (List.length ((d :: ds) ++ w)), (digits_val ((d :: ds) ++ w)). rewrite Fx. split; [cbn [app List.length]; lia|]. split; [exact V|]. split; [reflexivity|].
        destruct r as [|c r]; [intros []|]. intro K. apply starts_digit_is in K. congruence.
      * intro H. injection H as <- <-. split; [intros a v; auto|]. intros x _. exists []. auto.
  - cbn [parse_item part]. destruct (scan_digits n s) as [[v r']|] eqn:F; [|discriminate]. intro H. apply map_inv in H. destruct H as (q & Q & H). injection H as <- <-.
    apply set_grows in Q. split; [apply Q|]. intros x _. unfold scan_digits in F. destruct (take_digits n s) as [ds rest] eqn:T. destruct (take_digits_inv _ _ _ _ T) as (Es & A & L & _).
    destruct (Nat.eqb (List.length ds) n) eqn:Ln; [|discriminate]. apply Nat.eqb_eq in Ln. assert (rest = r) as -> by congruence.
    destruct (digits_fixed_val _ A) as [Fx V]. rewrite Ln in Fx, V. exists ds. split; [exact Es|]. exists (digits_val ds). rewrite Fx. auto.
  - cbn [parse_item part]. intro H. injection H as <- <-. split; [intros a v; auto|]. intros x _.
    destruct (skip_while_inv (fun c => negb (is_ws c)) s) as (w & Es & W & G). exists w. split; [exact Es|]. split.
    + intros c I. apply W in I. apply negb_true_iff, I.
    + destruct (skip_while _ s); [exact I|]. apply negb_false_iff, G.
  - cbn [parse_item part]. destruct (scan_offset z s) as [[v r']|] eqn:F; [|discriminate]. intro H. apply map_inv in H. destruct H as (q & Q & H). injection H as <- <-.
    apply set_grows in Q. split; [apply Q|]. intros x _. apply scan_offset_inv in F. destruct F as (b & o & B & E & O). exists (b ++ o). split; [exact E|]. exists b, o. auto.
  - cbn [parse_item part]. destruct s as [|c s]; [discriminate|].
    destruct (N.eqb c (chr "T")) eqn:E1; [apply N.eqb_eq in E1|destruct (N.eqb c (chr "t")) eqn:E2; [apply N.eqb_eq in E2|destruct (N.eqb c 32) eqn:E3; [apply N.eqb_eq in E3|discriminate]]];
      subst c; cbn [orb]; intro H; injection H as <- <-; (split; [intros a v; auto|]); intros x _; eexists [_]; (split; [reflexivity|]); auto.
Qed.
Lemma items_said ps : forall s p pf x, parse_items (map titem ps) s p = Some pf -> holds x pf -> says x ps s /\ grows p pf.
Proof.
  induction ps as [|q ps IH]; intros s p pf x H Hx; cbn [map parse_items] in H.
  - destruct s; [|discriminate]. injection H as <-. split; [constructor|intros a v; auto].
  - destruct (parse_item (titem q) s p) as [[r p']|] eqn:E; [|discriminate]. apply item_said in E. destruct E as [G E].
    destruct (IH _ _ _ _ H Hx) as [S G']. destruct (E x (holds_grows x p' pf Hx G')) as (t & -> & P). split; [|apply (grows_trans _ _ _ G G')].
    constructor; assumption.
Qed.
Theorem date_says fmt ps s x : timed fmt ps -> parse_date s fmt = Some x -> says x ps s.
Proof.
  intros T H. unfold parse_date in H. rewrite (format_items_timed _ _ T) in H. destruct (parse_items _ s _) as [pf|] eqn:E; [|discriminate].
  apply (items_said _ _ _ _ _ E (to_date_holds _ _ H)).
Qed.

(** ** Everything of this kind is read *)
Lemma week_year_pos x : 1 <= year x -> 0 <= week_year x.
Proof. intro Y. unfold week_year. destruct (_ <? _); [lia|]. destruct (_ <? _); lia. Qed.
Lemma name_first b name r t : name_said b name r t -> match firstn 3 (lit name) with a :: _ => 65 <= a <= 122 /\ is_ws a = false | [] => False end%N ->
  trim_start (t ++ r) = t ++ r.
Proof.
  intros N F. assert (K : match t with [] => False | c :: _ => is_ws c = false end).
  { assert (H : exists l, map ascii_lower t = map ascii_lower (firstn 3 (lit name)) ++ l).
    { destruct N as [t L C|t C _]; [exists (map ascii_lower (skipn 3 (lit name)))|exists []].
      - rewrite <- map_app, firstn_skipn. exact C.
      - rewrite app_nil_r. exact C. }
    destruct H as (l & H). destruct (firstn 3 (lit name)) as [|a q]; [contradiction|]. destruct t as [|c t]; [discriminate|]. cbn [map app] in H. injection H as H _.
    assert (65 <= c <= 122)%N.
    { unfold ascii_lower in H. destruct ((65 <=? c) && (c <=? 90))%N eqn:C1, ((65 <=? a) && (a <=? 90))%N eqn:C2; rewrite ?andb_true_iff, ?andb_false_iff, ?N.leb_le, ?N.leb_gt in *; lia. }
    destruct (is_ws c) eqn:W; [|reflexivity]. exfalso. revert W. clear - H0. intro W.
    unfold is_ws in W. repeat (apply orb_true_iff in W; destruct W as [W|W]); rewrite ?andb_true_iff, ?N.leb_le, ?N.eqb_eq in W; lia. }
  apply letter_first. destruct t; [contradiction|exact K].
Qed.
Section Complete.
Variable tt : field -> Z.
Lemma item_reads x q r p t : 1 <= year x < 10000 -> agrees tt x p -> part x (TDate q) r t ->
  forall s, s = t ++ r \/ s = trim_start (t ++ r) ->
  exists r' p', parse_item (item_of q) s p = Some (r', p') /\ (r' = r \/ r' = trim_start r) /\ agrees tt x p'
    /\ (forall a, p a <> None -> p' a <> None) /\ (forall a, told q = Some a -> p' a <> None)
    /\ (forall a, told q <> Some a -> p' a = p a).
Proof.
  intros Y A H s Hs. assert (Y0 : 0 <= year x < 10000) by lia. assert (WY := week_year_pos x (proj1 Y)).
  assert (Set_ : forall a i, told q = Some a -> sound x a -> parse_item i s p = option_map (fun q0 => (r, q0)) (set_field p a (field_of tt x a)) ->
    exists r' p', parse_item i s p = Some (r', p') /\ (r' = r \/ r' = trim_start r) /\ agrees tt x p'
    /\ (forall a, p a <> None -> p' a <> None) /\ (forall a, told q = Some a -> p' a <> None)
    /\ (forall a, told q <> Some a -> p' a = p a)).
  { intros a i T So E. destruct (set_agrees tt x p a A So) as (p' & Ep & A' & T' & K & Oth). exists r, p'. rewrite E, Ep. cbn [option_map].
    split; [reflexivity|]. split; [auto|]. split; [exact A'|]. split; [exact K|]. split; [intros b Hb; congruence|]. intros b Hb. apply Oth. congruence. }
  destruct q as [n f|b|b|c]; cbn [item_of part] in *.
  - destruct H as [H P]. assert (C : counted x n) by (destruct n; cbn [counted]; auto). destruct (number_read tt x n Y0 C) as (Wn & Bn & Vn). cbv zeta in *.
    assert (So : sound x (n_field (read_num n))) by (destruct n; exact C || exact I).
    apply (Set_ (n_field (read_num n))); [reflexivity|exact So|]. cbn [parse_item].
    assert (E : scan_num (n_signed (read_num n)) (n_width (read_num n)) s = Some (number_of x n, r)).
    { assert (E : scan_num (n_signed (read_num n)) (n_width (read_num n)) (t ++ r) = Some (number_of x n, r)).
      { apply scan_num_said; [destruct n; exact H|]. assert (B := counted_bounds x n Y0 C). assert (10 ^ Z.of_nat (number_width n) <= 10 ^ 4) by (apply Z.pow_le_mono_r; [lia|destruct n; cbn; lia]). lia. }
      destruct Hs as [->| ->]; [exact E|rewrite scan_num_trim; exact E]. }
    rewrite E, (proj2 (Z.leb_le _ _)), (proj2 (Z.leb_le _ _)) by lia. cbn [andb]. rewrite Vn. reflexivity.
  - destruct (date_bounds x) as (_ & M & _). set (i := Z.to_nat (month x - 1)) in *.
    assert (Hn : nth_error names_of_months i = Some (nth i names_of_months ""%string)).
    { unfold i. destruct (month_cases _ M) as [E|[E|[E|[E|[E|[E|[E|[E|[E|[E|[E|E]]]]]]]]]]]; rewrite E; reflexivity. }
    assert (Es : s = t ++ r).
    { destruct Hs as [->| ->]; [reflexivity|]. apply (name_first _ _ _ _ H). unfold i.
      destruct (month_cases _ M) as [E|[E|[E|[E|[E|[E|[E|[E|[E|[E|[E|E]]]]]]]]]]]; rewrite E; vm_compute; intuition congruence. }
    apply (Set_ AMonth); [reflexivity|exact I|]. cbn [parse_item]. change month_names with (map lit names_of_months).
    rewrite Es, (scan_name_said b names_of_months proper_months 1 i _ r t Hn H).
    replace (1 + Z.of_nat i) with (field_of tt x AMonth) by (cbn [field_of]; unfold i; lia). reflexivity.
  - destruct (turned_day x) as (i & Li & Ei & Hn). set (nm := nth (Z.to_nat (dayn x mod 7)) names_of_days ""%string) in *.
    assert (Es : s = t ++ r).
    { destruct Hs as [->| ->]; [reflexivity|]. apply (name_first _ _ _ _ H). clearbody nm.
      do 7 (destruct i as [|i]; [cbn in Hn; injection Hn as <-; vm_compute; intuition congruence|]). lia. }
    apply (Set_ AWeekday); [reflexivity|exact I|]. cbn [parse_item]. change day_names with (map lit day_order).
    rewrite Es, (scan_name_said b day_order proper_days 0 i _ r t Hn H).
    replace (0 + Z.of_nat i) with (field_of tt x AWeekday) by (cbn [field_of]; lia). reflexivity.
  - cbn [told]. destruct (is_ws c) eqn:W.
    + exists (trim_start r), p. cbn [parse_item]. split; [|split; [auto|split; [exact A|split; [auto|split; [discriminate|auto]]]]].
      apply white_all in H. destruct Hs as [->| ->]; rewrite trim_start_ws by exact H; [reflexivity|rewrite trim_twice; reflexivity].
    + subst t. exists r, p. cbn [app] in Hs. assert (s = c :: r) as -> by (apply (trimmed_or _ _ _ W Hs)). cbn [parse_item]. rewrite N.eqb_refl.
      split; [reflexivity|split; [auto|split; [exact A|split; [auto|split; [discriminate|auto]]]]].
Qed.
Lemma items_read x ps : 1 <= year x < 10000 -> forall p s s', agrees tt x p -> says x (map TDate ps) s -> s' = s \/ s' = trim_start s ->
  exists p', parse_items (map item_of ps) s' p = Some p' /\ agrees tt x p'
    /\ (forall a, p a <> None -> p' a <> None) /\ (forall q a, In q ps -> told q = Some a -> p' a <> None)
    /\ (forall a, (forall q, In q ps -> told q <> Some a) -> p' a = p a).
Proof.
  intro Y. induction ps as [|q ps IH]; intros p s s' A S Hs; inversion S as [|q' ps' t r P S' E1 E2]; subst.
  - assert (s' = []) as -> by (destruct Hs; assumption). exists p. cbn. split; [reflexivity|split; [exact A|split; [auto|split; [intros q a []|auto]]]].
  - destruct (item_reads x q r p t Y A P s' Hs) as (r' & p1 & E & Hr & A1 & K1 & T1 & O1).
    destruct (IH p1 r r' A1 S' Hr) as (p2 & E2 & A2 & K2 & T2 & O2).
    exists p2. cbn [map parse_items]. rewrite E. split; [exact E2|split; [exact A2|split; [auto|split]]].
    + intros q' a [<-|I] Ha; [apply K2, T1, Ha|apply (T2 q' a I Ha)].
    + intros a Ha. rewrite O2 by (intros q' I; apply Ha; right; exact I). apply O1, Ha. left. reflexivity.
Qed.
End Complete.
Lemma says_date fmt ps s x : written fmt ps -> 1 <= year x < 10000 -> (tells_day ps /\ tells_year ps x) \/ tells_week ps x ->
  says x (map TDate ps) s -> parse_date s fmt = Some x.
Proof.
  intros W Y T S. unfold parse_date. rewrite (format_items_written _ _ W).
  destruct (items_read (fun _ => 0) x ps Y (fun _ => None) s s) as (p & E & A & _ & K & O); [intros a v; discriminate|exact S|auto|].
  rewrite E. apply (told_date (fun _ => 0) x p ps); [lia|exact A|exact K|].
  destruct T as [T|T]; [left; exact T|right]. split; [exact T|]. intros a _ H. apply O, H.
Qed.
Lemma date_iff fmt ps s x : written fmt ps -> 1 <= year x < 10000 -> (tells_day ps /\ tells_year ps x) \/ tells_week ps x ->
  parse_date s fmt = Some x <-> says x (map TDate ps) s.
Proof.
  intros W Y T. split; [|apply says_date; assumption]. intro H. unfold parse_date in H. rewrite (format_items_written _ _ W) in H.
  replace (map item_of ps) with (map titem (map TDate ps)) in H by (rewrite map_map; reflexivity).
  destruct (parse_items _ s _) as [pf|] eqn:E; [|discriminate]. apply (items_said _ _ _ _ _ E (to_date_holds _ _ H)).
Qed.
Lemma says_one x q s : says x [q] s <-> part x q [] s.
Proof.
  split; intro H.
  - inversion H as [|q' ps t r P R E1 E2]; subst. inversion R; subst. rewrite app_nil_r. exact P.
  - rewrite <- (app_nil_r s). constructor; [exact H|constructor].
Qed.
Lemma says_cons x q ps s : says x (q :: ps) s <-> exists t r, s = t ++ r /\ part x q r t /\ says x ps r.
Proof.
  split; intro H.
  - inversion H as [|q' ps' t r P R E1 E2]; subst. eauto.
  - destruct H as (t & r & -> & P & R). constructor; assumption.
Qed.
