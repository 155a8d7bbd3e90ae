(** Reading envelope definitions. *)
From Coq Require Import ZArith NArith List Bool String Lia.
From Verif Require Import Base Str StrFacts LineFacts F64 Date Amount Posting Entry Envelope
  SpecAmount SpecDefinition AmountFacts EntryFacts EnvelopeFacts RegisterFacts.
Import ListNotations.
Local Open Scope Z_scope.

(** ** Searching *)
Lemma starts_with_skipn p s i : (i <= List.length s)%nat ->
  (starts_with p (skipn i s) = true <-> exists a b, s = a ++ p ++ b /\ List.length a = i).
Proof.
  intro L. rewrite starts_with_iff. split.
  - intros [r E]. exists (firstn i s), r. rewrite <- E, firstn_skipn, firstn_length. split; [reflexivity|lia].
  - intros (a & b & -> & <-). exists b. rewrite skipn_app, skipn_all, Nat.sub_diag. reflexivity.
Qed.
Lemma contains_inside p s : contains p s = true <-> inside p s.
Proof.
  unfold contains. destruct (find_sub p s) as [i|] eqn:E; split; try discriminate; intro H.
  - apply find_sub_Some in E as (L & S & _). apply starts_with_skipn in S as (a & b & Es & _); [|exact L].
    exists a, b. exact Es.
  - reflexivity.
  - destruct H as (a & b & ->). rewrite find_sub_None in E.
    assert (L : (List.length a <= List.length (a ++ p ++ b))%nat) by (rewrite app_length; lia).
    specialize (E _ L). rewrite (proj2 (starts_with_skipn p _ _ L)) in E; [discriminate|].
    exists a, b. auto.
Qed.
Lemma contains_not p s : contains p s = false <-> ~ inside p s.
Proof. rewrite <- contains_inside. destruct (contains p s); intuition discriminate. Qed.

Lemma split_first_Some p s a b : p <> [] -> (split_first p s = Some (a, b) <-> first_inside p s a b).
Proof.
  intro P. revert a b. induction s as [|c s IH]; intros a b; cbn [split_first].
  - destruct (strip_prefix p []) as [r|] eqn:E.
    + apply strip_prefix_Some in E. destruct p; [contradiction|discriminate].
    + split; [discriminate|]. intros [E' _]. destruct a, p; discriminate || contradiction.
  - destruct (strip_prefix p (c :: s)) as [r|] eqn:E.
    + apply strip_prefix_Some in E. split.
      * intro H. injection H as <- <-. split; [exact E|]. intros. cbn. lia.
      * intros [E' M]. specialize (M [] r E). destruct a; [|cbn in M; lia].
        cbn in E'. rewrite E in E'. apply app_inv_head in E'. subst. reflexivity.
    + assert (NP : forall r, c :: s <> p ++ r).
      { intros r H. apply strip_prefix_Some in H. congruence. }
      split.
      * destruct (split_first p s) as [[x y]|] eqn:F; [|discriminate]. intro H. injection H as <- <-.
        destruct (proj1 (IH x y) eq_refl) as [F' M]. split; [rewrite F'; reflexivity|].
        intros [|c' a'] b' E'; [destruct (NP _ E')|]. injection E' as -> E'. cbn.
        specialize (M _ _ E'). lia.
      * intros [E' M]. destruct a as [|c' a]; [destruct (NP _ E')|]. injection E' as <- E'.
        destruct (split_first p s) as [[x y]|] eqn:F.
        -- assert (H : first_inside p s a b).
           { split; [exact E'|]. intros a' b' H. specialize (M (c :: a') b'). cbn in M.
             rewrite H in M. specialize (M eq_refl). lia. }
           apply IH in H. injection H as -> ->. reflexivity.
        -- assert (H : first_inside p s a b).
           { split; [exact E'|]. intros a' b' H. specialize (M (c :: a') b'). cbn in M.
             rewrite H in M. specialize (M eq_refl). lia. }
           apply IH in H. discriminate.
Qed.
Lemma first_exists p s : p <> [] -> inside p s -> exists a b, split_first p s = Some (a, b).
Proof.
  intros P (x & y & ->). induction x as [|c x IH]; cbn [split_first app].
  - destruct p as [|c p]; [contradiction|].
    change (split_first (c :: p) ((c :: p) ++ y)) with
      (match strip_prefix (c :: p) ((c :: p) ++ y) with
       | Some r => Some ([], r)
       | None => match split_first (c :: p) (p ++ y) with Some (a, b) => Some (c :: a, b) | None => None end
       end).
    rewrite strip_prefix_app. eauto.
  - destruct (strip_prefix p (c :: x ++ p ++ y)); [eauto|].
    destruct IH as (a & b & ->). eauto.
Qed.
Lemma split_first_None p s : p <> [] -> (split_first p s = None <-> ~ inside p s).
Proof.
  intro P. split.
  - intros E I. destruct (first_exists p s P I) as (a & b & F). congruence.
  - intro I. destruct (split_first p s) as [[a b]|] eqn:E; [|reflexivity].
    apply split_first_Some in E as [E _]; [|exact P]. destruct I. exists a, b. exact E.
Qed.

Lemma after_last_spec p s : p <> [] ->
  match after_last p s with Some b => after_all p s b | None => ~ inside p s end.
Proof.
  intro P. induction s as [|c s IH]; cbn [after_last].
  - intros (a & b & E). destruct a, p; discriminate || contradiction.
  - destruct (after_last p s) as [r|].
    + destruct IH as (a & E & M). exists (c :: a). split; [rewrite E; reflexivity|].
      intros [|c' a'] b' E'; [cbn; lia|]. injection E' as _ E'. specialize (M _ _ E'). cbn. lia.
    + destruct (strip_prefix p (c :: s)) as [r|] eqn:F.
      * apply strip_prefix_Some in F. exists []. split; [exact F|].
        intros [|c' a'] b' E'; [cbn; lia|]. injection E' as _ E'. destruct IH. exists a', b'. exact E'.
      * intros ([|c' a'] & b' & E').
        -- assert (H : strip_prefix p (c :: s) = Some b') by (apply strip_prefix_Some; exact E'). congruence.
        -- injection E' as _ E'. apply IH. exists a', b'. exact E'.
Qed.
Lemma after_all_unique p s b b' : after_all p s b -> after_all p s b' -> b = b'.
Proof.
  intros (a & E & M) (a' & E' & M'). specialize (M _ _ E'). specialize (M' _ _ E).
  assert (L : List.length a = List.length a') by lia. rewrite E in E'.
  apply (f_equal (skipn (List.length a))) in E'. rewrite L in E' at 2.
  rewrite !skipn_app, !skipn_all, !Nat.sub_diag in E'. cbn [app skipn] in E'. apply app_inv_head in E'. exact E'.
Qed.
Lemma after_last_Some p s b : p <> [] -> (after_last p s = Some b <-> after_all p s b).
Proof.
  intro P. pose proof (after_last_spec p s P) as H. destruct (after_last p s) as [r|]; split; intro K.
  - injection K as <-. exact H.
  - rewrite (after_all_unique _ _ _ _ K H). reflexivity.
  - discriminate.
  - destruct K as (a & E & _). destruct H. exists a, b. exact E.
Qed.
Lemma after_last_None p s : p <> [] -> (after_last p s = None <-> ~ inside p s).
Proof.
  intro P. pose proof (after_last_spec p s P) as H. destruct (after_last p s) as [r|]; split; intro K.
  - discriminate.
  - destruct H as (a & E & _). destruct K. exists a, r. exact E.
  - exact H.
  - reflexivity.
Qed.

(** ** How often *)
Lemma same_letter_lower c d : In d (lit "abcdefghijklmnopqrstuvwxyz") -> (ascii_lower c = d <-> same_letter c d).
Proof.
  intro I. unfold ascii_lower, same_letter.
  destruct (N.leb_spec 65 c) as [A|A]; destruct (N.leb_spec c 90) as [B|B]; cbn [andb];
    split; intro H; try lia.
  destruct H as [->|[_ ->]]; [|reflexivity].
  exfalso. revert B. cbn in I. repeat (destruct I as [<-|I]; [lia|]). destruct I.
Qed.
Lemma lower_name s n : Forall (fun d => In d (lit "abcdefghijklmnopqrstuvwxyz")) n ->
  (map ascii_lower s = n <-> Forall2 same_letter s n).
Proof.
  intro F. revert s. induction F as [|d n D F IH]; intros [|c s]; cbn [map]; split; intro H;
    try discriminate; try (inversion H; fail); try constructor.
  - injection H as H1 H2. apply same_letter_lower; assumption.
  - injection H as H1 H2. apply IH, H2.
  - inversion H; subst. f_equal; [apply same_letter_lower; assumption|apply IH; assumption].
Qed.
Definition letters (n : str) : bool := forallb (fun d => existsb (N.eqb d) (lit "abcdefghijklmnopqrstuvwxyz")) n.
Lemma letters_Forall n : letters n = true -> Forall (fun d => In d (lit "abcdefghijklmnopqrstuvwxyz")) n.
Proof.
  unfold letters. rewrite forallb_forall, Forall_forall. intros H d I. specialize (H d I).
  apply existsb_exists in H as (x & J & E). apply N.eqb_eq in E. subst. exact J.
Qed.
Lemma weekday_iff s w : parse_weekday s = Some w <-> names_day s w.
Proof.
  unfold parse_weekday, names_day.
  assert (K : forall n, letters n = true -> (map ascii_lower s = n <-> Forall2 same_letter s n)).
  { intros n L. apply lower_name, letters_Forall, L. }
  remember (map ascii_lower s) as l eqn:El. clear El. split.
  - intro H. destruct (find _ weekday_names) as [[w' [a b]]|] eqn:F; [|discriminate].
    injection H as <-. apply find_some in F as [I E]. cbn [fst snd] in E. apply orb_true_iff in E.
    rewrite !str_eqb_eq in E. cbn [weekday_names In] in I.
    repeat (destruct I as [I|I];
      [injection I as <- <- <-; destruct E as [E|E];
        (eexists; split; [|apply K; [|exact E]; reflexivity]); cbn; tauto|]). destruct I.
  - intros (n & I & F). assert (L : letters n = true).
    { destruct w; cbn [day_names In] in I; repeat (destruct I as [<-|I]; [reflexivity|]); destruct I. }
    apply (K _ L) in F. subst l. clear K L.
    destruct w; cbn [day_names In] in I; repeat (destruct I as [<-|I]; [reflexivity|]); destruct I.
Qed.
Lemma number_iff s n : parse_day_of_month s = Some n <-> names_number s n.
Proof.
  unfold parse_day_of_month, names_number. change number with digits_val.
  destruct (filter is_digit s) as [|c l]; [split; [discriminate|intros [[] _]; reflexivity]|].
  destruct (Z.ltb_spec (digits_val (c :: l)) (2 ^ 32)).
  - split; [intro H'; injection H' as <-; repeat split; [discriminate|lia]|intros (_ & <- & _); reflexivity].
  - split; [discriminate|intros (_ & <- & L); lia].
Qed.
Lemma names_day_number s w n : names_day s w -> ~ names_number s n.
Proof.
  intros (m & I & F) (D & _). apply D. clear D.
  assert (L : letters m = true).
  { destruct w; cbn [day_names In] in I; repeat (destruct I as [<-|I]; [reflexivity|]); destruct I. }
  apply letters_Forall in L. clear I. induction F as [|c d s m H F IH]; [reflexivity|].
  inversion_clear L. cbn [filter]. rewrite IH by assumption.
  replace (is_digit c) with false; [reflexivity|]. symmetry. unfold is_digit. apply andb_false_iff. right.
  apply N.leb_gt. destruct H as [->|[H ->]]; [|lia]. revert H0. cbn. intro I.
  repeat (destruct I as [<-|I]; [lia|]). destruct I.
Qed.

Lemma frequency_iff s fmt starting f : parse_frequency s fmt starting = Ok f <-> recurs fmt starting s f.
Proof.
  unfold parse_frequency. destruct (strip_prefix (lit "every other ") s) as [what|] eqn:O.
  - apply strip_prefix_Some in O. subst s.
    assert (X : forall t, lit "every other " ++ what = lit "every " ++ t -> t = lit "other " ++ what).
    { intros t H. change (lit "every other ") with (lit "every " ++ lit "other ") in H.
      rewrite <- app_assoc in H. apply app_inv_head in H. auto. }
    split.
    + destruct starting as [d|]; [|discriminate]. destruct (parse_weekday what) as [w|] eqn:W.
      * intro H. injection H as <-. apply weekday_iff in W. eapply recurs_other_week; eauto.
      * destruct (parse_day_of_month what) as [n|] eqn:D; [|discriminate].
        intro H. injection H as <-. apply number_iff in D. eapply recurs_other_month; eauto.
    + intro R. remember (lit "every other " ++ what) as s0 eqn:E1 in R. destruct R as [t w D|t n D Q|d D|t w d D Q|t n d D Q|t d Q D].
      * symmetry in E1. apply X in E1. subst t. destruct D as (m & I & F). exfalso.
        destruct w; cbn [day_names In] in I; repeat (destruct I as [<-|I]; [inversion F as [|? ? ? ? H]; destruct H as [H|[_ H]]; discriminate|]); destruct I.
      * symmetry in E1. apply X in E1. destruct (Q _ E1).
      * discriminate.
      * apply app_inv_head in E1. subst t. apply weekday_iff in D. rewrite Q, D. reflexivity.
      * apply app_inv_head in E1. subst t. rewrite Q. destruct (parse_weekday what) as [w|] eqn:W.
        { apply weekday_iff in W. destruct (names_day_number _ _ _ W D). }
        apply number_iff in D. rewrite D. reflexivity.
      * exfalso. apply (Q (lit "other " ++ what)). exact E1.
  - assert (NO : forall r, s <> lit "every other " ++ r).
    { intros r H. apply strip_prefix_Some in H. congruence. }
    destruct (strip_prefix (lit "every ") s) as [what|] eqn:V.
    + apply strip_prefix_Some in V. subst s. split.
      * destruct (parse_weekday what) as [w|] eqn:W.
        { intro H. injection H as <-. apply weekday_iff in W. constructor. exact W. }
        destruct (parse_day_of_month what) as [n|] eqn:D.
        { intro H. injection H as <-. apply number_iff in D. constructor; [exact D|].
          intros r ->. apply (NO r). reflexivity. }
        destruct (str_eqb_spec what (lit "year")) as [->|_]; [|discriminate].
        destruct starting as [d|]; [|discriminate]. intro H. injection H as <-. apply recurs_year. reflexivity.
      * intro R. remember (lit "every " ++ what) as s0 eqn:E1 in R. destruct R as [t w D|t n D Q|d D|t w d D Q|t n d D Q|t d Q D].
        -- apply app_inv_head in E1. subst t. apply weekday_iff in D. rewrite D. reflexivity.
        -- apply app_inv_head in E1. subst t. destruct (parse_weekday what) as [w|] eqn:W.
           { apply weekday_iff in W. destruct (names_day_number _ _ _ W D). }
           apply number_iff in D. rewrite D. reflexivity.
        -- assert (what = lit "year") as -> by (apply (app_inv_head (lit "every ")); symmetry; exact E1). subst. reflexivity.
        -- destruct (NO t). rewrite <- E1. reflexivity.
        -- destruct (NO t). rewrite <- E1. reflexivity.
        -- destruct (Q what). exact E1.
    + assert (NV : forall r, s <> lit "every " ++ r).
      { intros r H. apply strip_prefix_Some in H. congruence. }
      split.
      * destruct (parse_date s fmt) as [d|] eqn:D; [|discriminate]. intro H. injection H as <-.
        apply recurs_once; assumption.
      * intro R. destruct R as [t w D|t n D Q|d D|t w d D Q|t n d D Q|t d Q D].
        -- destruct (NV t). reflexivity.
        -- destruct (NV t). reflexivity.
        -- destruct (NV (lit "year")). reflexivity.
        -- destruct (NO t). reflexivity.
        -- destruct (NO t). reflexivity.
        -- rewrite D. reflexivity.
Qed.

(** ** The first line *)
Lemma due_iff text fmt starting f :
  extract_frequency text fmt starting = Ok f <-> due_in fmt starting (remove_comments text) f.
Proof.
  unfold extract_frequency, due_in. set (h := remove_comments text).
  destruct (contains (lit "no date") h) eqn:C.
  - apply contains_inside in C. split.
    + intro H. injection H as <-. left. auto.
    + intros [[_ ->]|[N _]]; [reflexivity|contradiction].
  - apply contains_not in C. destruct (after_last (lit " by ") h) as [r|] eqn:B.
    + apply after_last_Some in B; [|discriminate]. rewrite frequency_iff. split.
      * intro R. right. eauto.
      * intros [[I _]|(_ & r' & [A|[N _]] & R)]; [contradiction| |].
        -- rewrite (after_all_unique _ _ _ _ B A). exact R.
        -- destruct B as (a & E & _). destruct N. exists a, r. exact E.
    + assert (N : ~ inside (lit " by ") h) by (apply after_last_None; [discriminate|exact B]).
      destruct (after_last (lit " due ") h) as [r|] eqn:D.
      * apply after_last_Some in D; [|discriminate]. rewrite frequency_iff. split.
        -- intro R. right. split; [exact C|]. exists r. auto.
        -- intros [[I _]|(_ & r' & [A|[_ A]] & R)]; [contradiction| |].
           ++ destruct A as (a & E & _). destruct N. exists a, r'. exact E.
           ++ rewrite (after_all_unique _ _ _ _ D A). exact R.
      * apply after_last_None in D; [|discriminate]. split; [discriminate|].
        intros [[I _]|(_ & r' & [A|[_ A]] & R)]; [contradiction| |]; destruct A as (a & E & _).
        -- destruct N. exists a, r'. exact E.
        -- destruct D. exists a, r'. exact E.
Qed.

Definition header_envelope (account name : str) (kind : envtype) (starting : option date) (f : frequency) : envelope :=
  mkEnvelope name amount_zero kind [] f Manual starting amount_zero amount_zero account epoch.
Lemma envtype_iff s k : parse_envtype s = Ok k <-> s = kind_word k.
Proof.
  unfold parse_envtype. destruct (str_eqb_spec s (lit "expense")) as [->|N1].
  - split; [intro H; injection H as <-; reflexivity|destruct k; [reflexivity|discriminate]].
  - destruct (str_eqb_spec s (lit "goal")) as [->|N2].
    + split; [intro H; injection H as <-; reflexivity|destruct k; [discriminate|reflexivity]].
    + split; [discriminate|destruct k; contradiction].
Qed.
Lemma header_iff h fmt account v :
  envelope_header h fmt account = Ok v <->
  exists kind name starting f, header_says fmt h kind name starting f
    /\ v = header_envelope account name kind starting f.
Proof.
  unfold envelope_header, header_says. split.
  - destruct (split_ws (remove_comments h)) as [|t0 [|t1 more]] eqn:T; try discriminate.
    intro H. apply bind_Ok in H as (kind & K & H). apply envtype_iff in K. subst t0.
    apply bind_Ok in H as (st & St & H). apply bind_Ok in H as (f & F & H). injection H as <-.
    exists kind, t1, (option_map fst st), f. split; [|reflexivity].
    exists more, (match st with Some (_, before) => before | None => h end).
    split; [reflexivity|]. split; [|apply due_iff; exact F].
    unfold extract_starting in St. destruct (split_first (lit " starting ") h) as [[before rest]|] eqn:S.
    + destruct (parse_date rest fmt) as [d|] eqn:D; [|discriminate]. injection St as <-.
      right. exists d, rest. apply split_first_Some in S; [|discriminate]. auto.
    + injection St as <-. left. apply split_first_None in S; [|discriminate]. auto.
  - intros (kind & name & starting & f & (more & before & T & S & F) & ->).
    rewrite T. rewrite (proj2 (envtype_iff _ kind) eq_refl). cbn [bind].
    apply due_iff in F. unfold extract_starting.
    destruct S as [(-> & S & ->)|(d & t & -> & S & D)].
    + apply split_first_None in S; [|discriminate]. rewrite S. cbn [bind option_map].
      rewrite F. reflexivity.
    + apply split_first_Some in S; [|discriminate]. rewrite S, D. cbn [bind option_map fst].
      rewrite F. reflexivity.
Qed.

(** ** The other lines *)
Definition apply_setting (v : envelope) (s : setting) : envelope :=
  match s with
  | For a => add_env_auto v a
  | Target a => set_env_amount v a
  | Funded f => set_env_funding v f
  end.
Lemma trim_one s a : split_ws s = [a] <-> (trim s = a /\ is_token a).
Proof.
  split.
  - intro H. apply split_ws_cons in H as (w & r & -> & W & T & _ & R). apply split_ws_nil in R.
    split; [|exact T]. apply trim_wrap; [exact W|exact R|apply trimmed_token, T].
  - intros [E T]. rewrite <- split_ws_trim, E. apply split_ws_one, T.
Qed.
Lemma funding_iff s f : parse_funding s = Ok f <-> split_ws s = [funding_word f].
Proof.
  rewrite trim_one. unfold parse_funding. cbv zeta.
  assert (T : is_token (funding_word f)) by (split; [destruct f; discriminate|destruct f; reflexivity]).
  destruct (str_eqb_spec (trim s) (lit "manual")) as [E|N1].
  { rewrite E. split; [intro H; injection H as <-; auto|]. intros [H _]. destruct f; [reflexivity|discriminate|discriminate]. }
  destruct (str_eqb_spec (trim s) (lit "aggressive")) as [E|N2].
  { rewrite E. split; [intro H; injection H as <-; auto|]. intros [H _]. destruct f; [discriminate|discriminate|reflexivity]. }
  destruct (str_eqb_spec (trim s) (lit "conservative")) as [E|N3].
  { rewrite E. split; [intro H; injection H as <-; auto|]. intros [H _]. destruct f; [discriminate|reflexivity|discriminate]. }
  split; [discriminate|]. intros [H _]. destruct f; contradiction.
Qed.
Lemma parse_amount_space value dsym a : parse_amount (32%N :: value) dsym = Ok a <-> parse_amount value dsym = Ok a.
Proof.
  unfold parse_amount. replace (replace (lit "--") [] (32%N :: value)) with (32%N :: replace (lit "--") [] value) by reflexivity.
  replace (split_ws (32%N :: replace (lit "--") [] value)) with (split_ws (replace (lit "--") [] value)) by reflexivity.
  assert (G : forall t t' clump, (let raw_mag := filter (is_mag_char dsym) clump in
      let raw_mag := if N.eqb dsym (chr ".") then raw_mag else replace_char dsym (chr ".") raw_mag in
      match parse_f64 raw_mag with
      | None => Err (EParse (AmountMag t))
      | Some m => let sym := trim (filter (is_symbol_char dsym) clump) in
                  Ok (mkAmount m (match sym with [] => None | _ => Some sym end))
      end = Ok a) <-> (let raw_mag := filter (is_mag_char dsym) clump in
      let raw_mag := if N.eqb dsym (chr ".") then raw_mag else replace_char dsym (chr ".") raw_mag in
      match parse_f64 raw_mag with
      | None => Err (EParse (AmountMag t'))
      | Some m => let sym := trim (filter (is_symbol_char dsym) clump) in
                  Ok (mkAmount m (match sym with [] => None | _ => Some sym end))
      end = Ok a)).
  { intros t t' clump. cbv zeta. destruct (parse_f64 _); [tauto|]. split; discriminate. }
  cbv zeta. destruct (split_ws (replace (lit "--") [] value)) as [|x [|y [|z l]]]; try apply G; split; discriminate.
Qed.
Lemma split_ws_space value : split_ws (32%N :: value) = split_ws value.
Proof. reflexivity. Qed.

Lemma first_two t key value : trimmed t -> t = key ++ 32%N :: value -> exists a b l, split_ws t = a :: b :: l.
Proof.
  intros [A B] ->.
  assert (K : ~ all_ws key).
  { intro W. destruct key as [|c key]; [discriminate A|]. apply all_ws_cons in W as [W _]. cbn in A. congruence. }
  assert (V : ~ all_ws value).
  { intro W. rewrite rev_app_distr in B. cbn [rev] in B. rewrite <- app_assoc in B.
    destruct (rev value) as [|c r] eqn:E; cbn [app] in B; [discriminate B|].
    apply all_ws_rev in W. rewrite E in W. apply all_ws_cons in W as [W _]. congruence. }
  rewrite split_ws_app_ws by reflexivity. rewrite split_ws_space.
  destruct (split_ws key) as [|a l] eqn:E1; [apply split_ws_nil in E1; contradiction|].
  destruct (split_ws value) as [|b m] eqn:E2; [apply split_ws_nil in E2; contradiction|].
  destruct l as [|x l]; cbn [app]; eauto.
Qed.

Lemma find_cut c s : match find_char c s with
  | Some i => s = firstn i s ++ c :: skipn (S i) s /\ ~ In c (firstn i s) /\ skipn i s = c :: skipn (S i) s
  | None => ~ In c s end.
Proof.
  induction s as [|a s IH]; cbn [find_char]; [easy|].
  destruct (N.eqb_spec a c) as [->|Na]; [cbn; auto|].
  destruct (find_char c s) as [i|]; cbn [option_map].
  - destruct IH as (E & I & K). change (skipn (S (S i)) (a :: s)) with (skipn (S i) s). change (skipn (S i) (a :: s)) with (skipn i s).
    split; [cbn [firstn app]; f_equal; exact E|].
    split; [|exact K]. cbn [firstn]. intros [H|H]; [congruence|contradiction].
  - intros [H|H]; [congruence|contradiction].
Qed.

Lemma line_iff dsym v line w :
  add_body_line dsym v line = Ok w <-> exists s, line_says dsym line s /\ w = apply_setting v s.
Proof.
  unfold add_body_line, line_says. cbv zeta. set (t := trim (remove_comments line)).
  rewrite <- (split_ws_trim (remove_comments line)). fold t.
  assert (Tt : trimmed t) by (unfold t; destruct (trim_spec (remove_comments line)) as (? & ? & _ & _ & _ & T); exact T).
  pose proof (find_cut 32%N t) as C. change (chr " ") with 32%N.
  destruct (find_char 32%N t) as [i|].
  - destruct C as (E & I & K). rewrite K.
    destruct (first_two t _ _ Tt E) as (a & b & l & S). rewrite S. set (value := skipn (Datatypes.S i) t) in *.
    assert (U : forall key value', t = key ++ 32%N :: value' -> ~ In 32%N key -> value' = value).
    { intros key value' E' I'.
      assert (F1 := find_char_app 32%N key value' I'). rewrite <- E' in F1.
      assert (F2 := find_char_app 32%N _ value I). rewrite <- E in F2. rewrite F1 in F2. injection F2 as F2.
      rewrite E in E' at 1. apply (f_equal (skipn (List.length key))) in E'.
      rewrite F2 in E' at 1. rewrite !skipn_app, !skipn_all, !Nat.sub_diag in E'. cbn [app skipn] in E'. injection E' as E'. auto. }
    split.
    + intro H. destruct (str_eqb_spec a (lit "for")) as [->|N1].
      { rewrite split_ws_space in H. destruct (split_ws value) as [|x [|y m]] eqn:V; try discriminate.
        injection H as <-. exists (For x). cbn [apply_setting]. split.
        - exists (firstn i t), value. auto.
        - assert (X : trim (32%N :: value) = x); [|rewrite X; reflexivity].
          apply trim_one. rewrite split_ws_space. exact V. }
      destruct (str_eqb_spec a (lit "amount")) as [->|N2].
      { apply bind_Ok in H as (x & P & H). apply (proj1 (parse_amount_space _ _ _)) in P. injection H as <-.
        exists (Target x). split; [|reflexivity]. exists (firstn i t), value. auto. }
      destruct (str_eqb_spec a (lit "funding")) as [->|N3]; [|discriminate].
      apply bind_Ok in H as (x & P & H). injection H as <-. apply funding_iff in P. rewrite split_ws_space in P.
      exists (Funded x). split; [|reflexivity]. exists (firstn i t), value. auto.
    + intros (s & (key & value' & E' & I' & W & R) & ->). apply U in E'; [|exact I']. subst value'.
      injection W as ->. destruct s as [x|x|x]; cbn [setting_word apply_setting].
      * rewrite str_eqb_refl, split_ws_space, R.
        assert (X : trim (32%N :: value) = x); [|rewrite X; reflexivity].
        apply trim_one. rewrite split_ws_space. exact R.
      * change (str_eqb (lit "amount") (lit "for")) with false. cbv iota. rewrite str_eqb_refl, (proj2 (parse_amount_space _ _ _) R). reflexivity.
      * change (str_eqb (lit "funding") (lit "for")) with false. change (str_eqb (lit "funding") (lit "amount")) with false.
        cbv iota. rewrite str_eqb_refl.
        assert (X : parse_funding (32%N :: value) = Ok x) by (apply funding_iff; rewrite split_ws_space; exact R).
        rewrite X. reflexivity.
  - split; [destruct (split_ws t); discriminate|].
    intros (s & (key & value' & E' & I' & W & R) & ->). destruct C. rewrite E'. apply in_or_app. right. left. reflexivity.
Qed.

Lemma body_iff dsym ls : forall v w, fold_res (add_body_line dsym) ls v = Ok w <->
  exists ss, Forall2 (line_says dsym) ls ss /\ w = fold_left apply_setting ss v.
Proof.
  induction ls as [|l ls IH]; intros v w; cbn [fold_res].
  - split.
    + intro H. injection H as <-. exists []. auto.
    + intros (ss & F & ->). inversion F. reflexivity.
  - rewrite bind_Ok. split.
    + intros (u & H & K). apply line_iff in H as (s & L & ->). apply IH in K as (ss & F & ->).
      exists (s :: ss). auto.
    + intros (ss & F & ->). inversion F as [|? s ? ss' L F']; subst.
      exists (apply_setting v s). split; [apply line_iff; eauto|]. apply IH. eauto.
Qed.

Lemma settings_fields ss : forall v, let w := fold_left apply_setting ss v in
  v_name w = v_name v /\ v_type w = v_type v /\ v_account w = v_account v
  /\ v_starting w = v_starting v /\ v_freq w = v_freq v /\ v_last w = v_last v
  /\ v_amount w = fold_left (fun a s => match s with Target b => b | _ => a end) ss (v_amount v)
  /\ v_funding w = fold_left (fun f s => match s with Funded g => g | _ => f end) ss (v_funding v)
  /\ (NoDup (v_auto v) -> NoDup (v_auto w))
  /\ (forall a, In a (v_auto w) <-> In a (v_auto v) \/ In (For a) ss)
  /\ (v_next v = mkAmount fzero (symbol (v_amount v)) -> v_next w = mkAmount fzero (symbol (v_amount w)))
  /\ (v_now v = mkAmount fzero (symbol (v_amount v)) -> v_now w = mkAmount fzero (symbol (v_amount w))).
Proof.
  induction ss as [|s ss IH]; intro v; cbn [fold_left].
  - cbn. repeat split; auto. intros [H|[]]. exact H.
  - specialize (IH (apply_setting v s)). cbv zeta in IH |- *.
    destruct IH as (A1 & A2 & A3 & A4 & A5 & A6 & A7 & A8 & A9 & A10 & A11 & A12).
    rewrite A1, A2, A3, A4, A5, A6, A7, A8.
    split; [destruct s; reflexivity|]. split; [destruct s; reflexivity|]. split; [destruct s; reflexivity|].
    split; [destruct s; reflexivity|]. split; [destruct s; reflexivity|]. split; [destruct s; reflexivity|].
    split; [destruct s; reflexivity|]. split; [destruct s; reflexivity|].
    split.
    { intro N. apply A9. destruct s; cbn [apply_setting add_env_auto set_env_amount set_env_funding v_auto]; auto.
      apply set_insert_NoDup, N. }
    split.
    { intro a. rewrite A10. destruct s as [x|x|x]; cbn [apply_setting add_env_auto set_env_amount set_env_funding v_auto In].
      - rewrite set_insert_In. split.
        + intros [[->|H]|H]; auto.
        + intros [H|[H|H]]; auto. injection H as ->. auto.
      - split; [tauto|]. intros [H|[H|H]]; [tauto|discriminate|tauto].
      - split; [tauto|]. intros [H|[H|H]]; [tauto|discriminate|tauto]. }
    rewrite A7 in A11, A12. split.
    + intro H. apply A11. destruct s; cbn; rewrite H; reflexivity.
    + intro H. apply A12. destruct s; cbn; rewrite H; reflexivity.
Qed.

(** Joining the lines and splitting them again only takes away carriage returns. *)
Lemma body_line_cr dsym v l : add_body_line dsym v (strip_cr l) = add_body_line dsym v l.
Proof.
  assert (E : trim (remove_comments (strip_cr l)) = trim (remove_comments l)); [|unfold add_body_line; rewrite E; reflexivity].
  destruct (strip_cr_spec l) as [E|E]; [rewrite E; reflexivity|]. set (s := strip_cr l) in *. rewrite E. clear E.
  destruct (remove_comments_spec s) as (rest & E & M & K). destruct K as [->|K].
  - rewrite app_nil_r in E. assert (U : markfree s = true) by (rewrite E; apply markfree_remove_comments).
    rewrite <- E. rewrite remove_comments_markfree.
    + unfold trim. destruct (trim_start_spec s) as (w & Es & W & _).
      destruct (trim_start s) as [|c r] eqn:T.
      * rewrite app_nil_r in Es. rewrite Es. rewrite trim_start_ws by exact W. reflexivity.
      * assert (X : trim_start (s ++ [13%N]) = (c :: r) ++ [13%N]).
        { rewrite Es, <- app_assoc, trim_start_ws by exact W. cbn [app trim_start].
          destruct (trim_start_spec s) as (w' & _ & _ & H). rewrite T in H. rewrite H. reflexivity. }
        rewrite X, trim_end_ws by reflexivity. reflexivity.
    + apply markfree_app; [exact U|reflexivity|discriminate].
  - f_equal. symmetry. apply remove_comments_iff. exists (rest ++ [13%N]).
    split; [rewrite app_assoc, <- E; reflexivity|]. split; [|right; apply mark_at_app_l, K].
    intros i L. rewrite skipn_app_l by (rewrite E, app_length; lia). intro H. apply (M i L).
    assert (Z : (2 <= List.length (skipn i s))%nat).
    { rewrite skipn_length, E, app_length. destruct rest; [destruct K as [[? K]|[? K]]; discriminate|]. cbn. lia. }
    destruct (skipn i s) as [|a [|b t]]; [cbn in Z; lia|cbn in Z; lia|].
    destruct H as [[r H]|[r H]]; cbn in H.
    + injection H as -> _. left. eauto.
    + injection H as -> -> _. right. eauto.
Qed.

Definition no_nl (l : str) : Prop := ~ In 10%N l.
Lemma lines_join dsym body : forall v, Forall no_nl body -> List.last body [1%N] <> [] ->
  fold_res (add_body_line dsym) (lines (join [10%N] body)) v = fold_res (add_body_line dsym) body v.
Proof.
  induction body as [|l body IH]; intros v F N; [reflexivity|].
  inversion_clear F as [|? ? Fl Fb]. destruct body as [|m body].
  - cbn [join]. cbn in N. rewrite lines_one by assumption. reflexivity.
  - change (join [10%N] (l :: m :: body)) with (l ++ 10%N :: join [10%N] (m :: body)).
    rewrite lines_app by exact Fl. cbn [fold_res]. rewrite body_line_cr.
    destruct (add_body_line dsym v l) as [u| | |]; cbn [bind]; try reflexivity.
    apply IH; [exact Fb|exact N].
Qed.
Lemma strip_cr_no_nl l : no_nl l -> no_nl (strip_cr l).
Proof.
  unfold no_nl. destruct (strip_cr_spec l) as [->|E]; [auto|]. intros H I. apply H. rewrite E. apply in_or_app. auto.
Qed.
Lemma lines_no_nl s : Forall no_nl (lines s).
Proof.
  remember (List.length s) as n eqn:En. revert s En. induction n as [n IH] using (well_founded_induction Wf_nat.lt_wf).
  intros s ->. destruct (newline_cut s) as [H|(a & b & -> & H)].
  - destruct s as [|c s]; [constructor|]. rewrite lines_one; [|exact H|discriminate]. repeat constructor. exact H.
  - rewrite lines_app by exact H. constructor; [apply strip_cr_no_nl, H|].
    eapply IH; [|reflexivity]. rewrite app_length. cbn. lia.
Qed.
Lemma last_app {A} (a b : list A) d : b <> [] -> List.last (a ++ b) d = List.last b d.
Proof.
  intro N. induction a as [|x a IH]; [reflexivity|]. cbn [app]. rewrite <- IH.
  destruct a as [|y a]; [destruct b; [contradiction|reflexivity]|reflexivity].
Qed.
Lemma lines_last s : List.last s 0%N <> 10%N -> s <> [] -> List.last (lines s) [1%N] <> [].
Proof.
  remember (List.length s) as n eqn:En. revert s En. induction n as [n IH] using (well_founded_induction Wf_nat.lt_wf).
  intros s -> L N. destruct (newline_cut s) as [H|(a & b & -> & H)].
  - rewrite lines_one by assumption. exact N.
  - rewrite lines_app by exact H.
    destruct b as [|c b]; [exfalso; apply L; apply last_last|].
    assert (K : List.last (lines (c :: b)) [1%N] <> []).
    { eapply IH; [|reflexivity| |discriminate]; [rewrite app_length; cbn; lia|].
      intro Hc. apply L. rewrite last_app by discriminate. exact Hc. }
    destruct (lines (c :: b)) as [|x l] eqn:E; [|exact K].
    exfalso. unfold lines in E. destruct (split_on 10 (c :: b)) as [|p ps] eqn:E2; [destruct (split_on_nonempty _ _ E2)|].
    destruct ps; [|discriminate]. cbn in E. destruct p; [|discriminate].
    cbn [split_on] in E2. destruct (N.eqb c 10); [injection E2 as E2; destruct (split_on_nonempty _ _ E2)|].
    destruct (split_on 10 b); discriminate.
Qed.
Lemma trim_last s : List.last (trim s) 0%N <> 10%N.
Proof.
  destruct (trim_spec s) as (w1 & w2 & _ & _ & _ & _ & T). destruct (trim s) as [|c r] eqn:E; [discriminate|].
  destruct (exists_last (l := c :: r)) as (l & x & El); [discriminate|]. rewrite El in T |- *.
  rewrite last_last. rewrite rev_app_distr in T. cbn in T. intros ->. discriminate.
Qed.
Lemma parse_envelope_body chunk account dsym fmt h body : lines (trim chunk) = h :: body ->
  parse_envelope chunk account dsym fmt =
  bind (envelope_header h fmt account) (fun v => fold_res (add_body_line dsym) body v).
Proof.
  intro E. unfold parse_envelope. rewrite E.
  destruct (envelope_header h fmt account) as [v| | |]; cbn [bind]; try reflexivity.
  apply lines_join.
  - pose proof (lines_no_nl (trim chunk)) as F. rewrite E in F. inversion F. assumption.
  - destruct body as [|m body]; [discriminate|].
    assert (T : trim chunk <> []) by (intro T; rewrite T in E; discriminate).
    pose proof (lines_last _ (trim_last chunk) T) as L. rewrite E in L. exact L.
Qed.

Lemma described_fields account name kind starting f ss :
  described account name kind starting f ss (fold_left apply_setting ss (header_envelope account name kind starting f)).
Proof.
  pose proof (settings_fields ss (header_envelope account name kind starting f)) as H. cbv zeta in H.
  destruct H as (A1 & A2 & A3 & A4 & A5 & A6 & A7 & A8 & A9 & A10 & A11 & A12).
  unfold described. rewrite A1, A2, A3, A4, A5, A6, A7, A8.
  cbn [header_envelope v_name v_type v_account v_starting v_freq v_last v_amount v_funding v_auto v_next v_now] in *.
  rewrite A7 in A11, A12.
  repeat split; auto.
  - apply A9. constructor.
  - intro H. apply A10 in H as [[]|H]. exact H.
  - intro H. apply A10. auto.
Qed.
Lemma envelope_reads chunk account dsym fmt h body kind name starting f ss :
  lines (trim chunk) = h :: body -> header_says fmt h kind name starting f -> Forall2 (line_says dsym) body ss ->
  exists v, parse_envelope chunk account dsym fmt = Ok v /\ described account name kind starting f ss v.
Proof.
  intros E H B. rewrite (parse_envelope_body _ _ _ _ _ _ E).
  assert (HH : envelope_header h fmt account = Ok (header_envelope account name kind starting f)).
  { apply header_iff. eauto 10. }
  rewrite HH. cbn [bind]. eexists. split; [apply body_iff; eauto|]. apply described_fields.
Qed.
Lemma envelope_only chunk account dsym fmt v : parse_envelope chunk account dsym fmt = Ok v ->
  exists h body kind name starting f ss, lines (trim chunk) = h :: body
    /\ header_says fmt h kind name starting f /\ Forall2 (line_says dsym) body ss
    /\ described account name kind starting f ss v.
Proof.
  intro P. destruct (lines (trim chunk)) as [|h body] eqn:E; [unfold parse_envelope in P; rewrite E in P; discriminate|].
  rewrite (parse_envelope_body _ _ _ _ _ _ E) in P. apply bind_Ok in P as (u & H & B).
  apply header_iff in H as (kind & name & starting & f & H & ->). apply body_iff in B as (ss & F & ->).
  exists h, body, kind, name, starting, f, ss. repeat (split; [solve [auto]|]). apply described_fields.
Qed.

(** ** Crashes *)
Lemma line_panic dsym v line : add_body_line dsym v line = Panic <-> all_ws (remove_comments line).
Proof.
  rewrite <- split_ws_nil, <- split_ws_trim. unfold add_body_line.
  destruct (split_ws (trim (remove_comments line))) as [|key more]; [tauto|].
  split; [|discriminate]. intro H. exfalso. revert H.
  destruct (find_char _ _); [|discriminate]. destruct more; [discriminate|].
  destruct (str_eqb key (lit "for")); [destruct (split_ws _) as [|? [|? ?]]; discriminate|].
  destruct (str_eqb key (lit "amount")).
  { match goal with |- context [parse_amount ?s ?d] => pose proof (EntryFacts.parse_amount_total s d) as [P _] end.
    destruct (parse_amount _ _); try discriminate. contradiction. }
  destruct (str_eqb key (lit "funding")); [|discriminate].
  unfold parse_funding. repeat (match goal with |- context [if ?b then _ else _] => destruct b end); discriminate.
Qed.
Lemma header_panic h fmt account : envelope_header h fmt account <> Panic.
Proof.
  unfold envelope_header. destruct (split_ws _) as [|t0 [|t1 more]]; try discriminate.
  unfold parse_envtype. destruct (str_eqb t0 _); [|destruct (str_eqb t0 _)]; cbn [bind]; try discriminate;
  unfold extract_starting; destruct (split_first _ h) as [[a b]|]; cbn [bind]; try (destruct (parse_date b fmt)); cbn [bind]; try discriminate;
  match goal with |- context [extract_frequency ?x ?y ?z] => assert (E : extract_frequency x y z <> Panic);
    [|destruct (extract_frequency x y z); try discriminate; exact (fun _ => E eq_refl)] end;
  unfold extract_frequency; destruct (contains _ _); try discriminate;
  assert (F : forall s st, parse_frequency s fmt st <> Panic) by
   (intros s st; unfold parse_frequency;
    repeat (match goal with |- context [match ?x with _ => _ end] => destruct x end); discriminate);
  destruct (after_last _ _); try apply F; destruct (after_last _ _); try apply F; discriminate.
Qed.
Lemma body_panic dsym ls : forall v, fold_res (add_body_line dsym) ls v = Panic <->
  exists pre b post ss, ls = pre ++ b :: post /\ Forall2 (line_says dsym) pre ss /\ all_ws (remove_comments b).
Proof.
  induction ls as [|l ls IH]; intro v; cbn [fold_res].
  - split; [discriminate|]. intros ([|? ?] & ? & ? & ? & H & _); discriminate.
  - split.
    + intro H. destruct (add_body_line dsym v l) as [u| | |] eqn:E; cbn [bind] in H; try discriminate.
      * apply line_iff in E as (s & L & ->). apply IH in H as (pre & b & post & ss & -> & F & B).
        exists (l :: pre), b, post, (s :: ss). auto.
      * apply line_panic in E. exists [], l, ls, []. auto.
    + intros (pre & b & post & ss & E & F & B). destruct F as [|x s pre ss L F]; cbn [app] in E; injection E as -> ->.
      * apply line_panic with (dsym := dsym) (v := v) in B. rewrite B. reflexivity.
      * assert (K : add_body_line dsym v x = Ok (apply_setting v s)) by (apply line_iff; eauto).
        rewrite K. cbn [bind]. apply IH. eauto 10.
Qed.
Lemma envelope_crash chunk account dsym fmt : parse_envelope chunk account dsym fmt = Panic <->
  exists h pre b post kind name starting f ss, lines (trim chunk) = h :: pre ++ b :: post
    /\ header_says fmt h kind name starting f /\ Forall2 (line_says dsym) pre ss /\ all_ws (remove_comments b).
Proof.
  destruct (lines (trim chunk)) as [|h body] eqn:E.
  - unfold parse_envelope. rewrite E. split; [discriminate|]. intros (h & pre & b & post & kind & name & st & f & ss & H & _). discriminate.
  - rewrite (parse_envelope_body _ _ _ _ _ _ E). split.
    + intro H. destruct (envelope_header h fmt account) as [v| | |] eqn:Hd; cbn [bind] in H; try discriminate.
      * apply header_iff in Hd as (kind & name & st & f & Hd & ->). apply body_panic in H as (pre & b & post & ss & -> & F & B).
        exists h, pre, b, post, kind, name, st, f, ss. auto.
      * destruct (header_panic _ _ _ Hd).
    + intros (h' & pre & b & post & kind & name & st & f & ss & E' & Hd & F & B). injection E' as <- ->.
      assert (K : envelope_header h fmt account = Ok (header_envelope account name kind st f)) by (apply header_iff; eauto 10).
      rewrite K. cbn [bind]. apply body_panic. eauto 10.
Qed.
