(** Reading dates with a time of day (C109). *)
From Coq Require Import ZArith NArith List Bool String Lia.
From Verif Require Import Base Str StrFacts F64 F64Text Date SpecDate DateFacts WeekFacts DateFormat SpecTime.
Import ListNotations.
Local Open Scope Z_scope.

(** ** Formats *)
Definition titem (q : tpiece) : fitem :=
  match q with
  | TDate p => item_of p
  | TClock k => FClock k | THalf => FHalf | TFraction => FFraction | TDigits n => FDigits n
  | TZoneName => FZoneName | TOffset z => FOffset z | TBreak => FBreak
  end.
Lemma drop_app w s : drop (List.length w) (w ++ s) = s.
Proof. induction w as [|c w IH]; [destruct s; reflexivity|exact IH]. Qed.
Lemma format_items_wide k w is s : pad_of k = None -> wide_spec k (w ++ s) = Some (is, List.length w) ->
  format_items (lit "%" ++ (k :: w) ++ s) = is ++ format_items s.
Proof. intros P W. change (lit "%" ++ (k :: w) ++ s) with (37%N :: k :: w ++ s). cbn [format_items]. change (N.eqb 37 (chr "%")) with true. cbn match. rewrite P, W, drop_app. reflexivity. Qed.
Lemma format_items_timed fmt ps : timed fmt ps -> format_items fmt = map titem ps.
Proof.
  induction 1 as [|c s ps N W IH|k qs s ps I W IH|k qs s ps I W IH|f p k n s ps If Ik W IH|f p k n s ps If Ik W IH].
  - reflexivity.
  - rewrite format_items_cons by exact N. rewrite IH. reflexivity.
  - rewrite map_app, <- IH, map_map. change (map (fun q => titem (TDate q)) qs) with (map item_of qs). unfold others in I.
    repeat (destruct I as [I|I]; [injection I as <- <-; reflexivity|]). destruct I.
  - rewrite map_app, <- IH. unfold time_specs in I. cbn [map clocks app fst snd] in I.
    repeat (destruct I as [I|I]; [injection I as <- <-; first [reflexivity|eapply (format_items_wide _ _ _ s); reflexivity]|]). destruct I.
  - cbn [map]. rewrite <- IH. unfold paddings in If. unfold numbers in Ik.
    repeat (destruct If as [If|If]; [injection If as <- <-;
      repeat (destruct Ik as [Ik|Ik]; [injection Ik as <- <-; reflexivity|]); destruct Ik|]). destruct If.
  - cbn [map]. rewrite <- IH. unfold paddings in If. unfold clocks in Ik.
    repeat (destruct If as [If|If]; [injection If as <- <-;
      repeat (destruct Ik as [Ik|Ik]; [injection Ik as <- <-; reflexivity|]); destruct Ik|]). destruct If.
Qed.

(** ** Reading *)
Definition time_field (t : time) (a : field) : Z :=
  match a with
  | AHalf => t_hour t / 12 | AHour => t_hour t mod 12 | AMinute => t_minute t | ASecond => t_second t
  | ANano => t_nano t | AStamp => t_stamp t | AOffset => 60 * t_offset t
  | _ => 0
  end.
Lemma scan_num_wide W w p v r : (0 < w)%nat -> 0 <= v < 10 ^ Z.of_nat w -> v < 2 ^ 63 ->
  (W = w /\ p = ZeroPad) \/ (((w <= W)%nat \/ (List.length (trim_start (number_text w p v ++ r)) <= W)%nat) /\ ~ starts_digit r) ->
  scan_num false W (number_text w p v ++ r) = Some (v, r).
Proof.
  intros W0 V V63 H. destruct (number_shape w p v) as (k & ds & E & D & Nd & Ev & L & Lz & _); [lia|exact V|].
  rewrite E in *. unfold scan_num. rewrite <- app_assoc in *.
  assert (Ws : all_ws (repeat 32%N k)) by (clear; induction k as [|k IH]; [reflexivity|apply all_ws_cons; split; [reflexivity|exact IH]]).
  rewrite trim_start_ws in * by exact Ws.
  destruct ds as [|c ds]; [contradiction|].
  assert (Hc := D). apply andb_true_iff in Hc. destruct Hc as [Hc _].
  cbn [app trim_start] in *. rewrite (digit_not_ws c Hc) in *. apply is_digit_range in Hc. cbn [andb].
  change (c :: ds ++ r) with ((c :: ds) ++ r) in *.
  rewrite take_digits_app; [|exact D| |].
  - rewrite Ev, (proj2 (Z.ltb_lt v _)) by exact V63. reflexivity.
  - destruct H as [[-> _]|[[H|H] _]]; [exact L|lia|rewrite app_length in H; lia].
  - destruct H as [[-> H]|[_ H]]; [left; apply Lz, H|right; exact H].
Qed.

Definition of_time (a : field) : bool :=
  match a with AHalf | AHour | AMinute | ASecond | ANano | AStamp | AOffset => true | _ => false end.
Section Said.
Variables (x : date) (t : time).
Hypothesis Y : 0 <= year x < 10000.
Hypothesis Tm : time_of_day t.
Notation agrees := (agrees (time_field t) x).

(** An item of the time is read, and the rest [r] is left. *)
Definition step (i : fitem) (s : str) (r : str) : Prop :=
  forall p, agrees p -> exists r' p', parse_item i s p = Some (r', p') /\ (r' = r \/ r' = trim_start r)
    /\ agrees p' /\ (forall b, p b <> None -> p' b <> None) /\ (forall b, of_time b = false -> p' b = p b).
Lemma set_time p a : agrees p -> of_time a = true ->
  exists q, set_field p a (time_field t a) = Some q /\ agrees q
    /\ (forall b, p b <> None -> q b <> None) /\ (forall b, of_time b = false -> q b = p b).
Proof.
  intros A T. destruct (set_agrees (time_field t) x p a A) as (q & E & Aq & _ & M & O); [destruct a; try discriminate T; exact I|].
  exists q. split; [destruct a; try discriminate T; exact E|]. split; [exact Aq|]. split; [exact M|].
  intros b Hb. apply O. intros ->. congruence.
Qed.
Lemma step_set i s r a : of_time a = true ->
  (forall p, parse_item i s p = option_map (fun q => (r, q)) (set_field p a (time_field t a))) -> step i s r.
Proof.
  intros T H p A. destruct (set_time p a A T) as (q & E & Aq & M & O). exists r, q. rewrite H, E. cbn [option_map]. auto 6.
Qed.
Lemma clock_fields_ok k : exists l, clock_fields k (clock_value t k) = Some l
  /\ Forall (fun av => of_time (fst av) = true /\ snd av = time_field t (fst av)) l.
Proof.
  destruct Tm as (H1 & H2 & H3 & H4 & H5 & H6). unfold clock_fields, clock_value.
  assert (M12 := Z.mod_pos_bound (t_hour t) 12 eq_refl).
  assert (B : forall v a b l, a <= v <= b -> (if (a <=? v) && (v <=? b) then Some l else None) = Some (l : list (field * Z))).
  { intros v a b l H. rewrite (proj2 (Z.leb_le a v)), (proj2 (Z.leb_le v b)) by lia. reflexivity. }
  assert (B0 : forall v b l, v <= b -> (if v <=? b then Some l else None) = Some (l : list (field * Z))).
  { intros v b l H. rewrite (proj2 (Z.leb_le v b)) by lia. reflexivity. }
  destruct k; rewrite ?B, ?B0 by first [lia|destruct (Z.eqb_spec (t_hour t mod 12) 0); lia];
    (eexists; split; [reflexivity|]); repeat constructor.
  cbn [snd fst time_field]. destruct (Z.eqb_spec (t_hour t mod 12) 0) as [->|N]; [reflexivity|]. apply Z.mod_small. lia.
Qed.
Lemma set_times p l : agrees p -> Forall (fun av => of_time (fst av) = true /\ snd av = time_field t (fst av)) l ->
  exists q, set_fields p l = Some q /\ agrees q
    /\ (forall b, p b <> None -> q b <> None) /\ (forall b, of_time b = false -> q b = p b).
Proof.
  intros A F. revert p A. induction F as [|[a v] l [T E] F IH]; intros p A.
  - exists p. cbn. auto.
  - cbn [fst snd] in *. subst v. cbn [set_fields]. destruct (set_time p a A T) as (q & E & Aq & M & O). rewrite E.
    destruct (IH q Aq) as (q' & E' & Aq' & M' & O'). exists q'. split; [exact E'|]. split; [exact Aq'|]. split; [auto|].
    intros b Hb. rewrite O', O by exact Hb. reflexivity.
Qed.
Lemma clock_bounds k : 0 <= clock_value t k < 10 ^ Z.of_nat (clock_places k) /\ clock_value t k < 2 ^ 63.
Proof.
  destruct Tm as (H1 & H2 & H3 & H4 & H5 & H6). unfold clock_value.
  assert (M12 := Z.mod_pos_bound (t_hour t) 12 eq_refl).
  destruct k; cbn [clock_places]; try (destruct (t_hour t mod 12 =? 0)); change (10 ^ Z.of_nat 2) with 100;
    change (10 ^ Z.of_nat 9) with (10 ^ 9); change (10 ^ Z.of_nat 19) with (10 ^ 19); lia.
Qed.
Lemma step_clock k f r s : (f = ZeroPad /\ k <> KStamp) \/ ~ starts_digit r ->
  s = number_text (clock_places k) f (clock_value t k) ++ r \/ s = trim_start (number_text (clock_places k) f (clock_value t k) ++ r) ->
  step (FClock k) s r.
Proof.
  intros H Hs p A. destruct (clock_bounds k) as [B B63].
  assert (Hk : (0 < clock_places k)%nat) by (destruct k; cbn; lia).
  assert (E : scan_num false (clock_width k s) s = Some (clock_value t k, r)).
  { transitivity (scan_num false (clock_width k s) (number_text (clock_places k) f (clock_value t k) ++ r)).
    - destruct Hs as [->| ->]; [reflexivity|]. apply scan_num_trim.
    - apply scan_num_wide; [exact Hk|exact B|exact B63|].
      destruct H as [[-> Nk]|H]; [left; split; [destruct k; try reflexivity; contradiction|reflexivity]|right].
      split; [|exact H]. destruct k; try (left; cbn; lia). right. cbn [clock_width].
      destruct Hs as [->| ->]; [|lia]. destruct (trim_start_spec (number_text (clock_places KStamp) f (clock_value t KStamp) ++ r)) as (w & Ew & _).
      rewrite Ew at 2. rewrite app_length. lia. }
  cbn [parse_item]. rewrite E. destruct (clock_fields_ok k) as (l & El & Fl). rewrite El.
  destruct (set_times p l A Fl) as (q & Eq & Aq & M & O). rewrite Eq. exists r, q. cbn [option_map]. auto 6.
Qed.
Lemma trimmed_or s r c : is_ws c = false -> s = c :: r \/ s = trim_start (c :: r) -> s = c :: r.
Proof. intros W [->| ->]; [reflexivity|]. cbn [trim_start]. rewrite W. reflexivity. Qed.
Lemma step_half h r s : In h (halves t) -> s = lit h ++ r \/ s = trim_start (lit h ++ r) -> step FHalf s r.
Proof.
  destruct Tm as (H1 & _). intros I Hs. apply (step_set _ _ _ AHalf); [reflexivity|]. intro p.
  assert (V : time_field t AHalf = if t_hour t <? 12 then 0 else 1).
  { cbn [time_field]. destruct (Z.ltb_spec (t_hour t) 12); [apply Z.div_small; lia|]. Z.div_mod_to_equations. lia. }
  rewrite V. unfold halves in I. destruct (t_hour t <? 12); cbn [In] in I;
    (destruct I as [<-|[<-|[<-|[<-|[]]]]]; destruct Hs as [->| ->]; reflexivity).
Qed.
(** Digits of a fixed number. *)
Lemma fixed_read n v r : 0 <= v < 10 ^ Z.of_nat n -> ((n = 9)%nat \/ ~ starts_digit r \/ True) ->
  take_digits n (fixed n v ++ r) = (fixed n v, r) /\ digits_val (fixed n v) = v.
Proof.
  intros V _. split; [|apply fixed_val, V]. apply take_digits_app; [apply fixed_digits|rewrite fixed_length; lia|left; apply fixed_length].
Qed.
Lemma nano_part n : (1 <= n <= 9)%nat -> t_nano t mod 10 ^ Z.of_nat (9 - n) = 0 ->
  0 <= t_nano t / 10 ^ Z.of_nat (9 - n) < 10 ^ Z.of_nat n
  /\ t_nano t / 10 ^ Z.of_nat (9 - n) * 10 ^ Z.of_nat (9 - n) = t_nano t.
Proof.
  intros L M. destruct Tm as (_ & _ & _ & N & _).
  assert (0 < 10 ^ Z.of_nat (9 - n)) by (apply Z.pow_pos_nonneg; lia).
  assert (D := Z.div_mod (t_nano t) (10 ^ Z.of_nat (9 - n)) ltac:(lia)).
  split; [|lia]. split; [apply Z.div_pos; lia|]. apply Z.div_lt_upper_bound; [lia|].
  rewrite <- Z.pow_add_r by lia. replace (Z.of_nat (9 - n) + Z.of_nat n) with 9 by lia. apply N.
Qed.
Lemma fixed_first n v : (1 <= n)%nat -> exists c l, fixed n v = c :: l /\ is_digit c = true /\ is_ws c = false.
Proof.
  intro L. assert (D := fixed_digits n v). assert (K := fixed_length n v). destruct (fixed n v) as [|c l]; [cbn in K; lia|].
  exists c, l. apply andb_true_iff in D. split; [reflexivity|]. split; [apply D|apply digit_not_ws, D].
Qed.
Lemma step_digits n r s : (1 <= n <= 9)%nat -> t_nano t mod 10 ^ Z.of_nat (9 - n) = 0 ->
  s = fixed n (t_nano t / 10 ^ Z.of_nat (9 - n)) ++ r \/ s = trim_start (fixed n (t_nano t / 10 ^ Z.of_nat (9 - n)) ++ r) ->
  step (FDigits n) s r.
Proof.
  intros L M Hs. destruct (nano_part n L M) as [B E]. apply (step_set _ _ _ ANano); [reflexivity|]. intro p.
  assert (Es : s = fixed n (t_nano t / 10 ^ Z.of_nat (9 - n)) ++ r).
  { destruct (fixed_first n (t_nano t / 10 ^ Z.of_nat (9 - n)) (proj1 L)) as (c & l & Ef & _ & W). rewrite Ef in *.
    apply (trimmed_or s (l ++ r) c W Hs). }
  cbn [parse_item]. unfold scan_digits. rewrite Es.
  destruct (fixed_read n _ r B (or_intror (or_intror I))) as [Et Ev]. rewrite Et, fixed_length, Nat.eqb_refl, Ev, E. reflexivity.
Qed.
Lemma skip_digits r : ~ starts_digit r -> skip_while is_digit r = r.
Proof.
  destruct r as [|c r]; [reflexivity|]. cbn [starts_digit skip_while]. intro N. destruct (is_digit c) eqn:D; [|reflexivity].
  apply is_digit_range in D. contradiction.
Qed.
Lemma step_fraction n r s : (1 <= n <= 9)%nat -> t_nano t mod 10 ^ Z.of_nat (9 - n) = 0 -> ~ starts_digit r ->
  s = 46%N :: fixed n (t_nano t / 10 ^ Z.of_nat (9 - n)) ++ r \/ s = trim_start (46%N :: fixed n (t_nano t / 10 ^ Z.of_nat (9 - n)) ++ r) ->
  step FFraction s r.
Proof.
  intros L M Nr Hs. destruct (nano_part n L M) as [B E]. apply (step_set _ _ _ ANano); [reflexivity|]. intro p.
  rewrite (trimmed_or s _ 46%N eq_refl Hs). cbn [parse_item]. change (N.eqb 46 (chr ".")) with true. cbn match.
  unfold scan_fraction. rewrite take_digits_app; [|apply fixed_digits|rewrite fixed_length; lia|right; exact Nr].
  destruct (fixed_first n (t_nano t / 10 ^ Z.of_nat (9 - n)) (proj1 L)) as (c & l & Ef & _ & _).
  assert (Ev := fixed_val n _ B). assert (K := fixed_length n (t_nano t / 10 ^ Z.of_nat (9 - n))).
  rewrite Ef in *. rewrite K, Ev, E, skip_digits by exact Nr. reflexivity.
Qed.
Lemma step_same i s r : (forall p, parse_item i s p = Some (r, p)) -> step i s r.
Proof. intros H p A. exists r, p. rewrite H. auto 6. Qed.
Lemma step_no_fraction r s : (forall w q, (forall c, In c w -> is_ws c = true) -> r <> w ++ 46%N :: q) ->
  s = r \/ s = trim_start r -> step FFraction s r.
Proof.
  intros H Hs p A. exists s, p. split; [|auto 6]. cbn [parse_item].
  destruct s as [|c s]; [reflexivity|]. destruct (N.eqb_spec c (chr ".")) as [->|N]; [|reflexivity]. exfalso.
  destruct Hs as [Hs|Hs].
  - apply (H [] s); [intros d []|]. symmetry. exact Hs.
  - destruct (trim_start_spec r) as (w & E & W & _). apply (H w s); [apply all_ws_In, W|]. etransitivity; [exact E|]. f_equal. symmetry. exact Hs.
Qed.
Lemma step_zone_name name r s : name <> [] -> (forall c, In c name -> is_ws c = false) ->
  match r with c :: _ => is_ws c = true | [] => True end ->
  s = name ++ r \/ s = trim_start (name ++ r) -> step FZoneName s r.
Proof.
  intros Nn W Hr Hs. apply step_same. intro p. cbn [parse_item].
  assert (s = name ++ r) as ->.
  { destruct name as [|c name]; [contradiction|]. apply (trimmed_or s (name ++ r) c); [apply W; left; reflexivity|exact Hs]. }
  do 2 f_equal. clear Nn Hs. induction name as [|c name IH].
  - destruct r as [|c r]; [reflexivity|]. cbn. rewrite Hr. reflexivity.
  - cbn [app skip_while]. rewrite (W c) by (left; reflexivity). cbn [negb]. apply IH. intros d I. apply W. right. exact I.
Qed.
Lemma step_break c r s : c = 84%N \/ c = 116%N -> s = c :: r \/ s = trim_start (c :: r) -> step FBreak s r.
Proof.
  intros Hc Hs. apply step_same. intro p. destruct Hc as [->| ->]; destruct Hs as [->| ->]; reflexivity.
Qed.
Lemma two_fixed v r : 0 <= v < 100 -> two_digits (fixed 2 v ++ r) = Some (v, r).
Proof.
  intro V. assert (D := fixed_digits 2 v). assert (E := fixed_val 2 v V). assert (L := fixed_length 2 v).
  destruct (fixed 2 v) as [|a [|b [|]]]; try discriminate L. cbn [app two_digits].
  apply andb_true_iff in D. destruct D as [Da D]. apply andb_true_iff in D. destruct D as [Db _]. rewrite Da, Db. cbn [andb]. rewrite E. reflexivity.
Qed.
Lemma skip_colon r : skip_while (fun c => N.eqb c (chr ":") || is_ws c) (58%N :: r) = skip_while (fun c => N.eqb c (chr ":") || is_ws c) r.
Proof. reflexivity. Qed.
Lemma skip_blank r : skip_while (fun c => N.eqb c (chr ":") || is_ws c) (32%N :: r) = skip_while (fun c => N.eqb c (chr ":") || is_ws c) r.
Proof. reflexivity. Qed.
Lemma skip_none v r : skip_while (fun c => N.eqb c (chr ":") || is_ws c) (fixed 2 v ++ r) = fixed 2 v ++ r.
Proof.
  destruct (fixed_first 2 v) as (c & l & E & D & W); [lia|]. rewrite E. cbn [app skip_while]. rewrite W. apply is_digit_range in D.
  change (chr ":") with 58%N. rewrite (proj2 (N.eqb_neq c 58)) by lia. reflexivity.
Qed.
Lemma sign_read c r : sign_of t c -> exists sg, offset_sign (c :: r) = Some (sg, r) /\ sg * Z.abs (t_offset t) = t_offset t
  /\ is_ws c = false /\ (forall z, z_zulu z && N.eqb (ascii_lower c) (chr "z") = false)
  /\ (forall z q, z_utc z && starts_with (lit "utc") (map ascii_lower (firstn 3 (c :: q))) = false).
Proof.
  intros [[-> H]|[[-> H]|[-> H]]]; eexists; (split; [reflexivity|]); (split; [lia|]); (split; [reflexivity|]);
    (split; [intros [[] ? ?]; reflexivity|intros [? ? []] q; reflexivity]).
Qed.
Lemma trim_start_visible c r : is_ws c = false -> trim_start (c :: r) = c :: r.
Proof. intro W. cbn [trim_start]. rewrite W. reflexivity. Qed.
Lemma step_offset z c sep r s : sign_of t c -> sep = [] \/ sep = [58%N] \/ sep = [32%N] ->
  let q := c :: fixed 2 (Z.abs (t_offset t) / 60) ++ sep ++ fixed 2 (Z.abs (t_offset t) mod 60) ++ r in
  s = q \/ s = trim_start q -> step (FOffset z) s r.
Proof.
  cbv zeta. intros Sg Sep Hs. destruct Tm as (_ & _ & _ & _ & _ & O).
  set (h := Z.abs (t_offset t) / 60) in *. set (m := Z.abs (t_offset t) mod 60) in *.
  assert (Bh : 0 <= h < 100) by (unfold h; Z.div_mod_to_equations; lia).
  assert (Bm : 0 <= m < 60) by (unfold m; Z.div_mod_to_equations; lia).
  assert (Ehm : 60 * h + m = Z.abs (t_offset t)) by (unfold h, m; Z.div_mod_to_equations; lia).
  destruct (sign_read c (fixed 2 h ++ sep ++ fixed 2 m ++ r) Sg) as (sg & E & Eo & W & Z1 & Z2).
  rewrite (trimmed_or s _ c W Hs). apply (step_set _ _ _ AOffset); [reflexivity|]. intro p. cbn [parse_item]. unfold scan_offset.
  rewrite trim_start_visible by exact W. cbn [app].
  rewrite Z2, Z1, E, two_fixed by lia.
  assert (Es : skip_while (fun c => N.eqb c (chr ":") || is_ws c) (sep ++ fixed 2 m ++ r) = fixed 2 m ++ r).
  { destruct Sep as [->|[->| ->]]; cbn [app]; rewrite ?skip_colon, ?skip_blank; apply skip_none. }
  rewrite Es. rewrite two_fixed by lia.
  destruct (fixed_first 2 m) as (d & l & Ed & _); [lia|]. rewrite Ed. cbn [app].
  rewrite (proj2 (Z.leb_le m 59)) by lia. replace (sg * (h * 3600 + m * 60)) with (time_field t AOffset); [reflexivity|].
  cbn [time_field]. rewrite <- Eo. rewrite <- Ehm. lia.
Qed.
Lemma step_hours z c s : z_short z = true -> sign_of t c -> Z.abs (t_offset t) mod 60 = 0 ->
  let q := c :: fixed 2 (Z.abs (t_offset t) / 60) in s = q \/ s = trim_start q -> step (FOffset z) s [].
Proof.
  cbv zeta. intros Zs Sg M Hs. destruct Tm as (_ & _ & _ & _ & _ & O).
  set (h := Z.abs (t_offset t) / 60) in *.
  assert (Bh : 0 <= h < 100) by (unfold h; Z.div_mod_to_equations; lia).
  assert (Ehm : 60 * h = Z.abs (t_offset t)) by (unfold h; Z.div_mod_to_equations; lia).
  destruct (sign_read c (fixed 2 h) Sg) as (sg & E & Eo & W & Z1 & Z2).
  rewrite (trimmed_or s _ c W Hs). apply (step_set _ _ _ AOffset); [reflexivity|]. intro p. cbn [parse_item]. unfold scan_offset.
  rewrite trim_start_visible by exact W. cbn [app].
  rewrite Z2, Z1, E. rewrite <- (app_nil_r (fixed 2 h)), two_fixed by lia. cbn [skip_while]. rewrite Zs.
  replace (sg * (h * 3600)) with (time_field t AOffset); [reflexivity|]. cbn [time_field]. rewrite <- Eo, <- Ehm. lia.
Qed.
Lemma step_zulu z c r s : z_zulu z = true -> c = 90%N \/ c = 122%N -> t_offset t = 0 -> s = c :: r \/ s = trim_start (c :: r) -> step (FOffset z) s r.
Proof.
  intros Zz Hc O Hs. apply (step_set _ _ _ AOffset); [reflexivity|]. intro p. cbn [time_field]. rewrite O.
  cbn [parse_item]. unfold scan_offset. destruct z as [[] zs zu]; [|discriminate Zz]. cbn [z_zulu z_utc andb].
  assert (W : is_ws c = false) by (destruct Hc as [->| ->]; reflexivity). rewrite (trimmed_or s _ c W Hs).
  rewrite trim_start_visible by exact W.
  destruct Hc as [->| ->]; destruct zu; reflexivity.
Qed.
Lemma step_utc z r s : z_utc z = true -> t_offset t = 0 -> s = lit "UTC" ++ r \/ s = trim_start (lit "UTC" ++ r) -> step (FOffset z) s r.
Proof.
  intros Zz O Hs. apply (step_set _ _ _ AOffset); [reflexivity|]. intro p. cbn [time_field]. rewrite O.
  cbn [parse_item]. unfold scan_offset. rewrite Zz. cbn [andb]. destruct Hs as [->| ->]; reflexivity.
Qed.

Lemma read_step i s r ps p : step i s r -> agrees p ->
  (forall p s', agrees p -> s' = r \/ s' = trim_start r ->
    exists p', parse_items (map titem ps) s' p = Some p' /\ agrees p'
      /\ (forall a, p a <> None -> p' a <> None) /\ (forall q a, In q (dates ps) -> told q = Some a -> p' a <> None)
      /\ (forall a, of_time a = false -> (forall q, In q (dates ps) -> told q <> Some a) -> p' a = p a)) ->
  exists p', parse_items (i :: map titem ps) s p = Some p' /\ agrees p'
    /\ (forall a, p a <> None -> p' a <> None) /\ (forall q a, In q (dates ps) -> told q = Some a -> p' a <> None)
    /\ (forall a, of_time a = false -> (forall q, In q (dates ps) -> told q <> Some a) -> p' a = p a).
Proof.
  intros S A IH. destruct (S p A) as (r' & p1 & E & Hr & A1 & K1 & O1).
  destruct (IH p1 r' A1 Hr) as (p2 & E2 & A2 & K2 & T2 & O2). exists p2. cbn [parse_items]. rewrite E.
  split; [exact E2|]. split; [exact A2|]. split; [auto|]. split; [exact T2|].
  intros a Ha Hn. rewrite (O2 a Ha Hn). apply O1, Ha.
Qed.
Lemma read_said ps s : said x t ps s -> forall p s', agrees p -> s' = s \/ s' = trim_start s ->
  exists p', parse_items (map titem ps) s' p = Some p' /\ agrees p'
    /\ (forall a, p a <> None -> p' a <> None) /\ (forall q a, In q (dates ps) -> told q = Some a -> p' a <> None)
    /\ (forall a, of_time a = false -> (forall q, In q (dates ps) -> told q <> Some a) -> p' a = p a).
Proof.
  induction 1 as [|q ps s S IH C|k f ps s S IH C|h ps s S IH C|ps s S IH C|n ps s S IH L M C|n ps s S IH L M|name ps s S IH Nn W C
    |z c sep ps s S IH Sg Sep|z c Zs Sg M|z c ps s S IH Zz Hc O|z ps s S IH Zz O|c ps s S IH Hc]; intros p s' A Hs; cbn [map titem].
  - assert (s' = []) as -> by (destruct Hs; assumption). exists p. cbn. split; [reflexivity|split; [exact A|split; [auto|split; [intros q a []|auto]]]].
  - assert (C' : match q with PNum n f => (f = ZeroPad \/ ~ starts_digit s) /\ counted x n | _ => True end) by (destruct q; exact C).
    destruct (parse_item_piece (time_field t) x q s p Y A C' s' Hs) as (r & p1 & E & Hr & A1 & K1 & T1 & O1).
    destruct (IH p1 r A1 Hr) as (p2 & E2 & A2 & K2 & T2 & O2).
    exists p2. cbn [parse_items dates flat_map]. rewrite E. split; [exact E2|split; [exact A2|split; [auto|split]]].
    + intros q' a [<-|I] Ha; [apply K2, T1, Ha|apply (T2 q' a I Ha)].
    + intros a Ht Ha. rewrite O2 by (try exact Ht; intros q' I; apply Ha; right; exact I). apply O1, Ha. left. reflexivity.
  - exact (read_step _ _ s ps p (step_clock k f s s' C Hs) A IH).
  - exact (read_step _ _ s ps p (step_half h s s' C Hs) A IH).
  - exact (read_step _ _ s ps p (step_no_fraction s s' C Hs) A IH).
  - exact (read_step _ _ s ps p (step_fraction n s s' L M C Hs) A IH).
  - exact (read_step _ _ s ps p (step_digits n s s' L M Hs) A IH).
  - exact (read_step _ _ s ps p (step_zone_name name s s' Nn W C Hs) A IH).
  - exact (read_step _ _ s ps p (step_offset z c sep s s' Sg Sep Hs) A IH).
  - refine (read_step _ _ [] [] p (step_hours z c s' Zs Sg M Hs) A _). intros p0 s0 A0 H0.
    assert (s0 = []) as -> by (destruct H0; assumption). exists p0. cbn. split; [reflexivity|split; [exact A0|split; [auto|split; [intros q a []|auto]]]].
  - exact (read_step _ _ s ps p (step_zulu z c s s' Zz Hc O Hs) A IH).
  - exact (read_step _ _ s ps p (step_utc z s s' Zz O Hs) A IH).
  - exact (read_step _ _ s ps p (step_break c s s' Hc Hs) A IH).
Qed.
End Said.

Lemma parse_said fmt ps x t s : timed fmt ps -> time_of_day t -> 0 <= year x < 10000 -> said x t ps s ->
  (tells_day (dates ps) /\ tells_year (dates ps) x) \/ tells_week (dates ps) x -> parse_date s fmt = Some x.
Proof.
  intros W Tm Y S H. unfold parse_date. rewrite (format_items_timed _ _ W).
  destruct (read_said x t Y Tm ps s S (fun _ => None) s) as (p & E & A & _ & T & O);
    [intros a v; discriminate|left; reflexivity|].
  rewrite E. apply (told_date (time_field t) x p (dates ps) Y A T). destruct H as [H|H]; [left; exact H|right].
  split; [exact H|]. intros a Ha N. apply O; [destruct Ha as [->| ->]; reflexivity|exact N].
Qed.

(** ** Formats that can be read *)
Definition good (i : fitem) : bool := match i with FBad => false | _ => true end.
Lemma wide_good k s is n : wide_spec k s = Some (is, n) ->
  exists t qs r, In (t, qs) time_specs /\ k :: s = lit t ++ r /\ r = drop n s.
Proof.
  assert (D : forall u v, starts_with (lit u) v = true -> exists r, v = lit u ++ r /\ r = drop (List.length (lit u)) v).
  { intros u v H. apply starts_with_iff in H. destruct H as (r & ->). exists r. split; [reflexivity|]. symmetry. apply drop_app. }
  assert (K : forall t u c m, N.eqb k c = true -> starts_with (lit u) s = true -> lit t = c :: lit u -> List.length (lit u) = m ->
    (exists qs, In (t, qs) time_specs) -> exists t qs r, In (t, qs) time_specs /\ k :: s = lit t ++ r /\ r = drop m s).
  { intros t u c m E S T M (qs & I). apply N.eqb_eq in E. subst c. destruct (D u s S) as (r & Es & Er). exists t, qs, r.
    split; [exact I|]. rewrite T. cbn [app]. split; [rewrite Es at 1; reflexivity|]. rewrite <- M. exact Er. }
  unfold wide_spec. intro H.
  destruct (N.eqb k (chr ".")) eqn:E1.
  - destruct (starts_with (lit "f") s) eqn:S1.
    { injection H as _ <-. apply (K ".f"%string "f"%string (chr ".") _ E1 S1 eq_refl eq_refl). eexists. cbn. auto 40. }
    destruct (starts_with (lit "3f") s) eqn:S2; cbn [orb] in H.
    { injection H as _ <-. apply (K ".3f"%string "3f"%string (chr ".") _ E1 S2 eq_refl eq_refl). eexists. cbn. auto 40. }
    destruct (starts_with (lit "6f") s) eqn:S3; cbn [orb] in H.
    { injection H as _ <-. apply (K ".6f"%string "6f"%string (chr ".") _ E1 S3 eq_refl eq_refl). eexists. cbn. auto 40. }
    destruct (starts_with (lit "9f") s) eqn:S4; cbn [orb] in H; [|discriminate].
    injection H as _ <-. apply (K ".9f"%string "9f"%string (chr ".") _ E1 S4 eq_refl eq_refl). eexists. cbn. auto 40.
  - destruct (N.eqb k (chr "3") && starts_with (lit "f") s)%bool eqn:E2.
    { apply andb_true_iff in E2. destruct E2 as [E2 S]. injection H as _ <-. apply (K "3f"%string "f"%string (chr "3") _ E2 S eq_refl eq_refl). eexists. cbn. auto 40. }
    destruct (N.eqb k (chr "6") && starts_with (lit "f") s)%bool eqn:E3.
    { apply andb_true_iff in E3. destruct E3 as [E3 S]. injection H as _ <-. apply (K "6f"%string "f"%string (chr "6") _ E3 S eq_refl eq_refl). eexists. cbn. auto 40. }
    destruct (N.eqb k (chr "9") && starts_with (lit "f") s)%bool eqn:E4.
    { apply andb_true_iff in E4. destruct E4 as [E4 S]. injection H as _ <-. apply (K "9f"%string "f"%string (chr "9") _ E4 S eq_refl eq_refl). eexists. cbn. auto 40. }
    destruct (N.eqb k (chr ":")) eqn:E5.
    + destruct (starts_with (lit "z") s) eqn:S1.
      { injection H as _ <-. apply (K ":z"%string "z"%string (chr ":") _ E5 S1 eq_refl eq_refl). eexists. cbn. auto 40. }
      destruct (starts_with (lit ":z") s) eqn:S2.
      { injection H as _ <-. apply (K "::z"%string ":z"%string (chr ":") _ E5 S2 eq_refl eq_refl). eexists. cbn. auto 40. }
      destruct (starts_with (lit "::z") s) eqn:S3; [|discriminate].
      injection H as _ <-. apply (K ":::z"%string "::z"%string (chr ":") _ E5 S3 eq_refl eq_refl). eexists. cbn. auto 40.
    + destruct (N.eqb k (chr "#") && starts_with (lit "z") s)%bool eqn:E6; [|discriminate].
      apply andb_true_iff in E6. destruct E6 as [E6 S]. injection H as _ <-. apply (K "#z"%string "z"%string (chr "#") _ E6 S eq_refl eq_refl). eexists. cbn. auto 40.
Qed.
Lemma spec_readable k : forallb good (spec_items k) = true ->
  exists t, lit t = [k] /\ ((exists qs, In (t, qs) others) \/ exists qs, In (t, qs) time_specs).
Proof.
  intro H.
  assert (K : forall (t : string) c, N.eqb k c = true -> lit t = [c] ->
    ((exists qs, In (t, qs) others) \/ exists qs, In (t, qs) time_specs) ->
    exists t, lit t = [k] /\ ((exists qs, In (t, qs) others) \/ exists qs, In (t, qs) time_specs)).
  { intros t c E L I. apply N.eqb_eq in E. subst c. eauto. }
  unfold spec_items in H.
  repeat match type of H with forallb _ (if ?b then _ else _) = true =>
    let E := fresh "E" in destruct b eqn:E; [clear H|] end; [..|discriminate H].
  all: repeat match goal with E : (_ || _)%bool = true |- _ => apply orb_true_iff in E; destruct E as [E|E] end.
  all: match goal with E : N.eqb _ (chr ?t) = true |- _ => apply (K t (chr t) E eq_refl) end;
    first [left; eexists; unfold others; solve [repeat ((left; reflexivity) || right)]
          |right; eexists; unfold time_specs; cbn [map clocks app fst snd]; solve [repeat ((left; reflexivity) || right)]].
Qed.
Lemma repad_readable p k : forallb good (repad p (spec_items k)) = true ->
  exists t, lit t = [k] /\ ((exists n, In (t, n) numbers) \/ exists n, In (t, n) clocks).
Proof.
  intro H.
  assert (K : forall (t : string) c, N.eqb k c = true -> lit t = [c] ->
    ((exists n, In (t, n) numbers) \/ exists n, In (t, n) clocks) ->
    exists t, lit t = [k] /\ ((exists n, In (t, n) numbers) \/ exists n, In (t, n) clocks)).
  { intros t c E L I. apply N.eqb_eq in E. subst c. eauto. }
  unfold spec_items in H.
  repeat match type of H with context [if ?b then _ else _] =>
    let E := fresh "E" in destruct b eqn:E; [try discriminate H; clear H|] end; [..|discriminate H].
  all: repeat match goal with E : (_ || _)%bool = true |- _ => apply orb_true_iff in E; destruct E as [E|E] end.
  all: match goal with E : N.eqb _ (chr ?t) = true |- _ => apply (K t (chr t) E eq_refl) end;
    first [left; eexists; unfold numbers; solve [repeat ((left; reflexivity) || right)]
          |right; eexists; unfold clocks; solve [repeat ((left; reflexivity) || right)]].
Qed.
Lemma drop_length n s : (List.length (drop n s) <= List.length s)%nat.
Proof. revert n. induction s as [|c s IH]; intros [|n]; cbn [drop List.length]; try lia. specialize (IH n). lia. Qed.
Lemma timed_good n : forall fmt, (List.length fmt <= n)%nat -> forallb good (format_items fmt) = true -> exists ps, timed fmt ps.
Proof.
  induction n as [|n IH]; intros fmt L H.
  - destruct fmt; [|cbn in L; lia]. exists []. constructor.
  - destruct fmt as [|c s]; [exists []; constructor|]. cbn [List.length] in L.
    destruct (N.eq_dec c 37) as [->|N].
    + cbn [format_items] in H. change (N.eqb 37 (chr "%")) with true in H. cbn match in H.
      destruct s as [|k s]; [discriminate|]. cbn [List.length] in L.
      destruct (pad_of k) as [p|] eqn:Ep.
      * destruct s as [|k' s]; [discriminate|]. cbn [List.length] in L. rewrite forallb_app in H. apply andb_true_iff in H. destruct H as [H1 H2].
        destruct (IH s) as (ps & W); [lia|exact H2|].
        destruct (repad_readable p k' H1) as (t & E & [[m I]|[m I]]); destruct (pad_good k p Ep) as (f & If & Ef).
        -- exists (TDate (PNum m p) :: ps). pose proof (timed_pad f p t m s ps If I W) as X. rewrite Ef, E in X. exact X.
        -- exists (TClock m :: ps). pose proof (timed_pad_time f p t m s ps If I W) as X. rewrite Ef, E in X. exact X.
      * destruct (wide_spec k s) as [[is m]|] eqn:Ew.
        { rewrite forallb_app in H. apply andb_true_iff in H. destruct H as [_ H].
          destruct (wide_good _ _ _ _ Ew) as (t & qs & r & I & E & Er). rewrite <- Er in H.
          destruct (IH r) as (ps & W); [rewrite Er; assert (Dl := drop_length m s); lia|exact H|].
          exists (qs ++ ps). pose proof (timed_time t qs r ps I W) as X. rewrite <- E in X. exact X. }
        rewrite forallb_app in H. apply andb_true_iff in H. destruct H as [H1 H2].
        destruct (IH s) as (ps & W); [lia|exact H2|].
        destruct (spec_readable k H1) as (t & E & [[qs I]|[qs I]]).
        -- exists (map TDate qs ++ ps). pose proof (timed_date t qs s ps I W) as X. rewrite E in X. exact X.
        -- exists (qs ++ ps). pose proof (timed_time t qs s ps I W) as X. rewrite E in X. exact X.
    + rewrite format_items_cons in H by exact N. cbn [forallb] in H. apply andb_true_iff in H. destruct H as [_ H].
      destruct (IH s) as (ps & W); [lia|exact H|]. exists (TDate (PText c) :: ps). constructor; assumption.
Qed.
Lemma parse_items_good is : forall s p q, parse_items is s p = Some q -> forallb good is = true.
Proof.
  induction is as [|i is IH]; intros s p q H; [reflexivity|]. cbn [parse_items] in H.
  destruct (parse_item i s p) as [[r p']|] eqn:E; [|discriminate]. cbn [forallb]. rewrite (IH _ _ _ H), andb_true_r.
  destruct i; try reflexivity. discriminate E.
Qed.
Lemma parse_date_timed s fmt x : parse_date s fmt = Some x -> exists ps, timed fmt ps.
Proof.
  unfold parse_date. destruct (parse_items _ _ _) eqn:E; [|discriminate]. intros _.
  apply (timed_good (List.length fmt)); [lia|]. exact (parse_items_good _ _ _ _ E).
Qed.
Lemma printable_timed fmt ps : timed fmt ps -> (printable fmt = true <-> exists qs, ps = map TDate qs).
Proof.
  intro W. unfold printable. rewrite (format_items_timed _ _ W). clear W. induction ps as [|q ps IH].
  - split; [intros _; exists []; reflexivity|reflexivity].
  - cbn [map forallb]. rewrite andb_true_iff, IH. split.
    + intros [H (qs & ->)]. destruct q as [p| | | | | | |]; try discriminate H. exists (p :: qs). reflexivity.
    + intros ([|p qs] & E); [discriminate|]. injection E as -> ->. split; [|eauto]. cbn. destruct p as [| | |c]; try reflexivity. cbn. destruct (is_ws c); reflexivity.
Qed.
