(** Property C70: reading csv files. *)
From Coq Require Import ZArith NArith List Bool String Lia.
From Verif Require Import Base Str F64 Date World Amount Posting Entry Ledger Importer Csv SpecCsv.
Import ListNotations.

Lemma ends_iff c : ends_record c = true <-> line_end c.
Proof. unfold ends_record, line_end. rewrite orb_true_iff, !N.eqb_eq. reflexivity. Qed.
Lemma ends_false c : ~ line_end c -> ends_record c = false.
Proof. intro H. destruct (ends_record c) eqn:E; [apply ends_iff in E; contradiction|reflexivity]. Qed.

(** What happens after a field. *)
Definition after (f : str) (rec : list str) (s : str) : list (list str) :=
  match s with
  | [] => [rev (rev f :: rec)]
  | c :: s' => if N.eqb c comma then csv_scan StartField [] (rev f :: rec) s'
               else rev (rev f :: rec) :: csv_scan StartRecord [] [] s'
  end.
Definition field_end (s : str) : Prop := match s with [] => True | c :: _ => c = 44%N \/ line_end c end.

Lemma after_eq st f rec s : field_end s -> st = InField \/ st = AfterQuote \/ st = StartField -> csv_scan st f rec s = after f rec s.
Proof.
  destruct s as [|c s]; intros E H.
  - destruct H as [-> |[-> | ->]]; reflexivity.
  - assert (Q : N.eqb c quote = false).
    { apply N.eqb_neq. intros ->. destruct E as [E|[E|E]]; discriminate. }
    assert (R : ends_record c = true \/ N.eqb c comma = true).
    { destruct E as [-> |E]; [right; reflexivity|left; apply ends_iff, E]. }
    cbn [csv_scan after]. destruct H as [-> |[-> | ->]]; rewrite ?Q; destruct (N.eqb c comma); try reflexivity;
      destruct R as [-> |R]; try reflexivity; discriminate.
Qed.
Lemma bare_rest v : (forall c, In c v -> c <> 44%N /\ ~ line_end c) -> forall f rec s, field_end s ->
  csv_scan InField f rec (v ++ s) = after (rev v ++ f) rec s.
Proof.
  induction v as [|c v IH]; intros H f rec s E; cbn [app].
  - apply after_eq; auto.
  - destruct (H c (or_introl eq_refl)) as (H1 & H2). cbn [csv_scan].
    apply N.eqb_neq in H1. unfold comma. rewrite H1, (ends_false c H2).
    rewrite IH by (try assumption; intros x I; apply H; right; exact I). cbn [rev]. rewrite <- app_assoc. reflexivity.
Qed.
Lemma quoted_rest v : forall f rec s, field_end s ->
  csv_scan InQuoted f rec (doubled v ++ 34%N :: s) = after (rev v ++ f) rec s.
Proof.
  induction v as [|c v IH]; intros f rec s E; cbn [doubled app].
  - cbn [csv_scan]. change (N.eqb 34 quote) with true. cbn iota. apply after_eq; auto.
  - destruct (N.eqb_spec c 34) as [-> |Nq]; cbn [app csv_scan].
    + change (N.eqb 34 quote) with true. cbn iota. rewrite IH by exact E. cbn [rev]. rewrite <- app_assoc. reflexivity.
    + apply N.eqb_neq in Nq. unfold quote. rewrite Nq, IH by exact E. cbn [rev]. rewrite <- app_assoc. reflexivity.
Qed.
Lemma field_read t v rec s : field_text t v -> field_end s -> csv_scan StartField [] rec (t ++ s) = after (rev v) rec s.
Proof.
  intros [v' H Q|v'] E.
  - destruct v' as [|c v'].
    + apply after_eq; auto.
    + destruct (H c (or_introl eq_refl)) as (H1 & H2). cbn [app csv_scan].
      assert (Nq : N.eqb c quote = false) by (apply N.eqb_neq; intros ->; apply (Q v'); reflexivity).
      apply N.eqb_neq in H1. rewrite Nq. unfold comma. rewrite H1, (ends_false c H2).
      rewrite bare_rest by (try assumption; intros x I; apply H; right; exact I). reflexivity.
  - cbn [app csv_scan]. change (N.eqb 34 quote) with true. cbn iota. rewrite <- app_assoc. cbn [app].
    rewrite quoted_rest by exact E. rewrite app_nil_r. reflexivity.
Qed.
Lemma record_read l r : record_text l r -> forall rec s, field_end s -> (forall c s', s = c :: s' -> line_end c) ->
  csv_scan StartField [] rec (l ++ s) = (rev rec ++ r) :: match s with [] => [] | _ :: s' => csv_scan StartRecord [] [] s' end.
Proof.
  induction 1 as [t v F|t v l r F R IH]; intros rec s E L.
  - rewrite (field_read t v rec s F E). destruct s as [|c s]; cbn [after rev]; rewrite rev_involutive; [reflexivity|].
    destruct (N.eqb_spec c comma) as [-> |_]; [|reflexivity]. destruct (L _ _ eq_refl); discriminate.
  - rewrite <- app_assoc. cbn [app]. rewrite (field_read t v rec _ F) by (left; reflexivity).
    cbn [after]. change (N.eqb 44 comma) with true. cbn iota. rewrite rev_involutive, IH by assumption.
    cbn [rev]. rewrite <- app_assoc. reflexivity.
Qed.
Lemma record_start l r c l' : record_text l r -> l = c :: l' -> ~ line_end c.
Proof.
  intros R. destruct R as [t v F|t v l0 r0 F R]; intro E.
  - destruct F as [v H Q|v]; [subst v; apply (H c (or_introl eq_refl))|]. injection E as <- _. intros [X|X]; discriminate.
  - destruct F as [v H Q|v].
    + destruct v as [|x v]; [injection E as <- _; intros [X|X]; discriminate|]. injection E as <- _. apply (H x (or_introl eq_refl)).
    + injection E as <- _. intros [X|X]; discriminate.
Qed.
Lemma start_record s : (forall c s', s = c :: s' -> ~ line_end c) -> s <> [] -> csv_scan StartRecord [] [] s = csv_scan StartField [] [] s.
Proof.
  destruct s as [|c s]; intros H N; [congruence|]. cbn [csv_scan]. rewrite (ends_false c (H _ _ eq_refl)). reflexivity.
Qed.
Lemma scan_text s rs : csv_text s rs -> csv_scan StartRecord [] [] s = rs.
Proof.
  induction 1 as [|c t rs L T IH|l r R N|l r c t rs R N L T IH].
  - reflexivity.
  - cbn [csv_scan]. apply ends_iff in L. rewrite L. exact IH.
  - rewrite start_record by (try exact N; intros c s' E; exact (record_start _ _ _ _ R E)).
    rewrite <- (app_nil_r l), (record_read l r R) by (exact I || discriminate). reflexivity.
  - rewrite start_record.
    + rewrite (record_read l r R) by (try (right; exact L); intros x s' E; injection E as <- _; exact L). cbn [rev app]. rewrite IH. reflexivity.
    + intros x s' E. destruct l as [|y l]; [congruence|]. injection E as <- _. exact (record_start _ _ _ _ R eq_refl).
    + destruct l; discriminate.
Qed.

(** ** C70 *)
(** Every way of writing records is read as these records; a record whose
    number of fields differs from the first is an error. *)
Theorem C70_read : forall s rs, csv_text s rs -> (forall t, s <> 65279%N :: t) ->
  csv_reader s = match rs with
                 | [] => []
                 | r :: _ => map (fun r' => if Nat.eqb (List.length r') (List.length r) then Some r' else None) rs
                 end.
Proof.
  intros s rs T M. unfold csv_reader. replace (drop_mark s) with s.
  - rewrite (scan_text s rs T). destruct rs as [|r rs]; [reflexivity|]. cbn [map]. rewrite Nat.eqb_refl. reflexivity.
  - destruct s as [|c s]; [reflexivity|]. cbn [drop_mark]. destruct (N.eqb_spec c 65279) as [-> |]; [|reflexivity]. destruct (M s eq_refl).
Qed.
Print Assumptions C70_read.

(** A byte order mark makes no difference. *)
Theorem C70_mark : forall s, (forall t, s <> 65279%N :: t) -> csv_reader (65279%N :: s) = csv_reader s.
Proof.
  intros s M. unfold csv_reader. cbn [drop_mark]. change (N.eqb 65279 65279) with true. cbn iota.
  destruct s as [|c s]; [reflexivity|]. cbn [drop_mark]. destruct (N.eqb_spec c 65279) as [-> |]; [|reflexivity]. destruct (M s eq_refl).
Qed.
Print Assumptions C70_mark.

Lemma collect_all rs : collect_records (map Some rs) = Ok rs.
Proof. induction rs as [|r rs IH]; [reflexivity|]. cbn. rewrite IH. reflexivity. Qed.

(** The records that are imported: all but the skipped ones, in order. *)
Theorem C70_import : forall fuel w csv_file rules_file s rs n t r ru,
  csv_text s rs -> (forall t, s <> 65279%N :: t) -> Forall (fun x => List.length x = n) rs ->
  read_file w csv_file = Ok s -> 
  read_file w (match rules_file with Some p => p | None => csv_file ++ lit ".rules" end) = Ok t ->
  parse_rules fuel w t = Ok ru ->
  open_importer fuel w csv_reader csv_file rules_file = Ok r ->
  fst r = ru /\ ((0 <= r_skip ru)%Z -> snd r = skipn (Z.to_nat (r_skip ru)) rs) /\ ((r_skip ru < 0)%Z -> snd r = []).
Proof.
  intros fuel w c rf s rs n t r ru T M U Rc Rr P H. unfold open_importer in H. rewrite Rc in H. cbn [bind] in H.
  rewrite Rr in H. cbn [bind] in H. rewrite P in H. cbn [bind] in H.
  assert (E : csv_reader s = map Some rs).
  { rewrite (C70_read s rs T M). destruct rs as [|r0 rs]; [reflexivity|]. inversion U; subst. apply map_ext_in.
    intros x I. rewrite Forall_forall in U. rewrite (U x I), Nat.eqb_refl. reflexivity. }
  rewrite E in H. unfold skip_records in H. destruct (Z.ltb_spec (r_skip ru) 0) as [L|L].
  - cbn [collect_records bind] in H. injection H as <-. cbn [fst snd]. split; [reflexivity|]; split; intro; [lia|reflexivity].
  - rewrite skipn_map, collect_all in H. cbn [bind] in H. injection H as <-. cbn [fst snd]. split; [reflexivity|]; split; intro; [reflexivity|lia].
Qed.
Print Assumptions C70_import.

Example C70_case :
  let s := lit "a,""b, """"c""""""" ++ [13; 10; 10]%N ++ lit "x""y,""""" ++ [10%N] ++ lit "1,2,3" ++ [10%N] ++ lit "," in
  csv_text s [[lit "a"; lit "b, ""c"""]; [lit "x""y"; []]; [lit "1"; lit "2"; lit "3"]; [[]; []]]
  /\ csv_reader s = [Some [lit "a"; lit "b, ""c"""]; Some [lit "x""y"; []]; None; Some [[]; []]].
Proof.
  split; [|vm_compute; reflexivity].
  assert (B : forall v, forallb (fun c => negb (N.eqb c 44 || N.eqb c 13 || N.eqb c 10)) v = true ->
                match v with c :: _ => negb (N.eqb c 34) | [] => true end = true -> field_text v v).
  { intros v H Q. rewrite forallb_forall in H. constructor.
    - intros c I. specialize (H c I). apply negb_true_iff, orb_false_iff in H as (H & H3). apply orb_false_iff in H as (H1 & H2).
      apply N.eqb_neq in H1, H2, H3. unfold line_end. intuition congruence.
    - intros t ->. discriminate. }
  apply (csv_line (lit "a,""b, """"c""""""") [lit "a"; lit "b, ""c"""] 13).
  { apply (record_more (lit "a") _ (lit """b, """"c""""""")); [apply B; reflexivity|]. apply record_last. exact (field_quoted (lit "b, ""c""")). }
  { discriminate. } { left; reflexivity. }
  apply csv_blank; [right; reflexivity|]. apply csv_blank; [right; reflexivity|].
  apply (csv_line (lit "x""y,""""") [lit "x""y"; []] 10).
  { apply (record_more (lit "x""y") _ (lit """""")); [apply B; reflexivity|]. apply record_last. exact (field_quoted []). }
  { discriminate. } { right; reflexivity. }
  apply (csv_line (lit "1,2,3") [lit "1"; lit "2"; lit "3"] 10).
  { apply (record_more (lit "1") _ (lit "2,3")); [apply B; reflexivity|]. apply (record_more (lit "2") _ (lit "3")); [apply B; reflexivity|].
    apply record_last. apply B; reflexivity. }
  { discriminate. } { right; reflexivity. }
  apply csv_last; [|discriminate]. apply (record_more [] [] []); [apply B; reflexivity|]. apply record_last. apply B; reflexivity.
Qed.
