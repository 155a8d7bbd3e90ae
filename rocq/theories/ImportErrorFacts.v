(** Proofs about the reasons of errors of an import. *)
From Coq Require Import ZArith NArith List Bool String Lia Permutation.
From Verif Require Import Base Str F64 Date World Amount Posting Entry Envelope Account Ledger Importer Cli
  SpecAmount SpecDate SpecEntry SpecEnvelope SpecLedger SpecImport SpecCrash SpecErrors SpecImportErrors
  StrFacts LineFacts AmountFacts PostingFacts EntryFacts EnvelopeFacts AccountFacts LedgerFacts IncludeFacts
  ImportFacts ExpandFacts RuleFacts CrashFacts CrashImport ErrorFacts.
Import ListNotations.

(** ** Substitution *)
Lemma filled_trans vars r s t : filled_in vars r s -> filled_in vars s t -> filled_in vars r t.
Proof. intros F G. revert F. induction G; intro F; [exact F|eapply filled_ref; eauto|eapply filled_percent; eauto]. Qed.
Lemma filled_context vars s t : filled_in vars s t -> forall a b, filled_in vars (a ++ s ++ b) (a ++ t ++ b).
Proof.
  induction 1 as [t|t a n v b _ IH I|t a b _ IH]; intros x y; [apply filled_none| |].
  - specialize (IH x y). replace (x ++ (a ++ v ++ b) ++ y) with ((x ++ a) ++ v ++ (b ++ y)) by (rewrite <- !app_assoc; reflexivity).
    apply (filled_ref vars _ _ n); [|exact I]. replace ((x ++ a) ++ 37%N :: n ++ 37%N :: b ++ y) with (x ++ (a ++ 37%N :: n ++ 37%N :: b) ++ y); [exact IH|].
    rewrite <- !app_assoc. cbn [app]. rewrite <- app_assoc. reflexivity.
  - specialize (IH x y). replace (x ++ (a ++ 37%N :: b) ++ y) with ((x ++ a) ++ 37%N :: (b ++ y)) by (rewrite <- !app_assoc; reflexivity).
    apply filled_percent. replace ((x ++ a) ++ 37%N :: 37%N :: b ++ y) with (x ++ (a ++ 37%N :: 37%N :: b) ++ y); [exact IH|].
    rewrite <- !app_assoc. reflexivity.
Qed.
Lemma starts_eq p s : starts_with p s = true -> exists r, s = p ++ r.
Proof. apply starts_with_iff. Qed.
Lemma replace_filled vars p q : p <> [] -> (forall a b, filled_in vars (a ++ p ++ b) (a ++ q ++ b)) ->
  forall s, filled_in vars s (replace p q s).
Proof.
  intros Ne H s. unfold replace. remember (List.length s) as n eqn:L. assert (List.length s <= n)%nat as B by lia. clear L.
  revert s B. induction n as [|n IH]; intros s B; [destruct s; [apply filled_none|cbn in B; lia]|].
  destruct s as [|c s]; [apply filled_none|]. cbn [replace_aux]. destruct (starts_with p (c :: s)) eqn:S.
  - apply starts_eq in S as (r & E). destruct p as [|c' p]; [contradiction|]. injection E as <- ->. cbn [List.length pred].
    assert (forall m, replace_aux (c :: p) q (List.length m) (m ++ r) = replace_aux (c :: p) q 0 r) as Sk.
    { induction m as [|d m IHm]; [destruct r; reflexivity|]. exact IHm. }
    rewrite Sk. eapply filled_trans; [exact (H [] r)|]. cbn [app].
    pose proof (filled_context vars _ _ (IH r ltac:(cbn in B; rewrite app_length in B; lia)) q []) as F. rewrite !app_nil_r in F. exact F.
  - pose proof (filled_context vars _ _ (IH s ltac:(cbn in B; lia)) [c] []) as F. rewrite !app_nil_r in F. exact F.
Qed.
Lemma inject_filled ord vars s : (forall v, In v (ord vars) -> In v vars) -> filled_in vars s (inject ord vars s).
Proof.
  intro O. unfold inject. cbv zeta. eapply filled_trans.
  2:{ apply replace_filled; [discriminate|]. intros a b. apply filled_percent. apply filled_none. }
  revert s O. generalize (ord vars) as l. induction l as [|v l IH]; intros s O; [apply filled_none|]. cbn [fold_left].
  eapply filled_trans; [|apply IH; intros u Iu; apply O; right; exact Iu].
  apply replace_filled; [discriminate|]. intros a b. apply (filled_ref vars _ _ (fst v) (snd v)); [|apply O; left; destruct v; reflexivity].
  cbn [app]. rewrite <- app_assoc. apply filled_none.
Qed.

(** ** Rules *)
(** A line that is read as a rule with an ASCII name has that name. *)
Lemma named l i name : position is_ws (trim_start l) = Some i -> slice_to i (trim_start l) = Ok name ->
  name <> [] -> Forall (fun c => (c < 128)%N) name ->
  exists w c b, l = w ++ name ++ c :: b /\ all_ws w /\ is_ws c = true
    /\ i = List.length name /\ trim_start l = name ++ c :: b /\ is_token name.
Proof.
  intros P Hn Ne A. apply position_Some in P as (a & c & b & E & La & Fa & Hc).
  unfold slice_to in Hn. destruct (split_at_byte i (trim_start l)) as [(a' & b')|] eqn:S; [|discriminate].
  injection Hn as ->. apply split_at_spec in S as (E' & B). rewrite bytes_ascii in B by exact A.
  assert (a = name) as ->.
  { rewrite E in E'. rewrite <- La in B. clear -E' B. revert name E' B.
    induction a as [|x a IH]; intros [|y n] E B; cbn in *; try lia; [reflexivity|]. injection E as <- E.
    f_equal. apply IH; [exact E|lia]. }
  destruct (trim_start_spec l) as (w & Ew & W & _). exists w, c, b. rewrite Ew at 1. rewrite E. repeat split; auto.
  apply no_ws_In. intros x I. rewrite Forall_forall in Fa. apply Fa, I.
Qed.
Lemma name_of l i name ks : position is_ws (trim_start l) = Some i -> slice_to i (trim_start l) = Ok name ->
  is_name name ks = true -> forallb (fun k => forallb (fun c => N.ltb c 128) (lit k)) ks = true -> Forall (fun k => lit k <> []) ks ->
  exists k, In k ks /\ name = lit k /\ first_word l k /\ first_word (trim_start l) k.
Proof.
  intros P Hn N As Ne. apply existsb_exists in N as (k & Ik & Q). apply str_eqb_eq in Q. rewrite forallb_forall in As. specialize (As k Ik).
  rewrite Forall_forall in Ne. specialize (Ne k Ik). rewrite forallb_forall in As.
  destruct (named l i name P Hn) as (w & c & b & El & W & Hc & _ & Et & T).
  { rewrite Q. exact Ne. }
  { rewrite Q. apply Forall_forall. intros x Ix. apply N.ltb_lt. exact (As x Ix). }
  exists k. split; [exact Ik|]. split; [exact Q|]. unfold first_word. rewrite Et. rewrite El. rewrite split_ws_ws by exact W. rewrite !split_ws_tok by assumption.
  rewrite Q. split; reflexivity.
Qed.
Lemma slice_to_part i s n : slice_to i s = Ok n -> part n s.
Proof. unfold slice_to. destruct (split_at_byte i s) as [(a & b)|] eqn:E; [|discriminate]. intro Q. injection Q as <-. apply split_at_spec in E as (-> & _). exists [], b. reflexivity. Qed.
Lemma slice_from_part i s n : slice_from i s = Ok n -> part n s.
Proof. unfold slice_from. destruct (split_at_byte i s) as [(a & b)|] eqn:E; [|discriminate]. intro Q. injection Q as <-. apply split_at_spec in E as (-> & _). exists a, []. rewrite app_nil_r. reflexivity. Qed.
Lemma part_trim_start s : part (trim_start s) s.
Proof. destruct (trim_start_spec s) as (w & E & _). exists w, []. rewrite app_nil_r. exact E. Qed.
Lemma split_on_part d s : (forall f, In f (split_on d s) -> part f s) /\ exists p ps b, split_on d s = p :: ps /\ s = p ++ b.
Proof.
  induction s as [|c s (IH & p & ps & b & E & Ep)]; [split; [intros f [<-|[]]; exists [], []; reflexivity|exists [], [], []; split; reflexivity]|].
  cbn [split_on]. destruct (N.eqb c d).
  - split; [|exists [], (split_on d s), (c :: s); split; reflexivity]. intros f [<-|I]; [exists [], (c :: s); reflexivity|].
    destruct (IH f I) as (x & y & ->). exists (c :: x), y. reflexivity.
  - rewrite E in *. split; [|exists (c :: p), ps, b; split; [reflexivity|cbn; congruence]]. intros f [<-|I].
    + exists [], b. cbn. congruence.
    + destruct (IH f (or_intror I)) as (x & y & ->). exists (c :: x), y. reflexivity.
Qed.

(** The texts of the rules stand in the rules files. *)
Section rules.
Context (w : world) (r0 : str).
Definition lawful_root (r : rules) : Prop :=
  rule_text w r0 (r_date r) /\ rule_text w r0 (r_status r) /\ (ruling w r0 (r_format r) \/ r_format r = lit "%Y/%m/%d")
  /\ Forall (field_name w r0) (r_fields r)
  /\ Forall (fun x => rule_text w r0 (snd x)) (r_accounts r) /\ Forall (fun x => rule_text w r0 (snd x)) (r_amounts r).
Inductive lawful (r : rules) : Prop :=
  | lawful_rules : lawful_root r -> (forall ps b, In (ps, b) (r_subrules r) -> lawful b) -> lawful r.
Definition blame (e : err) : Prop := forall x w0 j c, import_reason x w0 j w c r0 e.
Lemma insert_Forall {A} (P : str * A -> Prop) k v m : Forall P m -> P (k, v) -> Forall P (map_insert k v m).
Proof.
  intros F Pv. apply Forall_forall. intros (k' & v') I. rewrite Forall_forall in F. revert I. induction m as [|(k1 & v1) m IH]; cbn [map_insert].
  - intros [Q|[]]. injection Q as <- <-. exact Pv.
  - destruct (str_eqb k1 k) eqn:K; intros [Q|I].
    + injection Q as <- <-. first [exact Pv|apply str_eqb_eq in K; subst; exact Pv].
    + apply F. right. exact I.
    + apply F. left. exact Q.
    + apply IH; [|exact I]. intros y Iy. apply F. right. exact Iy.
Qed.
Lemma remove_Forall {A} (P : str * A -> Prop) k m : Forall P m -> Forall P (map_remove k m).
Proof. intro F. apply Forall_forall. intros y I. apply filter_In in I as (I & _). rewrite Forall_forall in F. exact (F y I). Qed.

Lemma no_slot n : slot_of n = None ->
  (forall ks, forallb (fun k => match slot_of (lit k) with Some _ => true | None => false end) ks = true -> is_name n ks = false)
  /\ strip_prefix (lit "amount") n = None /\ strip_prefix (lit "account") n = None.
Proof.
  intro N. split; [|split].
  - intros ks H. apply not_true_iff_false. intro Q. apply existsb_exists in Q as (k & Ik & Q). apply str_eqb_eq in Q. subst n.
    rewrite forallb_forall in H. specialize (H k Ik). rewrite N in H. discriminate.
  - destruct (strip_prefix (lit "amount") n) as [k|] eqn:E; [|reflexivity]. apply strip_prefix_Some in E. subst n. exfalso. revert N.
    unfold slot_of. destruct (find _ slot_names) as [y|]; [discriminate|]. destruct (str_dec _ (lit "amount")) as [_|Q]; [discriminate|]. destruct (Q eq_refl).
  - destruct (strip_prefix (lit "account") n) as [k|] eqn:E; [|reflexivity]. apply strip_prefix_Some in E. subst n. exfalso. revert N.
    unfold slot_of. destruct (find _ slot_names) as [y|]; [discriminate|]. destruct (str_dec _ (lit "amount")) as [_|_]; [discriminate|].
    destruct (str_dec _ (lit "account")) as [_|Q]; [discriminate|]. destruct (Q eq_refl).
Qed.
Lemma text_of s : ruling w r0 s -> rule_text w r0 s.
Proof. left. assumption. Qed.
Lemma clear_lawful s r : lawful r -> lawful (clear s r).
Proof.
  intros L. destruct L as [(D & St & F & Fi & Ac & Am) S].
  assert (forall k, In k ["%date%"; "%description%"; "%account%"; "%amount%"; "~"; ""]%string -> rule_text w r0 (lit k)) as Df
    by (intros k Ik; right; exact (in_map lit _ _ Ik)).
  destruct s; cbn [clear]; (split; [|exact S]); unfold lawful_root; cbn;
    repeat (split; [first [assumption|right; reflexivity|apply (Df "%date%"%string); cbn; tauto|apply (Df "~"%string); cbn; tauto|constructor|apply remove_Forall; assumption]|]);
    try assumption; apply remove_Forall; assumption.
Qed.
Lemma line_says inc r l : rule_line w r0 l -> lawful r ->
  (forall f r', includes_file l f -> lawful r' -> spoken (inc f r') blame lawful) ->
  spoken (add_from_line inc r l) blame lawful.
Proof.
  intros Rl L Hi. unfold add_from_line.
  assert (rule_line_from w r0 (trim_start l)) as Rt.
  { destruct (trim_start_spec l) as (b & E & B & _). exists b. split; [apply all_ws_Forall; exact B|rewrite <- E; exact Rl]. }
  destruct (position is_ws (trim_start l)) as [i|] eqn:P.
  2:{ intros x w1 j c. split; [exact Rt|]. apply Forall_forall. intros y Iy B. revert P. apply in_split in Iy as (u & v & ->).
      clear -B. induction u as [|d u IH]; cbn; [unfold blank_char in B; rewrite B; discriminate|]. destruct (is_ws d); [discriminate|].
      destruct (position is_ws (u ++ y :: v)); [discriminate|]. exact IH. }
  destruct (slice_to i (trim_start l)) as [name| | |] eqn:Hn; [|unfold slice_to in Hn; destruct (split_at_byte i (trim_start l)) as [[]|]; discriminate|exact I|exact I]. cbn [bind].
  destruct (slice_from (S i) (trim_start l)) as [rest| | |] eqn:Hr; [|unfold slice_from in Hr; destruct (split_at_byte (S i) (trim_start l)) as [[]|]; discriminate|exact I|exact I]. cbn [bind].
  set (value := trim_start rest). set (line := trim_start l) in *.
  assert (part value l) as Pv.
  { eapply part_trans; [apply part_trim_start|]. eapply part_trans; [apply (slice_from_part _ _ _ Hr)|apply part_trim_start]. }
  assert (part name line) as Pn by (apply (slice_to_part _ _ _ Hn)).
  assert (ruling w r0 value) as Rv by (exists l; auto).
  assert (forall k ks, In k ks -> forallb (fun k => forallb (fun c => N.ltb c 128) (lit k)) ks = true -> Forall (fun k => lit k <> []) ks -> name = lit k ->
    first_word l k /\ first_word line k) as Fw.
  { intros k ks Ik H1 H2 Q. destruct (name_of l i name [k] P Hn) as (k' & [<-|[]] & _ & A & B); auto.
    - cbn [is_name existsb]. rewrite Q, (proj2 (str_eqb_eq _ _) eq_refl). reflexivity.
    - cbn [forallb]. rewrite forallb_forall in H1. rewrite (H1 k Ik). reflexivity.
    - constructor; [|constructor]. rewrite Forall_forall in H2. exact (H2 k Ik). }
  assert (forall k, In k (map fst slot_names ++ ["if"; "include"; "use"]%string) -> name = lit k -> first_word l k /\ first_word line k) as Fk.
  { intros k Ik. apply (Fw k _ Ik); [vm_compute; reflexivity|]. cbn [map fst slot_names app]. repeat constructor; discriminate. }
  destruct (slot_of name) as [s|] eqn:Sl.
  - destruct (str_eqb (trim value) (lit "-")) eqn:Tv.
    + destruct (slot_dec s SFields) as [->|N]; [|rewrite (reset_slot inc line r name s value Sl N); apply clear_lawful; exact L].
      rewrite (reset_fields inc line r name value Sl). intros x w1 j c. exists l. split; [exact Rl|]. split.
      * apply slot_cases in Sl as [(k & Ik & Q)|[(k & Q & _)|(k & Q & _)]]; try discriminate.
        assert (k = "fields"%string) as -> by (cbn in Ik; repeat (destruct Ik as [Ik|Ik]; [congruence|]); destruct Ik).
        apply (Fk "fields"%string); [cbn; tauto|exact Q].
      * apply str_eqb_eq in Tv. rewrite <- Tv. eapply part_trans; [apply part_trim|exact Pv].
    + rewrite (set_slot inc line r name s value Sl). pose proof L as L0. destruct L0 as [(D & St & F & Fi & Ac & Am) S].
      assert (forall s', slot_of name = Some s' -> (forall x, s' <> SAmount x) -> (forall x, s' <> SAccount x) -> exists k, In (k, s') slot_names /\ name = lit k) as Sn.
      { intros s' E N1 N2. apply slot_cases in E as [E|[(y & -> & _)|(y & -> & _)]]; [exact E|destruct (N1 y eq_refl)|destruct (N2 y eq_refl)]. }
      destruct s; cbn [put]; try (split; [|exact S]; unfold lawful_root; cbn; tauto).
      * split; [|exact S]. unfold lawful_root. cbn. split; [apply text_of; exact Rv|tauto].
      * destruct (Nat.ltb 1 (byte_len value)); [|destruct value as [|d v']; [exact I|split; [|exact S]; unfold lawful_root; cbn; tauto]].
        intros x w1 j c. split; [exact Rt|]. destruct (Sn SDecimal) as (k & Ik & Q); [exact Sl|discriminate|discriminate|].
        cbn in Ik. repeat (destruct Ik as [Ik|Ik]; [first [discriminate Ik|injection Ik as <-]; first [left; apply (Fk "decimal"%string); [cbn; tauto|exact Q]|right; apply (Fk "decimal_symbol"%string); [cbn; tauto|exact Q]]|]). destruct Ik.
      * split; [|exact S]. unfold lawful_root. cbn. repeat (split; [assumption|]). split; [|tauto]. apply Forall_app. split; [exact Fi|].
        apply Forall_forall. intros f If. apply in_map_iff in If as (g & <- & Ig). exists l. split; [exact Rl|]. split.
        -- destruct (Sn SFields) as (k & Ik & Q); [exact Sl|discriminate|discriminate|].
           assert (k = "fields"%string) as -> by (cbn in Ik; repeat (destruct Ik as [Ik|Ik]; [congruence|]); destruct Ik).
           apply (Fk "fields"%string); [cbn; tauto|exact Q].
        -- eapply part_trans; [apply part_trim|]. eapply part_trans; [apply (proj1 (split_on_part (chr ",") value)); exact Ig|exact Pv].
      * destruct (parse_i32 value); [split; [|exact S]; unfold lawful_root; cbn; tauto|]. intros x w1 j c. exists l. split; [exact Rl|]. split; [|exact Pv].
        destruct (Sn SSkip) as (k & Ik & Q); [exact Sl|discriminate|discriminate|].
        assert (k = "skip"%string) as -> by (cbn in Ik; repeat (destruct Ik as [Ik|Ik]; [congruence|]); destruct Ik).
        apply (Fk "skip"%string); [cbn; tauto|exact Q].
      * split; [|exact S]. unfold lawful_root. cbn. split; [exact D|]. split; [apply text_of; exact Rv|tauto].
      * split; [|exact S]. unfold lawful_root. cbn. repeat (split; [assumption|]). apply insert_Forall; [exact Am|]. apply text_of. exact Rv.
      * split; [|exact S]. unfold lawful_root. cbn. repeat (split; [assumption|]). split; [|exact Am]. apply insert_Forall; [exact Ac|]. apply text_of. exact Rv.
  - destruct (no_slot name Sl) as (Nn & Na & Nc).
    assert (spoken (if is_name name ["if"]%string then Err (EParse NestedSubrules)
      else if is_name name ["include"; "use"]%string then inc value r else Err (EParse (UnknownRule name line))) blame lawful) as G.
    { destruct (is_name name ["if"]%string) eqn:Ni.
      { intros x w1 j c. exists l. split; [exact Rl|]. cbn [is_name existsb] in Ni. rewrite orb_false_r in Ni. apply str_eqb_eq in Ni. apply (Fk "if"%string); [cbn; tauto|exact Ni]. }
      destruct (is_name name ["include"; "use"]%string) eqn:Nu.
      { apply Hi; [|exact L]. destruct (first_token l i name P Hn) as (a & c & b & El & A & Hc & Li & Et & T).
        { exact Nu. }
        fold line in Et. exists a, name, c. destruct (trim_start_spec b) as (z & Eb & Wz & Hz).
        assert ((c < 128)%N) as Cc.
        { apply (slice_after name c b rest); [apply include_names in Nu; destruct Nu as [-> | ->]; repeat constructor|]. rewrite <- Li, <- Et. exact Hr. }
        assert (rest = b) as ->.
        { unfold slice_from in Hr. rewrite Et in Hr. replace (name ++ c :: b) with ((name ++ [c]) ++ b) in Hr by (rewrite <- app_assoc; reflexivity).
          replace (S i) with (List.length (name ++ [c])) in Hr by (rewrite app_length, Li; cbn; lia). rewrite split_at_ascii in Hr; [congruence|].
          apply Forall_app. split; [apply include_names in Nu; destruct Nu as [-> | ->]; repeat constructor|constructor; [exact Cc|constructor]]. }
        exists z. change value with (trim_start b). split; [rewrite <- Eb; exact El|]. split; [apply all_ws_Forall; exact A|]. split; [apply include_names; exact Nu|]. split; [exact Hc|].
        split; [apply all_ws_Forall; exact Wz|]. intros h t Q W. rewrite Q in Hz. apply ws_blank in W. congruence. }
      intros x w1 j c. split; [exact Rt|]. split; [exact Pn|]. split; [exact Sl|]. intro Ik. cbn in Ik.
      cbn [is_name existsb] in Ni, Nu. rewrite orb_false_r in Ni. rewrite orb_false_r in Nu. apply orb_false_iff in Nu as (N1 & N2).
      destruct Ik as [Q|[Q|[Q|[]]]]; rewrite <- Q in *; vm_compute in Ni, N1, N2; discriminate. }
    destruct (str_eqb (trim value) (lit "-")).
    + unfold reset_rule. repeat match goal with |- context [is_name name ?ks] => rewrite (Nn ks) by (vm_compute; reflexivity) end. rewrite Na, Nc. exact G.
    + unfold set_rule. repeat match goal with |- context [is_name name ?ks] => rewrite (Nn ks) by (vm_compute; reflexivity) end. rewrite Na, Nc. exact G.
Qed.
Lemma items_say inc is : (forall l, ruled is l -> rule_line w r0 l) ->
  (forall l f r, ruled is l -> includes_file l f -> lawful r -> spoken (inc f r) blame lawful) ->
  forall r, lawful r -> spoken (fold_res (item_step inc) is r) blame lawful.
Proof.
  intros Rl Hi. apply spoken_fold. intros r i Ii L.
  assert (forall l r, ruled is l -> lawful r -> spoken (add_from_line inc r l) blame lawful) as K.
  { intros l r' R' L'. apply line_says; [exact (Rl l R')|exact L'|]. intros f r2 If L2. exact (Hi l f r2 R' If L2). }
  destruct i as [l|h ps rs]; cbn [item_step]; [apply K; [left; exact Ii|exact L]|].
  apply (spoken_bind _ _ _ (fun _ => True)).
  { unfold header_patterns. destruct (position is_ws h) as [i|]; [|exact I]. unfold slice_from. destruct (split_at_byte (Datatypes.S i) h) as [[]|]; exact I. }
  intros p _ _. apply (spoken_bind _ _ _ lawful).
  { apply spoken_fold; [|exact L]. intros r' l Il L'. apply K; [right; exists h, ps, rs; auto|exact L']. }
  intros br _ Lb. destruct L as [L S]. split; [exact L|]. cbn. intros qs b Ib. apply in_app_or in Ib as [Ib|[Q|[]]]; [exact (S qs b Ib)|].
  injection Q as _ <-. exact Lb.
Qed.
Lemma files_say n : forall p r, lawful r -> rules_file w (cwd w) r0 (located (cwd w) p) ->
  (p = r0 \/ exists l, rule_line w r0 l /\ includes_file l p) -> spoken (rules_from_file n w p r) blame lawful.
Proof.
  induction n as [|n IH]; intros p r L Rf Why; [exact I|]. cbn [rules_from_file]. unfold read_file. change (resolve w p) with (located (cwd w) p).
  destruct (files w (located (cwd w) p)) as [t|] eqn:F; [|intros x w1 j c; right; right; exact Why]. cbn [bind].
  destruct (layout_total (rule_lines t)) as (is & La). rewrite (rules_layout _ _ _ _ La).
  assert (forall l, ruled is l -> rule_line w r0 l) as Rl by (intros l Hl; exists (located (cwd w) p), t, is; auto).
  apply items_say; [exact Rl| |exact L]. intros l f r' Hl If L'. apply IH; [exact L'| |right; exists l; auto].
  eapply rules_include; eauto.
Qed.
Lemma default_lawful : lawful default_rules.
Proof.
  split; [|intros ps b []]. unfold lawful_root. cbn [default_rules r_date r_status r_format r_fields r_accounts r_amounts].
  split; [right; cbn; tauto|]. split; [right; cbn; tauto|]. split; [right; reflexivity|]. repeat constructor.
Qed.
Lemma rules_say n t : files w (located (cwd w) r0) = Some t -> spoken (parse_rules n w t) blame lawful.
Proof.
  intro F. unfold parse_rules. destruct (layout_total (rule_lines t)) as (is & La). rewrite (rules_layout _ _ _ _ La).
  assert (forall l, ruled is l -> rule_line w r0 l) as Rl by (intros l Hl; exists (located (cwd w) r0), t, is; split; [apply rules_main|auto]).
  apply items_say; [exact Rl| |apply default_lawful]. intros l f r' Hl If L'. apply files_say; [exact L'| |right; exists l; auto].
  eapply rules_include; [apply rules_main|exact F|exact La|exact Hl|exact If].
Qed.
Lemma select_lawful lower rec r : lawful r -> lawful_root (select_rules lower rec r).
Proof.
  induction 1 as [r L _ IH]. destruct r as [ac am co de fo da dc fi pa sk st subs]. cbn [select_rules r_subrules] in *.
  assert (forall l, incl l subs -> lawful_root ((fix go (l : list (list str * rules)) : rules :=
     match l with
     | [] => mkRules ac am co de fo da dc fi pa sk st subs
     | (pats, r') :: l' => if applies_to lower pats rec then select_rules lower rec r' else go l'
     end) l)) as G.
  { induction l as [|(ps & b) l IHl]; intro S; [exact L|]. destruct (applies_to lower ps rec).
    - apply (IH ps b). apply S. left. reflexivity.
    - apply IHl. intros y Iy. apply S. right. exact Iy. }
  apply G. apply incl_refl.
Qed.
End rules.

(** ** Records *)
Lemma get_some {A} k (v : A) m : map_get k m = Some v -> In (k, v) m.
Proof.
  induction m as [|(k' & v') m IH]; [discriminate|]. cbn [map_get]. destruct (str_eqb k' k) eqn:E; intro H.
  - apply str_eqb_eq in E. injection H as ->. subst. left. reflexivity.
  - right. exact (IH H).
Qed.
Section record.
Context (x : context) (w0 : world) (j : str) (w : world) (c r : str).
Context (O : forall l v, In v (x_ord x l) -> In v l).
Let why := import_reason x w0 j w c r.
Lemma variables_say fields rec : Forall (field_name w r) fields -> record_of x w c rec ->
  spoken (make_variables fields rec []) why (fun vars => valued x w c r vars).
Proof.
  intros F Rec. assert (forall fs vs acc, Forall (field_name w r) fs -> incl vs rec -> Forall (fun v => field_name w r (fst v) /\ In (snd v) rec) acc ->
    spoken (make_variables fs vs acc) why (fun vars => valued x w c r vars)) as G.
  { induction fs as [|f fs IH]; intros vs acc Ff Iv Fa; cbn [make_variables]; [exists rec; auto|]. destruct vs as [|v vs]; [exists rec; auto|].
    inversion Ff as [|? ? Hf Ff']; subst. destruct (map_get f acc); [exact Hf|]. apply IH; [exact Ff'|intros y Iy; apply Iv; right; exact Iy|].
    apply insert_Forall; [exact Fa|]. split; [exact Hf|apply Iv; left; reflexivity]. }
  apply G; [exact F|apply incl_refl|constructor].
Qed.
Lemma founded_why t vars s e : posting_rule w r t -> valued x w c r vars -> filled_in vars t s -> founded (fun q => part q s) e -> why e.
Proof.
  intros T V Fi Fo. unfold why, import_reason. pose proof Fo as Fo'. destruct e as [p|v|p|b|p]; cbn [founded] in Fo'; try (destruct Fo'; fail).
  - destruct p; try (exists t, vars, s; auto; fail); destruct Fo' as (N & _); destruct (N I).
  - destruct v; try (exists t, vars, s; auto; fail); destruct Fo' as (N & _); destruct (N I).
Qed.
Lemma record_says lower rs names rec : lawful w r rs -> record_of x w c rec ->
  spoken (import_record lower (x_ord x) rs names rec) why (fun _ => True).
Proof.
  intros L Rec. unfold import_record, entry_of_record. apply (select_lawful w r lower rec) in L. destruct L as (D & St & F & Fi & Ac & Am).
  set (r1 := select_rules lower rec rs) in *. apply (spoken_bind _ _ _ _ _ (variables_say _ _ Fi Rec)). intros vars _ V. cbv zeta.
  apply (spoken_bind _ _ _ (fun _ => True)).
  { unfold ok_or. destruct (parse_date _ _); [exact I|]. split; [|exact F]. exists (r_date r1), vars. split; [exact D|]. split; [exact V|]. apply inject_filled. apply O. }
  intros d _ _. apply (spoken_bind _ _ _ (fun _ => True)).
  { eapply spoken_weaken with (E := fun e => e = EParse (UnknownStatus (inject (x_ord x) vars (r_status r1)))) (P := fun _ => True); [| |auto].
    - unfold parse_status. repeat first [exact I|reflexivity|match goal with |- spoken (match ?e with _ => _ end) _ _ => destruct e end].
    - intros e ->. apply (founded_why (r_status r1) vars (inject (x_ord x) vars (r_status r1))); [left; exact St|exact V|apply inject_filled; apply O|].
      split; [intros []|]. repeat constructor. apply part_refl. }
  intros st _ _. apply (spoken_bind _ _ _ (fun _ => True)).
  { apply spoken_map. intros ka Ika. apply O in Ika.
    assert (rule_text w r (snd ka)) as Ta.
    { unfold accounts_or_default in Ika. destruct (r_accounts r1) as [|y l]; [destruct Ika as [<-|[]]; right; cbn; tauto|]. rewrite Forall_forall in Ac. exact (Ac ka Ika). }
    unfold import_posting. cbv zeta. set (raw := match map_get _ _ with Some a => _ | None => _ end).
    assert (posting_rule w r raw) as Tr.
    { unfold raw. destruct (map_get (fst ka) (amounts_or_default r1)) as [a|] eqn:G; [|left; exact Ta]. right. exists (snd ka), a. split; [exact Ta|]. split; [|reflexivity].
      unfold amounts_or_default in G. destruct (r_amounts r1) as [|y l].
      - cbn in G. destruct (fst ka); [injection G as <-|discriminate]. right. cbn. tauto.
      - apply get_some in G. rewrite Forall_forall in Am. exact (Am (fst ka, a) G). }
    eapply spoken_weaken; [apply (posting_says (fun q => part q (inject (x_ord x) vars raw)) ltac:(intros q t Q T; exact (part_trans q t _ Q T)) _ _ _ (part_refl _))| |auto].
    intros e Fe. apply (founded_why raw vars (inject (x_ord x) vars raw)); [exact Tr|exact V|apply inject_filled; apply O|exact Fe]. }
  intros ps _ _. apply (spoken_bind _ _ _ (fun _ => True)); [|intros; exact I].
  unfold complete_postings. destruct (rev ps) as [|p [|p' ps']]; [exists rec; auto| |exact I]. destruct (get_amount p); [exact I|exists rec; exact Rec].
Qed.

(** ** Importing *)
Lemma imported_says l e : l_path l = j -> (forall k a, In (k, a) (l_accounts l) -> fits w0 j a) -> imported x w c r e ->
  spoken (add_entry (x_today x) l e) why (fun l' => l_path l' = j /\ forall k a, In (k, a) (l_accounts l') -> fits w0 j a).
Proof.
  intros Lp F R. unfold add_entry. apply (spoken_bind _ _ _ (fun _ => True)).
  - apply spoken_map. intros (k & a) Ia. cbn [fst snd]. apply (spoken_bind _ _ _ (fun _ => True)); [|intros; exact I].
    eapply spoken_weaken; [apply process_says| |auto]. intros y [-> |(v & Iv & Hx)]; [exists e; auto|].
    destruct Hx as [-> |[-> | ->]]; [exists e; auto|exists e; auto|]. split; [exists e; auto|].
    destruct (F k a Ia) as (a0 & D & Fv). destruct (Fv v Iv) as (v0 & I0 & S0). exists a0, v0.
    split; [exact D|]. split; [exact I0|]. destruct S0 as (N & _ & _ & _ & _ & _ & _ & Ac). split; [congruence|].
    destruct D as (c0 & fmt & _ & _ & Pa). apply parse_account_sound in Pa as (Fr & _). destruct (Fr v0 I0) as (Q & _). congruence.
  - intros accs E _. split; [exact Lp|]. intros k b Ib. cbn [l_accounts] in Ib. apply map_res_Ok in E. revert F E Ib. generalize (l_accounts l) as m.
    intros m F E. induction E as [|(k1 & a1) (k2 & a2) m m' H E IH]; [intros []|].
    cbn [fst snd] in H. apply bind_Ok in H as (a3 & Ha & H). injection H as <- <-. intros [Q|Ib].
    + injection Q as <- <-. eapply fits_process; [|exact Ha]. apply (F k1). left. reflexivity.
    + apply IH; [|exact Ib]. intros k' a' I'. apply (F k'). right. exact I'.
Qed.
Lemma records_say mk recs : (forall rec, In rec recs -> spoken (mk rec) why (fun _ => True)) ->
  (forall rec e, In rec recs -> mk rec = Ok e -> imported x w c r e) ->
  forall l w', l_path l = j -> (forall k a, In (k, a) (l_accounts l) -> fits w0 j a) ->
  spoken (snd (import_records (x_today x) mk l w' recs)) why (fun _ => True).
Proof.
  induction recs as [|rec recs IH]; intros Mk Im l w' Lp F; [exact I|]. cbn [import_records].
  pose proof (Mk rec (or_introl eq_refl)) as Sr. destruct (mk rec) as [e|e| |] eqn:E; cbn [snd]; try exact I; [|exact Sr].
  specialize (Im rec e (or_introl eq_refl) E) as Ie.
  assert (spoken (snd (append_entry (x_today x) l w' e)) why (fun l' => l_path l' = j /\ forall k a, In (k, a) (l_accounts l') -> fits w0 j a)) as A.
  { unfold append_entry, append_file. rewrite Lp. destruct (files w' (resolve w' j)); [|left; reflexivity]. destruct (printable _); [|exact I]. cbn [snd].
    apply imported_says; assumption. }
  destruct (append_entry (x_today x) l w' e) as [w2 [l2|e2| |]]; cbn [snd] in *; try exact I; [|exact A]. destruct A as (Lp2 & F2).
  apply IH; auto; [intros; apply Mk; right; assumption|]. intros rec' e' I'. apply Im. right. exact I'.
Qed.
Lemma collect_says l : spoken (collect_records l) (fun e => e = EParse CsvRecord /\ In None l) (fun _ => True).
Proof.
  induction l as [|[y|] l IH]; [exact I| |split; [reflexivity|left; reflexivity]]. cbn [collect_records].
  apply (spoken_bind _ _ _ (fun _ => True)); [|intros; exact I]. eapply spoken_weaken; [exact IH| |auto]. intros e (-> & N). split; [reflexivity|right; exact N].
Qed.
Lemma skip_In n l y : In y (skip_records n l) -> In y l.
Proof.
  unfold skip_records. destruct (n <? 0)%Z; [intros []|]. intro I. rewrite <- (firstn_skipn (Z.to_nat n)). apply in_or_app. right. exact I.
Qed.
Lemma import_says l rf : dirs w (cwd w) = true -> r = match rf with Some p => p | None => c ++ lit ".rules" end ->
  l_path l = j -> (forall k a, In (k, a) (l_accounts l) -> fits w0 j a) ->
  spoken (snd (import_csv (x_fuel x) (x_today x) (x_lower x) (x_ord x) (x_csv x) l w c rf)) why (fun _ => True).
Proof.
  intros Dw Er Lp F. unfold import_csv.
  assert (spoken (open_importer (x_fuel x) w (x_csv x) c rf) why (fun o => lawful w r (fst o) /\ forall rec, In rec (snd o) ->
    record_of x w c rec /\ forall e, import_record (x_lower x) (x_ord x) (fst o) (account_names l) rec = Ok e -> imported x w c r e)) as Op.
  { unfold open_importer. rewrite <- Er. unfold read_file at 1. change (resolve w c) with (located (cwd w) c).
    destruct (files w (located (cwd w) c)) as [tc|] eqn:Fc; [|right; left; reflexivity]. cbn [bind]. unfold read_file at 1.
    change (resolve w r) with (located (cwd w) r). destruct (files w (located (cwd w) r)) as [tr|] eqn:Fr; [|right; right; left; reflexivity]. cbn [bind].
    apply (spoken_bind _ _ _ (lawful w r)).
    { eapply spoken_weaken; [apply (rules_say w r (x_fuel x) tr Fr)| |auto]. intros e B. apply B. }
    intros rs Ers L. apply (spoken_bind _ _ _ (fun _ => True)).
    { eapply spoken_weaken; [apply collect_says| |auto]. intros e (-> & N). exists tc. split; [exact Fc|]. exact (skip_In _ _ _ N). }
    intros recs Erecs _. split; [exact L|]. cbn [fst snd]. intros rec Ir. apply (collect_In _ _ Erecs), skip_In in Ir.
    split; [exists tc; auto|]. intros e Ee. exists (cwd w), tr, tc, rs, (account_names l), rec. split; [exact Dw|]. split; [exact Fr|]. split; [exact Fc|].
    split; [destruct w; exact Ers|]. auto. }
  destruct (open_importer _ _ _ _ _) as [[rs recs]|e| |]; cbn [snd]; try exact I; [|exact Op]. destruct Op as (L & Op). cbn [fst snd] in *.
  apply records_say; [|intros rec e Ir; apply Op; exact Ir|exact Lp|exact F]. intros rec Ir. apply record_says; [exact L|]. apply Op. exact Ir.
Qed.
End record.
