(** Properties C74 and C75: rules, and the entry made from a record. *)
From Coq Require Import ZArith NArith List Bool String Permutation Lia.
From Verif Require Import Base Str F64 Date Amount Posting Entry Envelope Account World Register Ledger Importer
  SpecAmount SpecDate SpecEntry SpecEnvelope SpecLedger SpecRegister SpecImport SpecRules StrFacts LineFacts AmountFacts EntryFacts
  EnvelopeFacts LedgerFacts RegisterFacts ImportFacts RuleFacts SubstFacts RunFacts PropertiesLedger PropertiesImport.
Import ListNotations.
Local Open Scope Z_scope.

(** ** C75 *)
Lemma entry_of_get m k : entry_of m k = map_get k m.
Proof. symmetry. apply map_get_lookup. Qed.
Lemma is_digit_range c : is_digit c = true <-> (48 <= c <= 57)%N.
Proof. unfold is_digit. rewrite andb_true_iff, !N.leb_le. reflexivity. Qed.
Lemma digits_iff s : digits s <-> s <> [] /\ forallb is_digit s = true.
Proof.
  unfold digits. rewrite forallb_forall, Forall_forall. split; intros [N H]; (split; [exact N|]); intros c I; apply is_digit_range, H, I.
Qed.
Lemma whole_fold s : forall n, whole n s = fold_left (fun n c => 10 * n + digit_val c) s n.
Proof. induction s as [|c s IH]; intro n; [reflexivity|]. cbn [whole fold_left]. rewrite IH. reflexivity. Qed.
Lemma parse_i32_iff v n : parse_i32 v = Some n <-> integer_text v n /\ - 2 ^ 31 <= n < 2 ^ 31.
Proof.
  assert (forall (neg : bool) ds, match ds with
    | [] => None
    | _ => if forallb is_digit ds then
             let v := if neg then - digits_val ds else digits_val ds in
             if (- 2 ^ 31 <=? v) && (v <? 2 ^ 31) then Some v else None
           else None
    end = Some n <-> digits ds /\ n = (if neg then - whole 0 ds else whole 0 ds) /\ - 2 ^ 31 <= n < 2 ^ 31) as K.
  { intros neg ds. rewrite digits_iff. unfold digits_val. rewrite <- whole_fold. destruct ds as [|d ds].
    - split; [discriminate|]. intros [[H _] _]. contradiction.
    - destruct (forallb is_digit (d :: ds)); [|split; [discriminate|intros [[_ H] _]; discriminate]].
      set (x := if neg then - _ else _). cbv zeta. destruct (Z.leb_spec (- 2 ^ 31) x) as [L|L], (Z.ltb_spec x (2 ^ 31)) as [M|M]; cbn [andb].
      + split; [intro E; inversion E; subst|intros (_ & -> & _); reflexivity]. split; [split; [discriminate|reflexivity]|]. split; [reflexivity|lia].
      + split; [discriminate|]. intros (_ & -> & H). lia.
      + split; [discriminate|]. intros (_ & -> & H). lia.
      + split; [discriminate|]. intros (_ & -> & H). lia. }
  assert (forall s c, digits s -> In c s -> (48 <= c <= 57)%N) as Dg.
  { intros s c [_ F] I. rewrite Forall_forall in F. apply F, I. }
  unfold parse_i32. destruct v as [|c v].
  - cbv beta iota zeta. split; [discriminate|]. intros [H _]. inversion H as [s [N _]|s D E|s D E]; subst; [contradiction|discriminate..].
  - destruct (N.eqb_spec c (chr "-")) as [->|N1]; [|destruct (N.eqb_spec c (chr "+")) as [->|N2]]; cbv beta iota.
    + rewrite (K true v). split.
      * intros (D & -> & R). split; [|exact R]. exact (int_minus v D).
      * intros [H R]. inversion H as [s D E|s D E|s D E]; subst.
        { specialize (Dg _ (chr "-") D (or_introl eq_refl)). cbn in Dg. lia. }
        { split; [exact D|]. auto. }
    + rewrite (K false v). split.
      * intros (D & -> & R). split; [|exact R]. exact (int_plus v D).
      * intros [H R]. inversion H as [s D E|s D E|s D E]; subst.
        { specialize (Dg _ (chr "+") D (or_introl eq_refl)). cbn in Dg. lia. }
        { split; [exact D|]. auto. }
    + rewrite (K false (c :: v)). split.
      * intros (D & -> & R). split; [|exact R]. exact (int_plain _ D).
      * intros [H R]. inversion H as [s D E|s D E|s D E]; subst; [split; [exact D|]; auto| |]; exfalso.
        { apply N2. reflexivity. }
        { apply N1. reflexivity. }
Qed.
Lemma Forall_blank s : Forall blank_char s <-> all_ws s.
Proof. rewrite Forall_forall, all_ws_In. reflexivity. Qed.
Lemma past_blanks_iff v v' : past_blanks v v' <-> v' = trim_start v.
Proof.
  split.
  - intros (a & -> & F & H). rewrite trim_start_ws by (apply Forall_blank, F). symmetry. apply trim_start_id.
    destruct v' as [|c t]; [exact I|]. specialize (H c t eq_refl). unfold blank_char in H. destruct (is_ws c); [contradiction|reflexivity].
  - intros ->. destruct (trim_start_spec v) as (a & E & A & H). exists a. split; [exact E|]. split; [apply Forall_blank, A|].
    intros c t Q. rewrite Q in H. unfold blank_char. rewrite H. discriminate.
Qed.
Lemma trimmed_iff s : trimmed s <-> (forall c t, s = c :: t -> ~ blank_char c) /\ (forall t c, s = t ++ [c] -> ~ blank_char c).
Proof.
  unfold trimmed, blank_char. split.
  - intros [A B]. split.
    + intros c t ->. rewrite A. discriminate.
    + intros t c ->. rewrite rev_app_distr in B. cbn in B. rewrite B. discriminate.
  - intros [A B]. split.
    + destruct s as [|c t]; [exact I|]. specialize (A c t eq_refl). destruct (is_ws c); [contradiction|reflexivity].
    + destruct (rev s) as [|c t] eqn:E; [exact I|]. assert (s = rev t ++ [c]) as -> by (rewrite <- (rev_involutive s), E; reflexivity).
      specialize (B _ _ eq_refl). destruct (is_ws c); [contradiction|reflexivity].
Qed.
Lemma stripped_iff p s : stripped p s <-> s = trim p.
Proof.
  split.
  - intros [a s' b A B F L]. symmetry. apply trim_wrap; try (apply Forall_blank; assumption). apply trimmed_iff. auto.
  - intros ->. destruct (trim_spec p) as (a & b & E & A & B & T). apply trimmed_iff in T as [F L]. rewrite E at 1.
    constructor; try (apply Forall_blank; assumption); assumption.
Qed.
Lemma between_commas_iff v ps : between_commas v ps <-> ps = split_on (chr ",") v.
Proof.
  split.
  - induction 1 as [s N|s rest ps N _ IH]; [symmetry; apply split_on_none, N|]. subst ps. change (chr ",") with 44%N. rewrite split_on_app by exact N. reflexivity.
  - intros ->. remember (List.length v) as n eqn:Ln. revert v Ln. induction n as [n IH] using lt_wf_ind. intros v ->.
    destruct (in_dec N.eq_dec 44%N v) as [I|N].
    + apply in_split in I as (a & b & E).
      destruct (find_char 44%N v) as [i|] eqn:F; [|apply find_char_None in F; exfalso; apply F; rewrite E; apply in_elt].
      apply find_char_Some in F as [F1 F2]. apply nth_error_split in F1 as (l1 & l2 & -> & Ll).
      assert (~ In 44%N l1) as N.
      { intro I. apply In_nth_error in I as (j & J). apply (F2 j).
        - rewrite <- Ll. apply nth_error_Some. congruence.
        - rewrite nth_error_app1; [exact J|]. apply nth_error_Some. congruence. }
      change (chr ",") with 44%N. rewrite split_on_app by exact N. apply commas_more; [exact N|].
      apply (IH (List.length l2)); [|reflexivity]. rewrite app_length. cbn [List.length]. lia.
    + change (chr ",") with 44%N. rewrite split_on_none by exact N. constructor. exact N.
Qed.
Lemma stripped_map ps ns : Forall2 stripped ps ns <-> ns = map trim ps.
Proof.
  split.
  - induction 1 as [|p n ps ns H _ IH]; [reflexivity|]. cbn [map]. apply stripped_iff in H. congruence.
  - intros ->. induction ps as [|p ps IH]; constructor; [apply stripped_iff; reflexivity|exact IH].
Qed.
Lemma bytes_one v : (byte_len v <= 1)%nat <-> v = [] \/ exists c, v = [c] /\ (c < 128)%N.
Proof.
  assert (forall c, (1 <= utf8_len c)%nat /\ (utf8_len c = 1%nat <-> (c < 128)%N)) as K.
  { intro c. unfold utf8_len. destruct (N.ltb_spec c 128); [split; [|split]; auto; lia|].
    repeat match goal with |- context[if ?b then _ else _] => destruct b end; split; try split; intros; try lia; discriminate. }
  destruct v as [|c [|d v]].
  - cbn. split; [auto|lia].
  - unfold byte_len. cbn [fold_right]. destruct (K c) as [L E]. rewrite Nat.add_0_r. split.
    + intro H. right. exists c. split; [reflexivity|]. apply E. lia.
    + intros [H|(c' & H & Q)]; inversion H; subst. apply E in Q. lia.
  - unfold byte_len. cbn [fold_right]. destruct (K c) as [L _], (K d) as [M _]. split; [lia|].
    intros [H|(c' & H & Q)]; inversion H.
Qed.
Lemma put_sets line s v r :
  (forall r', put line s v r = Ok r' -> set_to s v (setting_of s r) (setting_of s r')
     /\ (forall s', s' <> s -> setting_of s' r' = setting_of s' r) /\ r_subrules r' = r_subrules r)
  /\ (forall new, set_to s v (setting_of s r) new -> exists r', put line s v r = Ok r').
Proof.
  assert (forall (m : list (str * str)) k k', k' <> k -> entry_of (map_insert k v m) k' = entry_of m k') as Other.
  { intros m k k' N. rewrite !entry_of_get, map_get_insert. destruct (str_dec k k'); [congruence|reflexivity]. }
  assert (forall (m : list (str * str)) k, entry_of (map_insert k v m) k = Some v) as Same.
  { intros m k. rewrite entry_of_get, map_get_insert. destruct (str_dec k k); [reflexivity|contradiction]. }
  split.
  - intros r' H. destruct s; cbn [put] in H;
      try (injection H as <-; split; [first [constructor; cbn [In]; solve [auto 10]
             |cbn [setting_of set_amounts set_accounts r_amounts r_accounts]; rewrite Same; constructor
             |eapply set_names; [apply between_commas_iff; reflexivity|apply stripped_map; reflexivity]]
         |split; [|reflexivity]; intros s' N; destruct s'; try reflexivity; try congruence;
          cbn [setting_of set_amounts set_accounts r_amounts r_accounts]; rewrite Other by congruence; reflexivity]).
    + destruct (Nat.ltb_spec 1 (byte_len v)) as [L|L]; [discriminate|]. apply bytes_one in L.
      destruct L as [-> |(c & -> & Q)]; [discriminate|]. injection H as <-. split; [constructor; exact Q|].
      split; [|reflexivity]. intros s' N; destruct s'; try reflexivity; congruence.
    + destruct (parse_i32 v) as [n|] eqn:E; [|discriminate]. injection H as <-. apply parse_i32_iff in E as [E R].
      split; [constructor; assumption|]. split; [|reflexivity]. intros s' N; destruct s'; try reflexivity; congruence.
  - intros new H. inversion H; subst; cbn [put]; try (eexists; reflexivity).
    + cbn [In] in H0. destruct H0 as [<-|[<-|[<-|[<-|[<-|[<-|[]]]]]]]; eexists; reflexivity.
    + assert (byte_len [c] <= 1)%nat as L by (apply bytes_one; eauto).
      destruct (Nat.ltb_spec 1 (byte_len [c])); [lia|]. eexists. reflexivity.
    + assert (parse_i32 v = Some n) as -> by (apply parse_i32_iff; auto). eexists. reflexivity.
Qed.

Theorem C75_sets : forall inc r n v v' s r', rule_ok (n, v) -> slot_of n = Some s -> ~ stripped v (lit "-") ->
  past_blanks v v' -> add_from_line inc r (written_rule (n, v)) = Ok r' ->
  set_to s v' (setting_of s r) (setting_of s r')
  /\ (forall s', s' <> s -> setting_of s' r' = setting_of s' r) /\ r_subrules r' = r_subrules r.
Proof.
  intros inc r n v v' s r' R Hs N P H. rewrite (written_rule_eq inc r _ R) in H. cbn [fst snd] in H. apply past_blanks_iff in P. subst v'.
  assert (trim (trim_start v) = trim v) as E.
  { destruct (trim_start_spec v) as (a & Ev & A & _). rewrite Ev at 2. unfold trim. f_equal. symmetry. apply trim_start_ws, A. }
  apply (apply_slot inc _ r n s _ _ Hs) in H as [(_ & T & _)|(_ & H)].
  - exfalso. apply N. apply stripped_iff. rewrite <- T, E. reflexivity.
  - apply (proj1 (put_sets _ s _ r) r' H).
Qed.
Print Assumptions C75_sets.

(** It fails only if there is no such value. *)
Theorem C75_accepts : forall inc r n v v' s new, rule_ok (n, v) -> slot_of n = Some s -> ~ stripped v (lit "-") ->
  past_blanks v v' -> set_to s v' (setting_of s r) new ->
  exists r', add_from_line inc r (written_rule (n, v)) = Ok r'.
Proof.
  intros inc r n v v' s new R Hs N P H. rewrite (written_rule_eq inc r _ R). cbn [fst snd]. apply past_blanks_iff in P. subst v'.
  assert (trim (trim_start v) = trim v) as E.
  { destruct (trim_start_spec v) as (a & Ev & A & _). rewrite Ev at 2. unfold trim. f_equal. symmetry. apply trim_start_ws, A. }
  unfold apply_rule. cbn [fst snd]. rewrite E. destruct (str_eqb_spec (trim v) (lit "-")) as [T|_].
  - exfalso. apply N, stripped_iff. congruence.
  - rewrite (set_slot inc _ r n s _ Hs). apply (proj2 (put_sets _ s _ r) new H).
Qed.
Print Assumptions C75_accepts.

Example C75_case :
  let r := rules_of ["fields date,  amount , ,x"; "fields y"; "decimal ,"; "skip +02"; "account1  a b "; "amount %x%"; "payee p"; "amount2 -"]%string in
  map (fun s => setting_of s r) [SFields; SDecimal; SSkip; SAccount (lit "1"); SAmount []; SPayee; SAmount (lit "2"); SDate]
  = [Names (map lit ["date"; "amount"; ""; "x"; "y"]%string); Symbol 44%N; Count 2; Perhaps (Some (lit "a b "));
     Perhaps (Some (lit "%x%")); Words (lit "p"); Perhaps None; Words (lit "%date%")]
  /\ parse_rules 3 nowhere (lit "decimal ,,") = Err (EParse (DecimalLong (lit "decimal ,,")))
  /\ parse_rules 3 nowhere (lit "skip two") = Err (EParse (SkipNumber (lit "two")))
  /\ parse_rules 3 nowhere (lit "skip 2147483648") = Err (EParse (SkipNumber (lit "2147483648"))).
Proof. vm_compute. repeat split. Qed.

(** ** C74 *)
Lemma inject_filled ord vars s : (forall l, Permutation (ord l) l) -> good_vars vars -> good_text vars s ->
  filled_in vars s (inject ord vars s).
Proof.
  intros O (N & F) (ps & -> & P & W). exists ps. split; [reflexivity|]. split; [exact P|]. split; [exact W|].
  apply inject_template; auto.
Qed.
Lemma filled_unique vars s t t' : good_vars vars -> filled_in vars s t -> filled_in vars s t' -> t = t'.
Proof.
  intros (N & F) (ps & E & P & W & ->) (qs & E' & Q & V & ->). assert (forall l, Permutation ((fun l : list (str * str) => l) l) l) as O by reflexivity.
  rewrite <- (inject_template (fun l => l) vars ps (O vars) N F P W), <- (inject_template (fun l => l) vars qs (O vars) N F Q V). congruence.
Qed.
Lemma trim_blank s : Forall blank_char s <-> trim s = [].
Proof. rewrite trim_nil. apply Forall_blank. Qed.
Lemma perhaps_inject ord vars s : (forall l, Permutation (ord l) l) -> good_vars vars -> good_text vars s ->
  perhaps_filled vars s (match trim s with [] => None | _ => Some (inject ord vars s) end).
Proof.
  intros O V G. destruct (trim s) as [|c t] eqn:E.
  - left. split; [apply trim_blank, E|reflexivity].
  - right. split; [rewrite trim_blank; congruence|]. eexists. split; [apply inject_filled; eassumption|reflexivity].
Qed.

(** Missing: texts that are not made of literal text and references to fields,
    and fields with percent signs (see C57). *)
Theorem C74_entry_partial : forall ord r rec accounts e, (forall l, Permutation (ord l) l) ->
  let vars := combine (r_fields r) rec in
  good_vars vars -> Forall (good_text vars) (rule_texts r) ->
  entry_of_record ord r rec accounts = Ok e ->
  (exists t, filled_in vars (r_date r) t /\ parse_date t (r_format r) = Some (e_date e))
  /\ (exists t, filled_in vars (r_status r) t /\ sign_of (e_status e) t)
  /\ filled_in vars (r_desc r) (e_desc e)
  /\ perhaps_filled vars (r_payee r) (e_payee e)
  /\ (exists c, perhaps_filled vars (r_comment r) c /\ e_comment e = match c with Some [] => None | _ => c end).
Proof.
  intros ord r rec accounts e O vars V G H.
  apply entry_of_record_Ok in H as (vars' & d & st & ps & ps' & Hv & Hd & Hs & _ & _ & ->).
  rewrite make_variables_combine in Hv by apply V. injection Hv as <-. cbn [app] in *. fold vars in Hd, Hs |- *.
  rewrite Forall_forall in G. unfold rule_texts in G.
  assert (forall s, In s [r_date r; r_desc r; r_status r; r_payee r; r_comment r] -> good_text vars s) as K.
  { intros s I. apply G, in_or_app. left. exact I. }
  cbn [new_entry e_date e_status e_desc e_payee e_comment].
  split; [|split; [|split; [|split]]].
  - eexists. split; [|exact Hd]. apply inject_filled; auto. apply K. cbn. auto.
  - eexists. split; [|apply parse_status_Ok, Hs]. apply inject_filled; auto. apply K. cbn. auto.
  - apply inject_filled; auto. apply K. cbn. auto.
  - apply perhaps_inject; auto. apply K. cbn. auto 10.
  - eexists. split; [|reflexivity]. apply perhaps_inject; auto. apply K. cbn. auto 10.
Qed.
Print Assumptions C74_entry_partial.

(** And there is such an entry if the texts can be read. *)
Theorem C74_happens : forall ord r rec accounts dt d st_text st ps, (forall l, Permutation (ord l) l) ->
  let vars := combine (r_fields r) rec in
  good_vars vars ->
  filled_in vars (r_date r) dt -> parse_date dt (r_format r) = Some d ->
  filled_in vars (r_status r) st_text -> sign_of st st_text ->
  Forall2 (fun ka p => exists t, filled_in vars (posting_text r ka) t /\ parse_posting t (r_decimal r) accounts = Ok p)
    (account_rules r) ps ->
  (2 <= List.length ps)%nat \/ (exists p a, ps = [p] /\ get_amount p = Some a) ->
  exists e, entry_of_record ord r rec accounts = Ok e.
Proof.
  intros ord r rec accounts dt d st_text st ps O vars V Fd Hd Fs Hs Fp N.
  assert (forall s t, filled_in vars s t -> inject ord vars s = t) as K.
  { intros s t F. assert (good_text vars s) as G by (destruct F as (qs & ? & ? & ? & _); exists qs; auto).
    exact (filled_unique vars s _ _ V (inject_filled ord vars s O V G) F). }
  unfold entry_of_record. rewrite make_variables_combine by apply V. cbn [app bind]. fold vars.
  rewrite (K _ _ Fd), Hd. cbn [ok_or bind]. rewrite (K _ _ Fs). apply parse_status_Ok in Hs. rewrite Hs. cbn [bind].
  assert (map_res (import_posting ord vars r accounts) (accounts_or_default r) = Ok ps) as M.
  { apply map_res_Ok. change (accounts_or_default r) with (account_rules r). clear - Fp K.
    induction Fp as [|ka p kas ps (t & F & P) _ IH]; constructor; [|exact IH]. rewrite import_posting_text, (K _ _ F). exact P. }
  destruct (both_Ok _ _ _ (map_res_perm (import_posting ord vars r accounts) _ _ (Permutation_sym (O (accounts_or_default r))))) as [Q _].
  destruct (Q ps M) as (qs & -> & Pm). cbn [bind].
  assert (exists c, complete_postings rec (rev qs) = Ok c) as (c & ->).
  { assert (Permutation ps (rev qs)) as Pm' by (rewrite <- Permutation_rev; exact Pm).
    destruct N as [L|(p & a & -> & A)].
    - apply Permutation_length in Pm'. destruct (rev qs) as [|q1 [|q2 qs']]; cbn [List.length] in Pm'; try lia. eexists. reflexivity.
    - apply Permutation_length_1_inv in Pm'. rewrite Pm'. unfold complete_postings. rewrite A. eexists. reflexivity. }
  cbn [bind]. eexists. reflexivity.
Qed.
Print Assumptions C74_happens.

(** A field with a percent sign: its text is itself taken for a reference. *)
Theorem C74_refuted : exists ord r rec accounts e, (forall l, Permutation (ord l) l)
  /\ entry_of_record ord r rec accounts = Ok e
  /\ r_desc r = lit "paid %text%"
  /\ map_get (lit "text") (combine (r_fields r) rec) = Some (lit "%sum% off")
  /\ e_desc e <> lit "paid %sum% off".
Proof.
  set (r := rules_of ["fields day, text, sum"; "date %day%"; "date_format %d.%m.%Y"; "description paid %text%";
                      "status *"; "account assets:bank"; "amount %sum%"]%string).
  set (rec := rec_of ["31.01.2024"; "%sum% off"; "50"]%string).
  exists as_is, r, rec, accounts_here, (match entry_of_record as_is r rec accounts_here with Ok e => e | _ => new_entry epoch Cleared [] None [] None end).
  split; [reflexivity|]. split; [vm_compute; reflexivity|]. split; [vm_compute; reflexivity|]. split; [vm_compute; reflexivity|].
  vm_compute. discriminate.
Qed.
Print Assumptions C74_refuted.

Example C74_case :
  let r := rules_of ["fields day, text, , sum"; "date %day%"; "date_format %d.%m.%Y"; "decimal ,"; "description <%text%>";
                     "status *"; "payee by %text%"; "comment %text%"; "account assets:bank"; "amount -%sum% EUR"]%string in
  let rec := rec_of ["31.01.2024"; "tea"; "no"; "2,50"; "more"]%string in
  match entry_of_record as_is r rec accounts_here with
  | Ok e => show_entry default_format e = text [
      "2024/01/31 * <tea> [by tea] // tea";
      "    assets:bank                                        -2.5 EUR";
      "    expenses:unknown                                   "; ""]%string
      /\ filled_in (combine (r_fields r) rec) (r_desc r) (e_desc e)
  | _ => False
  end
  /\ entry_of_record as_is r (rec_of ["01/31/2024"; "tea"; "no"; "2,50"]%string) accounts_here = Err (EParse (ImportDate (lit "01/31/2024") (lit "%d.%m.%Y"))).
Proof.
  vm_compute. split; [|reflexivity]. split; [reflexivity|].
  exists [Text (lit "<"); Ref (lit "text"); Text (lit ">")]. repeat split.
  - repeat constructor; cbn; intuition discriminate.
  - intros t1 a mid b t2 E. exfalso.
    apply (f_equal (fun l => List.length (filter (fun p => match p with Ref _ => true | Text _ => false end) l))) in E.
    rewrite filter_app, app_length in E. cbn [filter List.length] in E. rewrite filter_app, app_length in E. cbn [filter List.length] in E. lia.
Qed.
