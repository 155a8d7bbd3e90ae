(** The words of entries have no effect on the numbers. *)
From Coq Require Import ZArith NArith List Bool String.
From Verif Require Import Base Str F64 Date World Amount Posting Entry Envelope Account Register Ledger SpecText SpecEntry SpecLedger SpecWords
  StrFacts LineFacts EntryFacts EntryText LoadFacts ErrorFacts AlikeFacts.
Import ListNotations.

(** ** Outcomes of the same kind *)
Lemma together_bind {A B C D} (R : A -> B -> Prop) (S : C -> D -> Prop) r s f g :
  together R r s -> (forall a b, R a b -> together S (f a) (g b)) -> together S (bind r f) (bind s g).
Proof. destruct r, s; cbn; intros H K; try contradiction; auto. Qed.
Lemma together_eq {A} (r : res A) : together eq r r.
Proof. destruct r; cbn; auto. Qed.
Lemma together_plain {A} (r s : res A) : plain r = plain s -> together eq r s.
Proof. destruct r, s; cbn; intro H; try discriminate; try exact I; congruence. Qed.
Lemma together_fold {A B C D} (R : A -> B -> Prop) (L : C -> D -> Prop) f g l m :
  Forall2 L l m -> (forall a b c d, R a b -> L c d -> together R (f a c) (g b d)) ->
  forall a b, R a b -> together R (fold_res f l a) (fold_res g m b).
Proof.
  intros F H. induction F as [|c d l m Lcd _ IH]; intros a b Rab; [exact Rab|].
  cbn [fold_res]. eapply together_bind; [apply H; eassumption|]. exact IH.
Qed.

(** ** Entries *)
Lemma w_blank_native e e' ps : forall acc, plain (blank_native e' ps acc) = plain (blank_native e ps acc).
Proof. induction ps as [|p ps IH]; intro acc; [reflexivity|]. cbn. destruct (native_value p), (get_amount p); auto. Qed.
Lemma w_blank_amount e f : e_postings e = e_postings f -> plain (get_blank_amount e) = plain (get_blank_amount f).
Proof.
  intro E. unfold get_blank_amount, has_blank_posting, has_mixed_currencies. rewrite E.
  destruct (existsb _ _); [|reflexivity].
  match goal with |- plain (if ?b then _ else _) = _ => destruct b end; [|reflexivity].
  apply plain_bind; [apply w_blank_native|reflexivity].
Qed.
Lemma w_infer_step v e f s p : e_postings e = e_postings f -> plain (infer_step v e s p) = plain (infer_step v f s p).
Proof.
  intro E. unfold infer_step, infer_amount. apply plain_bind; [|reflexivity].
  apply plain_bind; [destruct (get_amount p); [reflexivity|]; apply plain_bind; [apply w_blank_amount, E|reflexivity]|].
  intro a. destruct (ostr_eqb _ _); [reflexivity|]. destruct (symbol (v_amount v)); [reflexivity|]. destruct (native_value p); reflexivity.
Qed.
Lemma w_env_process today v e f : e_date e = e_date f -> e_postings e = e_postings f -> plain (env_process today v e) = plain (env_process today v f).
Proof.
  intros D E. unfold env_process, has_envelope_posting. rewrite E. destruct (existsb _ _).
  - unfold process_manual, envelope_postings. rewrite D, E. reflexivity.
  - unfold infer. rewrite D, E. destruct (_ || _); [reflexivity|]. apply plain_bind; [apply plain_fold; intros; apply w_infer_step, E|].
    intros [auto self]. reflexivity.
Qed.
Lemma w_acc_process today a e f : e_date e = e_date f -> e_postings e = e_postings f -> plain (acc_process today a e) = plain (acc_process today a f).
Proof.
  intros D E. unfold acc_process. apply plain_bind; [apply plain_map_res; intro; apply w_env_process; assumption|]. intro ex.
  apply plain_bind; [apply plain_map_res; intro; apply w_env_process; assumption|]. intro go.
  apply plain_bind; [|reflexivity]. rewrite E. apply plain_fold. intros p x. unfold real_step. destruct (_ && _); [|reflexivity].
  destruct (get_amount x); [reflexivity|]. apply plain_bind; [apply w_blank_amount, E|reflexivity].
Qed.
Lemma w_totals l m : Forall2 reworded_entry (l_entries l) (l_entries m) -> together eq (get_totals l) (get_totals m).
Proof.
  intro F. unfold get_totals. apply (together_fold eq reworded_entry); [exact F| |reflexivity].
  intros a b e f <- [_ E]. apply together_plain. rewrite E. apply plain_fold. intros c p.
  unfold totals_step. destruct (map_get _ _); [|reflexivity]. destruct (get_amount p); [reflexivity|].
  apply plain_bind; [apply w_blank_amount; exact E|reflexivity].
Qed.

(** The register does not show payees. *)
Lemma w_register_loop e f m ps : e_postings e = e_postings f -> forall pos neg foc,
  plain (register_loop e m ps pos neg foc) = plain (register_loop f m ps pos neg foc).
Proof.
  intro E. induction ps as [|p ps IH]; intros; [reflexivity|]. cbn [register_loop]. apply plain_bind; [|intro; apply IH].
  destruct (get_amount p); [reflexivity|]. apply plain_bind; [apply w_blank_amount, E|reflexivity].
Qed.
Definition unpaid (r : register_data) : register_data :=
  mkRegisterData (rd_date r) (rd_status r) (rd_description r) [] (rd_flow r) (rd_short_flow r) (rd_single r) (rd_amounts r).
Lemma w_register_data e f fmt m : repaid_entry e f ->
  together (fun a b => option_map unpaid a = option_map unpaid b) (as_register_data e fmt m) (as_register_data f fmt m).
Proof.
  intros ((D & P) & S & T). unfold as_register_data. rewrite P.
  apply (together_bind eq); [apply together_plain, w_register_loop, P|]. intros [[pos neg] foc] b <-.
  destruct (pool_is_zero foc); [reflexivity|]. destruct (printable fmt); [|exact I]. cbn. unfold unpaid. cbn. rewrite D, S, T. reflexivity.
Qed.
Lemma w_lens fmt m a b e f :
  fst a = fst b -> map unpaid (snd a) = map unpaid (snd b) -> repaid_entry e f ->
  together (fun a b => fst a = fst b /\ map unpaid (snd a) = map unpaid (snd b)) (lens_step fmt m a e) (lens_step fmt m b f).
Proof.
  destruct a as [[ml total] acc], b as [[ml' total'] acc']. cbn [fst snd]. intros E A R. injection E as <- <-. unfold lens_step.
  pose proof (w_register_data e f fmt m R) as H.
  destruct (as_register_data e fmt m) as [o| | |], (as_register_data f fmt m) as [o'| | |]; cbn in H |- *; try contradiction; try exact I.
  destruct o as [rd|], o' as [rd'|]; cbn in H; try discriminate; [|cbn; auto].
  assert (H' : unpaid rd = unpaid rd') by congruence.
  assert (X : rd_amounts rd = rd_amounts rd') by exact (f_equal rd_amounts H').
  assert (X1 : rd_date rd = rd_date rd') by exact (f_equal rd_date H').
  assert (X2 : rd_description rd = rd_description rd') by exact (f_equal rd_description H').
  assert (X3 : rd_flow rd = rd_flow rd') by exact (f_equal rd_flow H').
  rewrite X, X1, X2, X3. destruct (pool_is_empty _); [cbn; auto|].
  destruct (max_len (rd_amounts rd')); cbn; try exact I. destruct (max_len _); cbn; try exact I.
  split; [reflexivity|]. rewrite !map_app, A. cbn. rewrite H'. reflexivity.
Qed.
Lemma w_print ml rds : forall rds' total, map unpaid rds = map unpaid rds' -> print_lines ml total rds = print_lines ml total rds'.
Proof.
  induction rds as [|r rds IH]; intros [|r' rds'] total H; try discriminate; [reflexivity|]. cbn [map] in H.
  assert (H1 : unpaid r = unpaid r') by congruence. assert (H2 : map unpaid rds = map unpaid rds') by congruence.
  cbn [print_lines].
  assert (X : rd_amounts r = rd_amounts r') by exact (f_equal rd_amounts H1).
  rewrite X, (IH rds' _ H2). f_equal. unfold show_rows. rewrite X.
  assert (X0 : rd_status r = rd_status r') by exact (f_equal rd_status H1).
  assert (X1 : rd_date r = rd_date r') by exact (f_equal rd_date H1).
  assert (X2 : rd_description r = rd_description r') by exact (f_equal rd_description H1).
  assert (X3 : rd_flow r = rd_flow r') by exact (f_equal rd_flow H1).
  rewrite X0, X1, X2, X3. reflexivity.
Qed.
Lemma Forall2_filter {A} (R : A -> A -> Prop) f l m : (forall a b, R a b -> f a = f b) -> Forall2 R l m -> Forall2 R (filter f l) (filter f m).
Proof. intros H F. induction F as [|a b l m Rab _ IH]; [constructor|]. cbn. rewrite <- (H a b Rab). destruct (f a); [constructor|]; assumption. Qed.
Lemma w_display tty es fs fmt b e m : Forall2 repaid_entry es fs ->
  together eq (register_display tty es fmt b e m) (register_display tty fs fmt b e m).
Proof.
  intro F. unfold register_display, maximum_lengths. destruct tty; [|exact I].
  apply (together_bind (fun a b => fst a = fst b /\ map unpaid (snd a) = map unpaid (snd b))).
  - apply (together_bind (fun a b => fst a = fst b /\ map unpaid (snd a) = map unpaid (snd b))).
    + apply (together_fold _ repaid_entry).
      * apply Forall2_filter; [|exact F]. intros x y ((D & P) & _). unfold register_filter. rewrite D, P. reflexivity.
      * intros x y u v [X Y]. apply w_lens; assumption.
      * split; reflexivity.
    + intros [[ml t] rds] [[ml' t'] rds'] [X Y]. cbn in *. split; [congruence|exact Y].
  - intros [ml rds] [ml' rds'] [X Y]. cbn in *. subst ml'. apply w_print, Y.
Qed.

(** ** Lines and chunks; with [b] the status and the description are the same *)
Section words.
Variable b : bool.
Definition Ent (e f : entry) : Prop := reworded_entry e f /\ (b = true -> e_status e = e_status f /\ e_desc e = e_desc f).
Definition Lin (x y : str) : Prop :=
  x = y \/ exists date st st' desc desc' p p', headline x date st desc p /\ headline y date st' desc' p' /\ (b = true -> st = st' /\ desc = desc').

Lemma Ent_refl e : Ent e e.
Proof. unfold Ent, reworded_entry. auto. Qed.
Lemma Ent_insert e f l m : Ent e f -> Forall2 Ent l m -> Forall2 Ent (insert_entry e l) (insert_entry f m).
Proof.
  intros R F. induction F as [|x y l m Rxy F IH]; [constructor; [exact R|constructor]|]. cbn [insert_entry].
  destruct R as ((D & P) & K), Rxy as ((D' & P') & K'). rewrite <- D, <- D'. destruct (date_leb (e_date e) (e_date x)).
  - constructor; [split; [split|]; assumption|]. constructor; [split; [split|]; assumption|exact F].
  - constructor; [split; [split|]; assumption|exact IH].
Qed.
Lemma Ent_sort l m : Forall2 Ent l m -> Forall2 Ent (sort_entries l) (sort_entries m).
Proof. unfold sort_entries. intro F. induction F as [|x y l m R F IH]; [constructor|]. cbn. apply Ent_insert; assumption. Qed.
Lemma w_add_entry today l m e f : ledgers Ent l m -> Ent e f -> together (ledgers Ent) (add_entry today l e) (add_entry today m f).
Proof.
  intros (P & F & A & C & E) R. unfold add_entry. rewrite A. apply (together_bind eq).
  - apply together_plain, plain_map_res. intro. apply plain_bind; [apply w_acc_process; apply R|reflexivity].
  - intros accs ? <-. cbn. unfold ledgers. cbn. repeat (split; [auto|]). apply Ent_sort, Forall2_app; [exact E|]. constructor; [exact R|constructor].
Qed.

Lemma lines_entry h rest : ~ In 10%N h -> ~ indented h -> h <> [] -> markfree h = true -> (rest = [] \/ exists r, rest = 10%N :: r) ->
  exists hh, lines (trim (h ++ rest)) = hh :: lines (match trim_end rest with [] => [] | _ :: r => r end)
    /\ split_ws (remove_comments hh) = split_ws h.
Proof.
  intros N I Z M R. destruct h as [|c h]; [contradiction|].
  assert (W : is_ws c = false). { destruct (is_ws c) eqn:W; [|reflexivity]. destruct I. exists c, h. auto. }
  assert (T : trim ((c :: h) ++ rest) = trim_end ((c :: h) ++ rest)) by (unfold trim; cbn [app trim_start]; rewrite W; reflexivity). rewrite T.
  destruct (trim_end rest) as [|d r] eqn:E.
  - apply trim_end_nil_iff in E.
    assert (T' : trim_end ((c :: h) ++ rest) = trim_end (c :: h)).
    { apply trim_end_ws, E. }
    rewrite T'. exists (trim_end (c :: h)). rewrite lines_one.
    + split; [reflexivity|]. rewrite remove_comments_markfree by (apply markfree_trim_end, M). apply split_ws_trim_end.
    + apply trim_end_not_In, N.
    + intro X. apply trim_end_nil_iff in X. apply all_ws_cons in X as [X _]. congruence.
  - assert (X : ~ all_ws rest) by (intro X; apply trim_end_nil_iff in X; congruence).
    rewrite trim_end_app, E by exact X. destruct R as [->|(q & ->)]; [destruct X; constructor|].
    assert (d = 10%N) as ->.
    { assert (Y : trim_end (10%N :: q) = 10%N :: trim_end q).
      { change (10%N :: q) with ([10%N] ++ q). apply trim_end_app. intro Y. apply X. apply all_ws_cons. split; [reflexivity|exact Y]. }
      congruence. }
    rewrite lines_app by exact N. eexists. split; [reflexivity|].
    rewrite remove_comments_markfree by (apply markfree_strip_cr, M). apply split_ws_strip_cr.
Qed.

(** Heads of chunks. *)
Definition head (h date : str) (st : status) (desc : str) (p : option str) : Prop :=
  ~ In 10%N h /\ ~ indented h /\ markfree h = true
  /\ (exists sign words, split_ws h = date :: sign :: words /\ sign_of st sign /\ payee_split (join (lit " ") words) desc p)
  /\ ~ In date [lit "account"; lit "currency"; lit "date_format"; lit "include"].
Lemma headline_head line date st desc p : ~ In 10%N line -> headline line date st desc p -> head (content line) date st desc p.
Proof.
  intros N (I & W & K). split; [apply content_no_lf, N|]. split; [exact I|]. split; [apply markfree_remove_comments|]. split; assumption.
Qed.
Definition Chu (c d : str) : Prop :=
  c = d \/ exists h k rest date st st' desc desc' p p', c = h ++ rest /\ d = k ++ rest
    /\ head h date st desc p /\ head k date st' desc' p' /\ (b = true -> st = st' /\ desc = desc')
    /\ (rest = [] \/ exists r, rest = 10%N :: r).

Lemma w_parse_entry c d fmt dsym accounts : Chu c d -> together Ent (parse_entry c fmt dsym accounts) (parse_entry d fmt dsym accounts).
Proof.
  intros [<-|(h & k & rest & date & st & st' & desc & desc' & p & p' & -> & -> & H & K & B & R)].
  { destruct (parse_entry c fmt dsym accounts); cbn; auto using Ent_refl. }
  unfold parse_entry.
  destruct H as (N & I & M & (sign & words & W & S & P) & _), K as (N' & I' & M' & (sign' & words' & W' & S' & P') & _).
  destruct (lines_entry h rest) as (hh & L & T); try assumption; [intros ->; discriminate|].
  destruct (lines_entry k rest) as (kk & L' & T'); try assumption; [intros ->; discriminate|].
  destruct (trim (h ++ rest)) as [|x y] eqn:E; [discriminate|]. destruct (trim (k ++ rest)) as [|x' y'] eqn:E'; [discriminate|].
  rewrite L, L'.
  apply (together_bind (fun e f => e_date e = e_date f /\ e_comment e = None /\ e_comment f = None /\ e_postings e = e_postings f
     /\ e_status e = st /\ e_status f = st' /\ e_desc e = desc /\ e_desc f = desc')).
  - unfold parse_header. rewrite T, T', W, W'. destruct (parse_date date fmt) as [dd|]; [|exact Logic.I].
    apply parse_status_Ok in S, S'. rewrite S, S'. cbn [bind].
    apply (split_payee_Ok hh) in P. apply (split_payee_Ok kk) in P'. rewrite P, P'. cbn. auto 10.
  - intros e f (D & _ & _ & _ & <- & <- & <- & <-).
    apply (together_bind eq); [apply together_eq|]. intros ps ? <-. cbv zeta.
    apply (together_bind (fun _ _ => True)).
    + assert (V : forall q q' ps n sy, together eq (validate_loop q ps n sy) (validate_loop q' ps n sy)).
      { intros q q' ps'. induction ps' as [|z ps' IH]; intros n sy; [reflexivity|]. cbn [validate_loop].
        destruct (get_amount z); [apply IH|]. destruct (Nat.ltb 1 _); [exact Logic.I|apply IH]. }
      unfold validate_entry. cbn [e_postings]. apply (together_bind eq); [apply V|]. intros [n sy] ? <-. destruct (_ && _); exact Logic.I.
    + intros _ _ _. cbn. unfold Ent, reworded_entry. cbn. auto.
Qed.

Definition Sta (s t : lw) : Prop := ledgers Ent (fst s) (fst t) /\ worlds Lin (snd s) (snd t).
Definition Inc (inc : str -> lw -> res lw) : Prop := forall f s t, Sta s t -> together Sta (inc f s) (inc f t).

Lemma w_entry_chunk today s t c d : Chu c d -> Sta s t ->
  together Sta (on_ledger s (ledger_parse_entry today (fst s) c)) (on_ledger t (ledger_parse_entry today (fst t) d)).
Proof.
  intros C [L W]. unfold on_ledger. apply (together_bind (ledgers Ent)); [|intros l m R; split; [exact R|exact W]].
  unfold ledger_parse_entry, account_names. pose proof L as (_ & F & A & _). rewrite F, A.
  apply (together_bind Ent); [apply w_parse_entry, C|]. intros e f R. apply w_add_entry; assumption.
Qed.
Lemma str_eqb_neq_In d k l : ~ In d l -> In k l -> str_eqb d k = false.
Proof. intros N I. destruct (str_eqb d k) eqn:E; [|reflexivity]. apply str_eqb_eq in E. subst. contradiction. Qed.
Lemma head_words h rest date st desc p : head h date st desc p -> (rest = [] \/ exists r, rest = 10%N :: r) ->
  exists ws, split_ws (h ++ rest) = date :: ws.
Proof.
  intros (_ & _ & _ & (sign & words & W & _) & _) [->|(r & ->)].
  - rewrite app_nil_r. eauto.
  - rewrite split_ws_app_ws by reflexivity. rewrite W. cbn. eauto.
Qed.
Lemma w_chunk today inc s t c d : Inc inc -> Chu c d -> Sta s t -> together Sta (parse_chunk today inc s c) (parse_chunk today inc t d).
Proof.
  intros HI C HS. pose proof C as [<-|(h & k & rest & date & st & st' & desc & desc' & p & p' & -> & -> & H & K & B & R)].
  - unfold parse_chunk. destruct (split_ws c) as [|w r]; [exact HS|]. cbv zeta.
    destruct (str_eqb w (lit "account")).
    { destruct HS as [L W]. pose proof L as (P & F & A & Cu & E). unfold on_ledger, ledger_parse_account. rewrite F.
      destruct (parse_account c decimal_symbol (l_format (fst t))) as [a| | |]; cbn; try exact I. split; [|exact W].
      unfold ledgers. cbn. rewrite A. auto 10. }
    destruct (str_eqb w (lit "currency")).
    { destruct HS as [L W]. pose proof L as (P & F & A & Cu & E). unfold on_ledger, set_currency. destruct (hd_error r); cbn; [|exact I].
      split; [|exact W]. unfold ledgers. cbn. auto 10. }
    destruct (str_eqb w (lit "date_format")).
    { destruct HS as [L W]. pose proof L as (P & F & A & Cu & E). unfold on_ledger, set_date_format. destruct (hd_error r); cbn; [|exact I].
      split; [|exact W]. unfold ledgers. cbn. auto 10. }
    destruct (str_eqb w (lit "include")); [destruct (hd_error r); [apply HI, HS|exact I]|].
    apply w_entry_chunk; assumption.
  - unfold parse_chunk. destruct (head_words _ _ _ _ _ _ H R) as (ws & ->). destruct (head_words _ _ _ _ _ _ K R) as (ws' & ->). cbv zeta.
    destruct H as (_ & _ & _ & _ & NK).
    rewrite !(str_eqb_neq_In date _ _ NK) by (cbn; tauto).
    apply w_entry_chunk; assumption.
Qed.
Lemma w_line today inc c d s t x y : Inc inc -> ~ In 10%N x -> ~ In 10%N y -> Lin x y -> Chu c d -> Sta s t ->
  together (fun p q => Chu (fst p) (fst q) /\ Sta (snd p) (snd q)) (line_step today inc (c, s) x) (line_step today inc (d, t) y).
Proof.
  intros HI Nx Ny L C HS. unfold line_step. change (remove_comments (trim_end x)) with (content x). change (remove_comments (trim_end y)) with (content y).
  destruct L as [<-|(date & st & st' & desc & desc' & p & p' & H & K & B)].
  - destruct (content x) as [|a r] eqn:E; [cbn; auto|]. destruct (is_ws a).
    + cbn. split; [|exact HS]. destruct C as [<-|(h & k & rest & date & st & st' & desc & desc' & p & p' & -> & -> & H & K & B & R)]; [left; reflexivity|].
      right. exists h, k, (rest ++ 10%N :: a :: r), date, st, st', desc, desc', p, p'. rewrite <- !app_assoc. repeat (split; [auto|]).
      right. destruct R as [->|(q & ->)]; eexists; cbn; reflexivity.
    + apply (together_bind Sta); [apply w_chunk; assumption|]. intros u v R. cbn. split; [left; reflexivity|exact R].
  - apply headline_head in H, K; try assumption.
    assert (X : Chu (content x) (content y)).
    { right. exists (content x), (content y), [], date, st, st', desc, desc', p, p'. rewrite !app_nil_r. auto 10. }
    assert (Z : forall l d0 s0 e0 p0, head l d0 s0 e0 p0 -> exists a r, l = a :: r /\ is_ws a = false).
    { intros [|a r] d0 s0 e0 p0 (_ & I & _ & (sg & w & W & _) & _); [discriminate|]. exists a, r. split; [reflexivity|].
      destruct (is_ws a) eqn:Q; [|reflexivity]. destruct I. exists a, r. auto. }
    destruct (Z _ _ _ _ _ H) as (a & r & Ea & Wa), (Z _ _ _ _ _ K) as (a' & r' & Ea' & Wa').
    rewrite Ea, Ea' in *. rewrite Wa, Wa'.
    apply (together_bind Sta); [apply w_chunk; assumption|]. intros u v R. cbn. split; [exact X|exact R].
Qed.
Lemma w_str today inc x y s t : Inc inc -> texts Lin x y -> Sta s t -> together Sta (add_from_str today inc x s) (add_from_str today inc y t).
Proof.
  intros HI T HS. unfold add_from_str.
  assert (G : Forall2 (fun a c => Lin a c /\ ~ In 10%N a /\ ~ In 10%N c) (lines x) (lines y)).
  { unfold texts in T. assert (Nx : Forall (fun l => ~ In 10%N l) (lines x)) by (apply Forall_forall; intros; eapply part_line; eassumption).
    assert (Ny : Forall (fun l => ~ In 10%N l) (lines y)) by (apply Forall_forall; intros; eapply part_line; eassumption).
    revert Nx Ny. induction T as [|a c l m R _ IH]; intros Nx Ny; [constructor|]. inversion Nx; inversion Ny; subst. constructor; auto. }
  apply (together_bind (fun p q => Chu (fst p) (fst q) /\ Sta (snd p) (snd q))).
  - eapply together_fold; [exact G| |split; [left; reflexivity|exact HS]].
    intros [c u] [d v] a e [C S1] (L & Na & Ne). apply w_line; assumption.
  - intros [c u] [d v] [C S1]. apply w_chunk; assumption.
Qed.
Lemma w_file today : forall fuel, Inc (add_from_file fuel today).
Proof.
  induction fuel as [|fuel IH]; intros p [l w] [m v] [L W]; [exact I|]. cbn [add_from_file fst snd] in *.
  pose proof W as (D & C & F).
  apply (together_bind (texts Lin)).
  { unfold read_file, resolve. rewrite C. specialize (F (resolve_aux (if is_absolute p then [] else cwd v) (components p))).
    destruct (files w _), (files v _); try contradiction; auto. }
  intros x y T. apply (together_bind (worlds Lin)).
  { unfold chdir_parent. destruct (components p); [exact I|]. rewrite C, D. destruct (_ && _); [|exact W]. cbn. split; [exact D|]. split; [reflexivity|exact F]. }
  intros w' v' W'. apply w_str; [exact IH|exact T|]. split; assumption.
Qed.
Lemma w_from_file fuel today p w v : worlds Lin w v -> together Sta (from_file fuel today p w) (from_file fuel today p v).
Proof.
  intro W. unfold from_file. apply w_file. split; [|exact W]. unfold ledgers. cbn. auto 10.
Qed.
End words.
