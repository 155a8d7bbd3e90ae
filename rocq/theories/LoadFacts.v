(** Facts about journal texts, directives and includes. *)
From Coq Require Import ZArith NArith List Bool String Permutation Lia.
From Verif Require Import Base Str F64 Date World Amount Posting Entry Envelope Account Register Ledger
  SpecAmount SpecDate SpecEntry SpecEnvelope SpecLedger StrFacts DateFacts AmountFacts LineFacts
  PostingFacts EntryFacts EntryText DateFormat EnvelopeFacts AccountFacts LedgerFacts.
Import ListNotations.
Local Open Scope Z_scope.
Opaque dayn.

(** ** Chunks *)
Lemma indented_iff c r : indented (c :: r) <-> is_ws c = true.
Proof.
  split.
  - intros (c' & r' & E & H). injection E as -> ->. exact H.
  - intro H. exists c, r. auto.
Qed.
Lemma chunks_total ls : forall cur, exists cs, chunks cur ls cs.
Proof.
  induction ls as [|l ls IH]; intro cur.
  - exists [cur]. constructor.
  - destruct l as [|c r].
    + destruct (IH []) as (cs & H). exists (cur :: cs). constructor; [|exact H].
      intros (c & r & E & _). discriminate.
    + destruct (is_ws c) eqn:W.
      * destruct (IH (cur ++ 10%N :: c :: r)) as (cs & H). exists cs. constructor; [|exact H].
        apply indented_iff, W.
      * destruct (IH (c :: r)) as (cs & H). exists (cur :: cs). constructor; [|exact H].
        rewrite indented_iff. congruence.
Qed.
Lemma chunks_unique cur ls cs cs' : chunks cur ls cs -> chunks cur ls cs' -> cs = cs'.
Proof.
  intro H. revert cs'. induction H; intros cs' H'; inversion H'; subst; try contradiction; auto.
  f_equal. auto.
Qed.
Lemma cut_up_total text : exists cs, cut_up text cs.
Proof. apply chunks_total. Qed.

Section Load.
Variables (today : date) (inc : str -> lw -> res lw).

Lemma line_steps ls : forall cur s cs, chunks cur (contents ls) cs ->
  (let! (chunk, s') := fold_res (line_step today inc) ls (cur, s) in parse_chunk today inc s' chunk)
  = fold_res (parse_chunk today inc) cs s.
Proof.
  induction ls as [|l ls IH]; intros cur s cs H.
  - inversion H; subst. cbn [fold_res bind]. destruct (parse_chunk today inc s cur); reflexivity.
  - unfold contents in H. cbn [map filter] in H. cbn [fold_res]. unfold line_step at 1.
    change (remove_comments (trim_end l)) with (content l).
    destruct (content l) as [|c r] eqn:E.
    + cbn [bind]. apply IH, H.
    + destruct (is_ws c) eqn:W; cbn [bind].
      * inversion H; subst.
        -- rewrite indented_iff in *. congruence.
        -- apply IH. assumption.
      * inversion H; subst.
        -- cbn [fold_res]. destruct (parse_chunk today inc s cur) as [s1| | |]; cbn [bind]; try reflexivity.
           apply IH. assumption.
        -- rewrite indented_iff in *. congruence.
Qed.
Lemma add_from_str_chunks text s cs : cut_up text cs ->
  add_from_str today inc text s = fold_res (parse_chunk today inc) cs s.
Proof. apply line_steps. Qed.
Lemma add_from_str_contents text text' s :
  contents (lines text) = contents (lines text') ->
  add_from_str today inc text s = add_from_str today inc text' s.
Proof.
  intro E. destruct (cut_up_total text) as (cs & H).
  rewrite (add_from_str_chunks text s cs H). symmetry. apply add_from_str_chunks.
  unfold cut_up in *. rewrite <- E. exact H.
Qed.
End Load.

Lemma contents_app a b : contents (a ++ b) = contents a ++ contents b.
Proof. unfold contents. rewrite map_app, filter_app. reflexivity. Qed.
Lemma content_blank l : Forall blank_char l -> content l = [].
Proof.
  intro H. unfold content. assert (trim_end l = []) as ->; [|reflexivity].
  apply trim_end_nil_iff, all_ws_In. intros c I. rewrite Forall_forall in H. apply H, I.
Qed.
Lemma comment_mark s : comment s -> mark_at s.
Proof.
  intros (r & [->| ->]).
  - left. exists r. reflexivity.
  - right. exists r. reflexivity.
Qed.
Lemma remove_comments_mark s : mark_at s -> remove_comments s = [].
Proof.
  intro M. apply remove_comments_iff. exists s. split; [reflexivity|]. split; [|right; exact M].
  cbn. lia.
Qed.
Lemma mark_trim_end s : mark_at s -> mark_at (trim_end s).
Proof.
  intros [(r & ->)|(r & ->)].
  - left. cbn [trim_end]. destruct (trim_end r) as [|c t]; [exists []|exists (c :: t)]; reflexivity.
  - right. cbn [trim_end]. destruct (trim_end r) as [|c t]; [exists []|exists (c :: t)]; reflexivity.
Qed.
Lemma content_comment l : comment l -> content l = [].
Proof. intro H. apply remove_comments_mark, mark_trim_end, comment_mark, H. Qed.

(** A comment directly after the text of a line. *)
Lemma content_then_comment l c : trim_end l = l -> comment c ->
  (exists r, c = lit ";" ++ r) \/ List.last l 0%N <> 47%N -> content (l ++ c) = content l.
Proof.
  intros T C K. unfold content. rewrite T.
  assert (~ all_ws c) as NW.
  { intro W. rewrite all_ws_In in W. destruct C as (r & [-> | ->]).
    - specialize (W 59%N (or_introl eq_refl)). discriminate.
    - specialize (W 47%N (or_introl eq_refl)). discriminate. }
  rewrite trim_end_app by exact NW.
  pose proof (mark_trim_end c (comment_mark c C)) as M.
  destruct (remove_comments_spec l) as (rest & E & F & G).
  apply remove_comments_iff. exists (rest ++ trim_end c). split; [|split].
  - rewrite app_assoc, <- E. reflexivity.
  - intros i Hi Q. specialize (F i Hi). apply F. clear F.
    assert (i < List.length l)%nat as Hl by (rewrite E, app_length; lia).
    rewrite skipn_app_l in Q by lia. remember (skipn i l) as t eqn:Et.
    destruct t as [|x t].
    { apply (f_equal (@List.length char)) in Et. rewrite skipn_length in Et. cbn in Et. lia. }
    destruct Q as [(r & Q)|(r & Q)].
    + left. injection Q as -> _. eauto.
    + injection Q as -> Q. destruct t as [|y t].
      * cbn in Q. exfalso. destruct K as [(r' & ->)|K].
        -- cbn [app lit] in Q. change (lit ";") with [59%N] in Q. cbn [app trim_end] in Q.
           destruct (trim_end r'); discriminate.
        -- apply K.
           assert (l = firstn i l ++ [47%N]) as -> by (rewrite Et; symmetry; apply firstn_skipn).
           apply last_last.
      * cbn [app] in Q. injection Q as -> _. right. eauto.
  - destruct G as [->|G]; [|right; apply mark_at_app_l, G]. right. exact M.
Qed.

(** ** Reading back an appended entry *)
Lemma trim_end_strip_cr l : trim_end (strip_cr l) = trim_end l.
Proof.
  destruct (strip_cr_spec l) as [->|E]; [reflexivity|].
  rewrite E at 2. symmetry. apply trim_end_ws. reflexivity.
Qed.
Lemma content_strip_cr l : content (strip_cr l) = content l.
Proof. unfold content. rewrite trim_end_strip_cr. reflexivity. Qed.
Lemma contents_cons l ls : contents (l :: ls) = contents [l] ++ contents ls.
Proof. apply (contents_app [l] ls). Qed.
Lemma contents_strip_cr l : contents [strip_cr l] = contents [l].
Proof. unfold contents. cbn [map]. rewrite content_strip_cr. reflexivity. Qed.

Lemma contents_lines_app old t :
  contents (lines (old ++ 10%N :: t)) = contents (lines old) ++ contents (lines t).
Proof.
  remember (List.length old) as n eqn:En. revert old En.
  induction n as [n IH] using lt_wf_ind. intros old ->.
  destruct (newline_cut old) as [N|(a & b & -> & N)].
  - rewrite lines_app by exact N. rewrite contents_cons, contents_strip_cr.
    destruct old as [|c r].
    + reflexivity.
    + rewrite (lines_one (c :: r)); [reflexivity|exact N|discriminate].
  - rewrite <- app_assoc. cbn [app]. rewrite (lines_app a (b ++ 10%N :: t) N), (lines_app a b N).
    rewrite (contents_cons (strip_cr a) (lines b)), (contents_cons (strip_cr a) (lines (b ++ _))).
    rewrite (IH (List.length b)); [apply app_assoc| |reflexivity].
    rewrite app_length. cbn. lia.
Qed.
Lemma contents_block ls : Forall (fun l => ~ In 10%N l) ls -> contents (lines (block ls)) = contents ls.
Proof.
  induction 1 as [|l ls H F IH]; [reflexivity|].
  unfold block in *. cbn [map List.concat]. rewrite <- app_assoc. cbn [app].
  rewrite lines_app by exact H. rewrite (contents_cons (strip_cr l)), contents_strip_cr, IH.
  symmetry. apply contents_cons.
Qed.

(** One chunk made of a line and indented lines after it. *)
Definition chunk_of (l : str) (ls : list str) : str := l ++ List.concat (map (cons 10%N) ls).
Lemma chunks_indented ls : forall cur, Forall indented ls -> chunks cur ls [chunk_of cur ls].
Proof.
  induction ls as [|l ls IH]; intros cur H.
  - unfold chunk_of. cbn. rewrite app_nil_r. constructor.
  - inversion H; subst. apply chunks_more; [assumption|].
    assert (chunk_of cur (l :: ls) = chunk_of (cur ++ 10%N :: l) ls) as ->; [|auto].
    unfold chunk_of. cbn [map List.concat]. rewrite <- app_assoc. reflexivity.
Qed.
Lemma chunks_snoc cur ls cs l rest : chunks cur ls cs -> ~ indented l -> Forall indented rest ->
  chunks cur (ls ++ l :: rest) (cs ++ [chunk_of l rest]).
Proof.
  intros H N F. induction H as [cur|cur m ls cs H C IH|cur m ls cs H C IH]; cbn [app].
  - apply chunks_new; [exact N|]. apply chunks_indented, F.
  - apply chunks_new; assumption.
  - apply chunks_more; assumption.
Qed.

Lemma remove_comments_prefix s : exists r, s = remove_comments s ++ r.
Proof. destruct (remove_comments_spec s) as (r & E & _). eauto. Qed.
Lemma content_prefix s : exists r, s = content s ++ r.
Proof.
  destruct (remove_comments_prefix (trim_end s)) as (r & E). destruct (trim_end_spec s) as (w & E' & _).
  exists (r ++ w). rewrite app_assoc. unfold content. rewrite <- E. exact E'.
Qed.

Section Append.
Variables (fmt : str) (ps : list piece) (accounts : list str) (e : entry).
Hypothesis Pat : pattern fmt ps (e_date e).
Hypothesis NoWs : forall c, In c (date_text ps (e_date e)) -> is_ws c = false.
Hypothesis Unm : unmarked (date_text ps (e_date e)).
Hypothesis W : writable_entry accounts e.

Let Wp : Forall (writable_posting accounts) (e_postings e).
Proof. destruct W as (_ & _ & _ & _ & _ & _ & Wp & _). exact Wp. Qed.

Definition header := show_entry_header fmt e.
Definition entry_lines := map (fun p => trim_end (posting_line p)) (e_postings e).

Lemma header_trimmed_reads :
  header_reads fmt (trim_end header) (e_date e) (e_status e) (e_desc e) (e_payee e).
Proof. apply (header_line fmt ps accounts e Pat NoWs Unm W). left. reflexivity. Qed.
Lemma header_content_nonempty : content header <> [].
Proof.
  intro E. destruct header_trimmed_reads as (d & s & ws & H & _).
  unfold content in E. rewrite E in H. discriminate.
Qed.
Lemma header_content_start : exists c r, content header = c :: r /\ is_ws c = false.
Proof.
  destruct (content header) as [|c r] eqn:E; [destruct header_content_nonempty; exact E|].
  exists c, r. split; [reflexivity|].
  destruct (content_prefix header) as (t & Et). rewrite E in Et.
  unfold header in Et. rewrite header_base in Et. unfold base in Et.
  destruct (date_token fmt ps accounts e Pat NoWs W) as [N T].
  destruct (format_date fmt (e_date e)) as [|d u]; [contradiction|].
  apply no_ws_cons in T as [T _]. cbn [app] in Et. injection Et as <- _. exact T.
Qed.
Lemma posting_line_markfree p : writable_posting accounts p -> markfree (posting_line p) = true.
Proof.
  intro Hp. unfold posting_line. change (lit "    ") with (spaces 4). cbn [spaces repeat app].
  repeat apply markfree_space. apply (show_posting_markfree accounts p Hp).
Qed.
Lemma posting_line_trimmed p : writable_posting accounts p ->
  content (posting_line p) = trim_end (posting_line p)
  /\ exists r, trim_end (posting_line p) = 32%N :: r.
Proof.
  intro Hp. split.
  - unfold content. apply remove_comments_markfree, markfree_trim_end, posting_line_markfree, Hp.
  - unfold posting_line. change (lit "    ") with ([32; 32; 32; 32]%N).
    rewrite trim_end_app.
    + cbn [app]. eauto.
    + intro A. apply (posting_line_not_ws accounts p Hp).
      unfold posting_line. apply all_ws_app. split; [reflexivity|exact A].
Qed.
Lemma entry_contents :
  contents (lines (show_entry fmt e)) = content header :: entry_lines.
Proof.
  rewrite show_entry_block. rewrite contents_block.
  - rewrite contents_cons. unfold contents at 1. cbn [map filter]. fold header.
    destruct (content header) eqn:E; [destruct header_content_nonempty; exact E|]. cbn [app].
    f_equal. unfold entry_lines. clear -Wp. revert Wp.
    induction (e_postings e) as [|p l IH]; intro Wl; [reflexivity|]. inversion Wl; subst.
    cbn [map]. rewrite contents_cons. unfold contents at 1. cbn [map filter].
    destruct (posting_line_trimmed p) as (-> & r & Er); [assumption|].
    rewrite Er at 1. cbn [app]. f_equal. apply IH. assumption.
  - constructor; [exact (header_no_lf fmt ps accounts e Pat NoWs W)|]. apply Forall_map.
    eapply Forall_impl; [|exact Wp]. intros p Hp. unfold posting_line.
    apply not_in_app; [|apply (posting_no_lf accounts p Hp)].
    cbn; intros H; repeat (destruct H as [H|H]; [discriminate|]); destruct H.
Qed.
Lemma entry_lines_indented : Forall indented entry_lines.
Proof.
  apply Forall_map. eapply Forall_impl; [|exact Wp]. intros p Hp. cbn beta.
  destruct (posting_line_trimmed p Hp) as (_ & r & ->). exists 32%N, r. split; reflexivity.
Qed.
Lemma entry_chunk_cut old cs : cut_up old cs ->
  cut_up (old ++ 10%N :: show_entry fmt e) (cs ++ [chunk_of (content header) entry_lines]).
Proof.
  intro C. unfold cut_up. rewrite contents_lines_app, entry_contents.
  apply chunks_snoc; [exact C| |apply entry_lines_indented].
  destruct header_content_start as (c & r & -> & H). rewrite indented_iff. congruence.
Qed.

Lemma chunk_block l ls : chunk_of l ls ++ [10%N] = block (l :: ls).
Proof.
  unfold chunk_of, block. cbn [map List.concat]. rewrite <- !app_assoc. f_equal.
  induction ls as [|m ls IH]; [reflexivity|]. cbn [map List.concat app].
  rewrite <- !app_assoc. cbn [app]. f_equal. f_equal. rewrite IH. reflexivity.
Qed.
Lemma content_no_lf l : ~ In 10%N l -> ~ In 10%N (content l).
Proof.
  destruct (content_prefix l) as (r & E). intros N I. apply N. rewrite E. apply in_or_app. auto.
Qed.

Lemma trimmed_line_reads p l1 : writable_posting accounts p -> same_line (trim_end (posting_line p)) l1 ->
  parse_posting l1 46%N accounts = Ok (to8_posting p) /\ trim l1 <> [].
Proof.
  intros Hp S1.
  assert (markfree (trim_end (posting_line p)) = true) as M
    by (apply markfree_trim_end, posting_line_markfree, Hp).
  pose proof (same_line_tokens _ _ M S1) as T. rewrite split_ws_trim_end in T.
  pose proof (same_line_tokens _ (trim_end (posting_line p)) (posting_line_markfree p Hp)
                (or_introl eq_refl)) as T'.
  destruct (posting_line_reads accounts p (trim_end (posting_line p)) Hp (or_introl eq_refl)) as [P N].
  split.
  - eapply parse_posting_tokens; [|exact P]. congruence.
  - intro Z. apply trim_nil in Z.
    destruct (same_line_split _ _ S1) as (w & Ew & Hw).
    apply N. rewrite Ew. apply trim_nil, all_ws_app. auto.
Qed.
Lemma parse_entry_chunk :
  parse_entry (chunk_of (content header) entry_lines) fmt 46%N accounts = Ok (reread e).
Proof.
  apply parse_entry_Ok. unfold reread. cbn [e_date e_status e_desc e_payee e_comment e_postings].
  set (L := content header :: entry_lines).
  assert (exists h ls, lines (trim (chunk_of (content header) entry_lines)) = h :: ls
    /\ same_line (content header) h /\ Forall2 same_line entry_lines ls) as (h & ls & E & Sh & Sl).
  { assert (trim (chunk_of (content header) entry_lines) = trim_end (block L)) as ->.
    { unfold trim. rewrite trim_start_id.
      - subst L. rewrite <- chunk_block. symmetry. apply trim_end_ws. reflexivity.
      - destruct header_content_start as (c & r & E & H). unfold chunk_of. rewrite E. exact H. }
    assert (Forall (fun l => ~ In 10%N l) L) as F.
    { subst L. constructor.
      - apply content_no_lf. exact (header_no_lf fmt ps accounts e Pat NoWs W).
      - apply Forall_map. eapply Forall_impl; [|exact Wp]. intros p Hp. cbn beta.
        apply trim_end_not_In. unfold posting_line.
        apply not_in_app; [|apply (posting_no_lf accounts p Hp)].
        cbn; intros H; repeat (destruct H as [H|H]; [discriminate|]); destruct H. }
    destruct (exists_last (A := str) (l := L)) as (L' & l0 & EL); [discriminate|].
    assert (~ all_ws l0) as N0.
    { assert (In l0 L) as I by (rewrite EL; apply in_or_app; right; left; reflexivity).
      subst L. destruct I as [<-|I].
      - destruct header_content_start as (c & r & Ec & H). rewrite Ec. intro A.
        apply all_ws_cons in A. destruct A. congruence.
      - apply in_map_iff in I. destruct I as (p & <- & Ip).
        rewrite Forall_forall in Wp. specialize (Wp p Ip).
        intro A. apply (posting_line_not_ws accounts p Wp).
        destruct (trim_end_spec (posting_line p)) as (w & -> & Hw & _).
        apply all_ws_app. auto. }
    rewrite EL in F. destruct (lines_block L' l0 F N0) as (ls' & El & Fs).
    assert (lines (trim_end (block L)) = ls') as El2 by (rewrite EL; exact El).
    assert (Forall2 same_line L ls') as Fs2 by (rewrite EL; exact Fs). rewrite El2.
    clear El Fs F. subst L. inversion Fs2 as [|? h ? ls Sh Sl]; subst. exists h, ls. auto. }
  exists h, ls. split; [exact E|]. split; [|split; [reflexivity|split]].
  - destruct header_trimmed_reads as (d & s & ws & H & R). exists d, s, ws. split; [|exact R].
    rewrite <- H. apply (same_line_tokens _ _ (markfree_remove_comments _) Sh).
  - unfold entry_lines in Sl. clear - Sl Wp.
    assert (forall p l1, writable_posting accounts p -> same_line (trim_end (posting_line p)) l1 ->
      parse_posting l1 46%N accounts = Ok (to8_posting p) /\ trim l1 <> []) as K
      by (intros; apply trimmed_line_reads; assumption).
    remember (fun p => trim_end (posting_line p)) as g eqn:Eg.
    assert (forall p l1, writable_posting accounts p -> same_line (g p) l1 ->
      parse_posting l1 46%N accounts = Ok (to8_posting p) /\ trim l1 <> []) as K'
      by (rewrite Eg; exact K).
    clear K Eg. revert ls Sl.
    induction Wp as [|p l Hp _ IH]; intros ls Sl; cbn [map] in *; inversion Sl as [|? l1 ? ls1 S1 Sl1]; subst.
    + constructor.
    + destruct (K' p l1 Hp S1) as [P N].
      cbn [filter]. destruct (trim l1); [contradiction|]. constructor; [exact P|]. apply IH; [|exact Sl1]. inversion Wp; assumption.
  - destruct W as (_ & _ & _ & _ & _ & _ & _ & A). unfold acceptable in *.
    rewrite to8_blanks, to8_named. exact A.
Qed.
End Append.

Lemma appended_keyword fmt ps accounts e : pattern fmt ps (e_date e) ->
  (forall c, In c (date_text ps (e_date e)) -> is_ws c = false) ->
  unmarked (date_text ps (e_date e)) -> writable_entry accounts e ->
  exists k rest, split_ws (chunk_of (content (header fmt e)) (entry_lines e)) = k :: rest
  /\ exists c, digit_char c /\ In c k.
Proof.
  intros Pat NoWs Unm W.
  assert (ws_start (List.concat (map (cons 10%N) (entry_lines e)))) as S
    by (destruct (entry_lines e); [exact I|reflexivity]).
  unfold chunk_of. rewrite split_ws_app_ws by exact S.
  destruct (header_trimmed_reads fmt ps accounts e Pat NoWs Unm W) as (d & s & ws & H & _).
  assert (split_ws (content (header fmt e)) = d :: s :: ws) as H' by exact H.
  rewrite H'. cbn [app]. exists d, ((s :: ws) ++ split_ws (List.concat (map (cons 10%N) (entry_lines e)))).
  split; [reflexivity|].
  assert (d = format_date fmt (e_date e)) as ->.
  { assert (split_ws (content (header fmt e)) = split_ws (base fmt e)) as E.
    { unfold content, header. rewrite header_base.
      pose proof (base_markfree fmt ps accounts e Pat Unm W) as M.
      destruct (e_comment e) as [c|].
      - apply (same_line_comment (base fmt e) (32%N :: c)); [exact M|left; reflexivity].
      - rewrite app_nil_r. rewrite remove_comments_markfree by (apply markfree_trim_end, M).
        apply split_ws_trim_end. }
    rewrite H', (base_tokens fmt ps accounts e Pat NoWs W) in E. injection E as -> _ _. reflexivity. }
  rewrite (date_shown fmt ps accounts e Pat W).
  destruct (date_text_has_digit ps (e_date e)) as (c & D & I); [apply Pat|apply W|].
  exists c. split; [|exact I]. unfold is_digit in D. unfold digit_char.
  apply andb_prop in D as (A & B). apply N.leb_le in A, B. split; assumption.
Qed.
Lemma keyword_no_digit k (s : string) c : digit_char c -> In c k ->
  forallb (fun c => negb (is_digit c)) (lit s) = true -> str_eqb k (lit s) = false.
Proof.
  intros D I F. apply str_eqb_neq. intros ->. rewrite forallb_forall in F.
  specialize (F c I). unfold is_digit, digit_char in *.
  destruct (N.leb_spec 48 c), (N.leb_spec c 57); cbn in F; try discriminate; lia.
Qed.

Lemma load_appended today inc old s0 s e :
  add_from_str today inc old s0 = Ok s ->
  journal_date (l_format (fst s)) (e_date e) -> writable_entry (account_names (fst s)) e ->
  add_from_str today inc (old ++ 10%N :: show_entry (l_format (fst s)) e) s0
  = on_ledger s (add_entry today (fst s) (reread e)).
Proof.
  intros H (ps & Pat & NoWs & Unm) W. destruct (cut_up_total old) as (cs & C).
  rewrite (add_from_str_chunks _ _ _ _ _ C) in H.
  rewrite (add_from_str_chunks _ _ _ _ _ (entry_chunk_cut _ _ _ _ Pat NoWs Unm W _ _ C)).
  rewrite fold_res_app, H. cbn [bind fold_res].
  set (k := chunk_of _ _).
  assert (parse_chunk today inc s k = on_ledger s (add_entry today (fst s) (reread e))) as ->.
  { destruct (appended_keyword _ _ _ _ Pat NoWs Unm W) as (w & rest & E & c & D & I).
    unfold parse_chunk. fold k in E. rewrite E.
    rewrite !(fun str F => keyword_no_digit w str c D I F) by reflexivity.
    unfold ledger_parse_entry. change decimal_symbol with 46%N.
    subst k. rewrite (parse_entry_chunk _ _ _ _ Pat NoWs Unm W). reflexivity. }
  destruct (on_ledger _ _); reflexivity.
Qed.

(** ** Loading respects relations on ledgers *)
Section Respect.
Variable R : ledger -> ledger -> Prop.
Variable today : date.
Hypothesis R_account : forall l l' c, R l l' -> both R (ledger_parse_account l c) (ledger_parse_account l' c).
Hypothesis R_currency : forall l l' v, R l l' -> both R (set_currency l v) (set_currency l' v).
Hypothesis R_format : forall l l' v, R l l' -> both R (set_date_format l v) (set_date_format l' v).
Hypothesis R_entry : forall l l' c, R l l' -> both R (ledger_parse_entry today l c) (ledger_parse_entry today l' c).

Definition RW (s s' : lw) : Prop := R (fst s) (fst s') /\ snd s = snd s'.
Definition respects (inc inc' : str -> lw -> res lw) : Prop :=
  forall f s s', RW s s' -> both RW (inc f s) (inc' f s').

Lemma on_ledger_both s s' r r' : snd s = snd s' -> both R r r' -> both RW (on_ledger s r) (on_ledger s' r').
Proof.
  intros E H. unfold on_ledger. eapply both_bind; [exact H|]. intros a b Q. cbn. split; assumption.
Qed.
Lemma parse_chunk_respects inc inc' s s' c : respects inc inc' -> RW s s' ->
  both RW (parse_chunk today inc s c) (parse_chunk today inc' s' c).
Proof.
  intros I H. pose proof H as (Hl & Hw). unfold parse_chunk.
  destruct (split_ws c) as [|k rest]; [exact H|].
  repeat match goal with |- context [if ?b then _ else _] => destruct b end;
    try (apply on_ledger_both; auto).
  destruct (hd_error rest); [apply I, H|exact Logic.I].
Qed.
Lemma chunks_respect inc inc' cs : respects inc inc' -> forall s s', RW s s' ->
  both RW (fold_res (parse_chunk today inc) cs s) (fold_res (parse_chunk today inc') cs s').
Proof.
  intro I. induction cs as [|c cs IH]; intros s s' H; [exact H|]. cbn [fold_res].
  eapply both_bind; [apply parse_chunk_respects; eauto|]. intros a b Q. auto.
Qed.
Lemma add_from_str_respects inc inc' text s s' : respects inc inc' -> RW s s' ->
  both RW (add_from_str today inc text s) (add_from_str today inc' text s').
Proof.
  intros I H. destruct (cut_up_total text) as (cs & C).
  rewrite !(add_from_str_chunks _ _ _ _ _ C). apply chunks_respect; assumption.
Qed.
Lemma add_from_file_respects fuel : respects (add_from_file fuel today) (add_from_file fuel today).
Proof.
  induction fuel as [|k IH]; intros f s s' H; [exact I|]. cbn [add_from_file].
  destruct H as (Hl & Hw). rewrite Hw.
  eapply both_bind; [apply both_refl|]. intros t ? <-.
  eapply both_bind; [apply both_refl|]. intros w ? <-.
  apply add_from_str_respects; [exact IH|]. split; [exact Hl|reflexivity].
Qed.
End Respect.

(** *** The default currency *)
Lemma recoined_account l l' c : recoined l l' ->
  both recoined (ledger_parse_account l c) (ledger_parse_account l' c).
Proof.
  intros (P & E & F & A). unfold ledger_parse_account. rewrite F.
  eapply both_bind; [apply both_refl|]. intros a ? <-. cbn. unfold recoined; cbn. rewrite P, E, A. auto.
Qed.
Lemma recoined_currency l l' v : recoined l l' -> both recoined (set_currency l v) (set_currency l' v).
Proof. intros (P & E & F & A). destruct v; cbn; [|exact I]. unfold recoined; cbn. auto. Qed.
Lemma recoined_format l l' v : recoined l l' -> both recoined (set_date_format l v) (set_date_format l' v).
Proof. intros (P & E & F & A). destruct v; cbn; [|exact I]. unfold recoined; cbn. auto. Qed.
Lemma recoined_entry today l l' c : recoined l l' ->
  both recoined (ledger_parse_entry today l c) (ledger_parse_entry today l' c).
Proof.
  intros (P & E & F & A). unfold ledger_parse_entry, account_names. rewrite F, A.
  eapply both_bind; [apply both_refl|]. intros e ? <-. unfold add_entry. rewrite A.
  eapply both_bind; [apply both_refl|]. intros m ? <-. cbn. unfold recoined; cbn. rewrite P, E, F. auto.
Qed.
Lemma recoined_load today fuel cs1 c cs2 t t' s :
  cut_up t (cs1 ++ c :: cs2) -> cut_up t' (cs1 ++ cs2) -> keyword c "currency" -> value c <> None ->
  both (RW recoined) (add_from_str today (add_from_file fuel today) t' s)
       (add_from_str today (add_from_file fuel today) t s).
Proof.
  intros C C' K V. rewrite (add_from_str_chunks _ _ _ _ _ C), (add_from_str_chunks _ _ _ _ _ C').
  rewrite !fold_res_app. eapply both_bind; [apply both_refl|]. intros s1 ? <-.
  cbn [fold_res]. unfold keyword, value in *.
  assert (exists l', parse_chunk today (add_from_file fuel today) s1 c = Ok (l', snd s1) /\ recoined (fst s1) l')
    as (l' & E & Q).
  { unfold parse_chunk. destruct (split_ws c) as [|k rest]; [discriminate|]. cbn [hd_error tl] in *.
    injection K as ->. destruct (hd_error rest) as [v|]; [|contradiction]. cbn.
    eexists. split; [reflexivity|]. unfold recoined; cbn. auto. }
  rewrite E. cbn [bind].
  apply (chunks_respect recoined today recoined_account recoined_currency recoined_format (recoined_entry today)).
  - apply (add_from_file_respects recoined today recoined_account recoined_currency recoined_format (recoined_entry today)).
  - split; [exact Q|reflexivity].
Qed.

(** *** The order of the accounts *)
Definition swapped (l l' : ledger) : Prop := reordered l l' /\ NoDup (account_names l).
Lemma map_insert_perm {A} k (v : A) m m' : NoDup (map fst m) -> Permutation m m' ->
  Permutation (map_insert k v m) (map_insert k v m').
Proof.
  intros N P. assert (NoDup (map fst m')) as N' by (eapply Permutation_NoDup; [apply Permutation_map, P|exact N]).
  apply NoDup_Permutation.
  - eapply NoDup_map_inv. apply map_insert_NoDup, N.
  - eapply NoDup_map_inv. apply map_insert_NoDup, N'.
  - intros [k' v']. rewrite <- !map_get_In by (apply map_insert_NoDup; assumption).
    rewrite !map_get_insert. destruct (str_dec k k'); [reflexivity|].
    rewrite (map_get_perm k' m m' N P). reflexivity.
Qed.
Lemma swapped_account l l' c : swapped l l' ->
  both swapped (ledger_parse_account l c) (ledger_parse_account l' c).
Proof.
  intros ((P & E & F & C & A) & N). unfold ledger_parse_account. rewrite F.
  eapply both_bind; [apply both_refl|]. intros a ? <-. cbn. unfold swapped, reordered, account_names; cbn.
  rewrite P, E, C. split; [repeat split|].
  - apply map_insert_perm; assumption.
  - apply map_insert_NoDup, N.
Qed.
Lemma swapped_currency l l' v : swapped l l' -> both swapped (set_currency l v) (set_currency l' v).
Proof.
  intros ((P & E & F & C & A) & N). destruct v; cbn; [|exact I]. unfold swapped, reordered; cbn. auto 10.
Qed.
Lemma swapped_format l l' v : swapped l l' -> both swapped (set_date_format l v) (set_date_format l' v).
Proof.
  intros ((P & E & F & C & A) & N). destruct v; cbn; [|exact I]. unfold swapped, reordered; cbn. auto 10.
Qed.
Lemma parse_posting_names l d A B : (forall s, mem s A = mem s B) ->
  parse_posting l d A = parse_posting l d B.
Proof.
  intro H. unfold parse_posting, parse_classic.
  destruct (split_ws (trim (remove_comments l))) as [|t ts]; [reflexivity|].
  destruct (str_eqb _ _); [reflexivity|]. f_equal.
  destruct (split_ws (trim (remove_comments (trim (remove_comments l))))) as [|n ts']; [reflexivity|].
  rewrite H. reflexivity.
Qed.
Lemma parse_entry_names c f d A B : (forall s, mem s A = mem s B) ->
  parse_entry c f d A = parse_entry c f d B.
Proof.
  intro H. unfold parse_entry. destruct (trim c); [reflexivity|].
  destruct (lines _) as [|h ls]; [reflexivity|].
  destruct (parse_header h f) as [e| | |]; [cbn [bind]|reflexivity..].
  assert (parse_postings ls d A = parse_postings ls d B) as ->; [|reflexivity].
  induction ls as [|l ls IH]; [reflexivity|]. cbn [parse_postings].
  rewrite IH, (parse_posting_names l d A B H). reflexivity.
Qed.
Lemma mem_perm s A B : Permutation A B -> mem s A = mem s B.
Proof.
  intro P. destruct (mem s A) eqn:E.
  - symmetry. apply mem_In. apply mem_In in E. eapply Permutation_in; eauto.
  - destruct (mem s B) eqn:E'; [|reflexivity]. apply mem_In in E'.
    apply (Permutation_in _ (Permutation_sym P)) in E'. apply mem_In in E'. congruence.
Qed.
Lemma swapped_add_entry today l l' e : swapped l l' ->
  both swapped (add_entry today l e) (add_entry today l' e).
Proof.
  intros (H & N). pose proof (add_entry_reordered today l l' e H) as B.
  apply both_intro.
  - intros a E. destruct (proj1 (both_Ok _ _ _ B) a E) as (b & E' & Q).
    exists b. split; [exact E'|]. split; [exact Q|].
    rewrite add_entry_accounts_eq in E. apply bind_Ok in E as (m & Hm & E). injection E as <-.
    unfold account_names. cbn [l_accounts]. rewrite (process_keys _ _ _ _ Hm). exact N.
  - intros b E. destruct (proj2 (both_Ok _ _ _ B) b E) as (a & E' & Q). eauto.
Qed.
Lemma swapped_entry today l l' c : swapped l l' ->
  both swapped (ledger_parse_entry today l c) (ledger_parse_entry today l' c).
Proof.
  intro H. pose proof H as ((P & E & F & C & A) & N). unfold ledger_parse_entry. rewrite F.
  rewrite (parse_entry_names c _ _ (account_names l) (account_names l')).
  - eapply both_bind; [apply both_refl|]. intros e ? <-. apply swapped_add_entry, H.
  - intro s. apply mem_perm. apply Permutation_map, A.
Qed.
Lemma swapped_load today fuel : respects swapped (add_from_file fuel today) (add_from_file fuel today).
Proof.
  apply (add_from_file_respects swapped today swapped_account swapped_currency swapped_format (swapped_entry today)).
Qed.

(** ** What loading builds *)
Lemma load_invariant (J : ledger -> Prop) today :
  (forall l c l', J l -> ledger_parse_account l c = Ok l' -> J l') ->
  (forall l v l', J l -> set_currency l v = Ok l' -> J l') ->
  (forall l v l', J l -> set_date_format l v = Ok l' -> J l') ->
  (forall l e l', J l -> add_entry today l e = Ok l' -> J l') ->
  forall fuel p s s', add_from_file fuel today p s = Ok s' -> J (fst s) -> J (fst s').
Proof.
  intros HA HC HF HE. induction fuel as [|k IH]; intros p s s' H; [discriminate|].
  cbn [add_from_file] in H. apply bind_Ok in H as (t & _ & H). apply bind_Ok in H as (w & _ & H).
  destruct (cut_up_total t) as (cs & C). rewrite (add_from_str_chunks _ _ _ _ _ C) in H.
  change (fst s) with (fst (fst s, w)). revert H. generalize (fst s, w) as s1.
  clear C t. induction cs as [|c cs IHc]; intros s1 H J1.
  - injection H as <-. exact J1.
  - cbn [fold_res] in H. apply bind_Ok in H as (s2 & H2 & H). apply (IHc s2 H).
    unfold parse_chunk in H2. destruct (split_ws c) as [|kw rest]; [injection H2 as <-; exact J1|].
    unfold on_ledger in H2.
    destruct (str_eqb kw (lit "account")).
    { apply bind_Ok in H2 as (l' & H2 & E). injection E as <-. eauto. }
    destruct (str_eqb kw (lit "currency")).
    { apply bind_Ok in H2 as (l' & H2 & E). injection E as <-. eauto. }
    destruct (str_eqb kw (lit "date_format")).
    { apply bind_Ok in H2 as (l' & H2 & E). injection E as <-. eauto. }
    destruct (str_eqb kw (lit "include")).
    { destruct (hd_error rest); [|discriminate]. eapply IH; eauto. }
    apply bind_Ok in H2 as (l' & H2 & E). injection E as <-. cbn [fst].
    unfold ledger_parse_entry in H2. apply bind_Ok in H2 as (e & _ & H2). eauto.
Qed.
Lemma loaded_built fuel today p s s' es : add_from_file fuel today p s = Ok s' ->
  built today (fst s) es -> exists es', built today (fst s') (es ++ es').
Proof.
  intros H B.
  apply (load_invariant (fun l => exists es', built today l (es ++ es')) today) in H; [exact H|..].
  - intros l c l' (es' & B') E. exists es'. eapply built_account; eauto.
  - intros l c l' (es' & B') E. exists es'. eapply built_currency; eauto.
  - intros l c l' (es' & B') E. exists es'. eapply built_format; eauto.
  - intros l e l' (es' & B') E. exists (es' ++ [e]). rewrite app_assoc. eapply built_entry; eauto.
  - exists []. rewrite app_nil_r. exact B.
Qed.
