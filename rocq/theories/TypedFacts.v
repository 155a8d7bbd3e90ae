(** Reading a typed journal. *)
From Coq Require Import ZArith NArith List Bool Ascii String Reals Lia Lra Permutation Sorted.
From Verif Require Import Base Str F64 Date World Amount Posting Entry Envelope Account Register Ledger
  SpecAmount SpecDate SpecEntry SpecEnvelope SpecLedger SpecReport SpecTotals SpecTyped
  StrFacts LineFacts AmountParse EntryFacts ErrorFacts EntryText PostingFacts DateFormat EnvelopeFacts LedgerFacts LoadFacts AgainFacts PropertiesTotals.
Import ListNotations.
Local Open Scope Z_scope.

(** ** Amounts *)
Lemma spelled_chars t neg ip fp : spells 46%N t neg ip fp ->
  t <> [] /\ Forall (fun c => mag_char 46 c = true /\ sym_char 46 c = false /\ is_ws c = false) t
  /\ (exists c, In c t /\ digit_char c) /\ exists b, t = (if neg then 45%N :: b else b) /\ ~ In 45%N b.
Proof.
  intros (Di & Df & N & b & -> & B).
  assert (forall c, In c b -> digit_char c \/ c = 46%N) as Hb.
  { rewrite Forall_forall in Di, Df. destruct B as [[-> ->]| ->]; intros c I; [left; auto|].
    apply in_app_or in I as [I|[<-|I]]; auto. }
  assert (exists c, In c b /\ digit_char c) as Dg.
  { destruct ip as [|c ip]; [destruct fp as [|c fp]; [contradiction|]|].
    - exists c. destruct B as [[_ B]| ->]; [discriminate|]. split; [right; left; reflexivity|inversion Df; assumption].
    - exists c. split; [|inversion Di; assumption]. destruct B as [[-> _]| ->]; left; reflexivity. }
  assert (forall c, digit_char c \/ c = 46%N \/ c = 45%N -> mag_char 46 c = true /\ sym_char 46 c = false /\ is_ws c = false) as K.
  { intros c H. assert (mag_char 46 c = true) as M.
    { unfold mag_char. destruct H as [[A B']|[->| ->]]; [|reflexivity..]. rewrite (proj2 (N.leb_le _ _) A), (proj2 (N.leb_le _ _) B'). reflexivity. }
    split; [exact M|]. split; [unfold sym_char; rewrite M; reflexivity|].
    destruct H as [[A B']|[->| ->]]; [|reflexivity..].
    assert (c = 48 \/ c = 49 \/ c = 50 \/ c = 51 \/ c = 52 \/ c = 53 \/ c = 54 \/ c = 55 \/ c = 56 \/ c = 57)%N as H by lia.
    repeat destruct H as [->|H]; try reflexivity. subst. reflexivity. }
  destruct Dg as (g & Ig & Dg). split; [destruct neg; [discriminate|]; destruct b; [destruct Ig|discriminate]|]. split; [|split].
  - apply Forall_forall. intros c I. apply K. destruct neg; [destruct I as [<-|I]; [auto|]|]; destruct (Hb c I); auto.
  - exists g. split; [destruct neg; [right|]; exact Ig|exact Dg].
  - exists b. split; [reflexivity|]. intro I. destruct (Hb _ I) as [[A B']|Q]; [lia|discriminate].
Qed.
Lemma dashes_none b : ~ In 45%N b -> without_double_dash b = b.
Proof.
  induction b as [|c b IH]; intro B; [reflexivity|]. cbn [without_double_dash].
  assert (c <> 45%N) as N by (intro; subst; apply B; left; reflexivity).
  assert (without_double_dash b = b) as E by (apply IH; intro; apply B; right; assumption).
  destruct c as [|p]; [rewrite E; reflexivity|]. do 6 (try (destruct p as [p|p|]; try (rewrite E; reflexivity))). contradiction.
Qed.
Lemma dashes_once a b : ~ In 45%N a -> ~ In 45%N b -> without_double_dash (a ++ 45%N :: b) = a ++ 45%N :: b.
Proof.
  intros A B. pose proof (dashes_none b B) as Eb.
  induction a as [|c a IH].
  - cbn [app]. destruct b as [|d b]; [reflexivity|]. assert (d <> 45%N) as N by (intro; subst; apply B; left; reflexivity).
    transitivity (45%N :: without_double_dash (d :: b)); [|rewrite Eb; reflexivity]. cbn [without_double_dash].
    destruct d as [|p]; [reflexivity|]. do 6 (try (destruct p as [p|p|]; try reflexivity)). contradiction.
  - cbn [app without_double_dash]. assert (c <> 45%N) as N by (intro; subst; apply A; left; reflexivity).
    rewrite IH by (intro; apply A; right; assumption).
    destruct c as [|p]; [reflexivity|]. do 6 (try (destruct p as [p|p|]; try reflexivity)). contradiction.
Qed.
Lemma dashes_number neg a b c t : t = (if neg : bool then 45%N :: b else b) -> ~ In 45%N a -> ~ In 45%N b -> ~ In 45%N c ->
  without_double_dash (a ++ t ++ c) = a ++ t ++ c.
Proof.
  intros -> A B C. destruct neg; [cbn [app]; apply dashes_once; [exact A|]; intro I; apply in_app_or in I as [I|I]; auto|].
  apply dashes_none. intro I. apply in_app_or in I as [I|I]; [auto|]. apply in_app_or in I as [I|I]; auto.
Qed.
Lemma filter_all {A} (f : A -> bool) l : (forall x, In x l -> f x = true) -> filter f l = l.
Proof. induction l as [|a l IH]; intro H; [reflexivity|]. cbn [filter]. rewrite H, IH; auto with datatypes. Qed.
Lemma filter_none {A} (f : A -> bool) l : (forall x, In x l -> f x = false) -> filter f l = [].
Proof. induction l as [|a l IH]; intro H; [reflexivity|]. cbn [filter]. rewrite H, IH; auto with datatypes. Qed.
Lemma plain_chars s : plain_symbol (Some s) -> token s /\ ~ In 45%N s /\ filter (mag_char 46) s = [] /\ filter (sym_char 46) s = s.
Proof.
  intros (T & F). rewrite Forall_forall in F. split; [exact T|].
  assert (forall c, In c s -> mag_char 46 c = false /\ sym_char 46 c = true) as K.
  { intros c I. destruct (F c I) as (Nd & N1 & N2 & N3). assert (mag_char 46 c = false) as M.
    { unfold mag_char, digit_char in *. destruct (N.leb_spec 48 c), (N.leb_spec c 57), (N.eqb_spec c 46), (N.eqb_spec c 45); cbn; try reflexivity; try contradiction. exfalso. lia. }
    split; [exact M|]. unfold sym_char. rewrite M. cbn. apply andb_true_intro. split; apply negb_true_iff, N.eqb_neq; assumption. }
  split; [intro I; destruct (F _ I) as (_ & N & _); contradiction|]. split; [apply filter_none|apply filter_all]; intros c I; apply (K c I).
Qed.
Lemma amount_read ws z sym : amount_words ws z sym ->
  (exists a, read_opt 46%N (Some ws) = Ok (Some a) /\ symbol a = sym /\ units (mag a) z)
  /\ Forall (fun t => ~ op_token t) ws /\ ws <> [].
Proof.
  intros (t & neg & ip & fp & Sp & V & B & H).
  assert (proper_dsym 46%N) as P by (unfold proper_dsym, digit_char, blank_char; repeat split; try discriminate; intros [Q _]; now apply Q).
  destruct (parse_spelled 46%N t neg ip fp P Sp) as (m & _ & Nr).
  destruct (spelled_chars t neg ip fp Sp) as (Nt & Ch & (g & Ig & Dg) & b & Et & Nb). rewrite Forall_forall in Ch.
  assert (units m z) as U by (apply (nearest_units (mkAmount m None) neg (decimal_value neg ip fp) z Nr V B)).
  assert (token t) as Tt. { split; [exact Nt|]. apply Forall_forall. intros c I Q. destruct (Ch c I) as (_ & _ & W). unfold blank_char in Q. congruence. }
  assert (filter (mag_char 46) t = t) as Fm by (apply filter_all; intros c I; apply (Ch c I)).
  assert (filter (sym_char 46) t = []) as Fs by (apply filter_none; intros c I; apply (Ch c I)).
  assert (forall w, In g w -> ~ op_token w) as Nop.
  { intros w I [->|[->|[->| ->]]]; cbn in I; unfold digit_char in Dg; repeat destruct I as [<-|I]; try lia; destruct I. }
  assert (forall s, amount_text s 46%N m sym -> exists a, read_opt 46%N (Some [s]) = Ok (Some a) /\ symbol a = sym /\ units (mag a) z) as R.
  { intros s T. exists (mkAmount m sym). unfold read_opt. cbn [join].
    rewrite (proj2 (parse_amount_iff s 46%N (mkAmount m sym) P) T). repeat split; cbn; apply U. }
  assert (forall s u, amount_text (s ++ lit " " ++ u) 46%N m sym -> exists a, read_opt 46%N (Some [s; u]) = Ok (Some a) /\ symbol a = sym /\ units (mag a) z) as R2.
  { intros s u T. exists (mkAmount m sym). unfold read_opt. cbn [join].
    rewrite (proj2 (parse_amount_iff (s ++ lit " " ++ u) 46%N (mkAmount m sym) P) T). repeat split; cbn; apply U. }
  destruct sym as [s|].
  2:{ subst ws. split; [|split; [repeat constructor; apply Nop, Ig|discriminate]]. apply R. exists neg, ip, fp. split; [exact Nr|]. left. exists t.
      pose proof (dashes_number neg [] b [] t Et (fun H => H) Nb (fun H => H)) as E. cbn [app] in E. rewrite app_nil_r in E. rewrite E.
      split; [split; [exact Tt|]; exists [], []; rewrite app_nil_r; repeat split; constructor|]. rewrite Fm, Fs. split; [exact Sp|reflexivity]. }
  destruct H as (Hw & Ps & No). destruct (plain_chars s Ps) as (Ts & N45 & Fms & Fss).
  assert (symbol_of s [] = Some s /\ symbol_of [] s = Some s) as [Sy1 Sy2] by (destruct Ts as [Ns _]; destruct s; [contradiction|split; reflexivity]).
  assert (token (s ++ t) /\ token (t ++ s)) as [T1 T2].
  { destruct Ts as [A1 A2], Tt as [B1 B2]. split; (split; [intro Q; apply app_eq_nil in Q as [? ?]; contradiction|apply Forall_app; auto]). }
  assert (~ In 45%N (lit " ")) as Nsp by (cbn; intros [H|[]]; discriminate).
  assert (Forall blank_char (lit " ") /\ lit " " <> []) as [Bsp Nsp'] by (split; [repeat constructor|discriminate]).
  destruct Hw as [->|[->|[->| ->]]].
  - split; [|split; [repeat constructor; apply Nop, in_or_app; right; exact Ig|discriminate]]. apply R. exists neg, ip, fp. split; [exact Nr|]. left. exists (s ++ t).
    pose proof (dashes_number neg s b [] t Et N45 Nb (fun H => H)) as E. rewrite app_nil_r in E. rewrite E.
    split; [split; [exact T1|]; exists [], []; rewrite app_nil_r; repeat split; constructor|]. rewrite !filter_app, Fm, Fs, Fms, Fss, app_nil_r. auto.
  - split; [|split; [repeat constructor; apply Nop, in_or_app; left; exact Ig|discriminate]]. apply R. exists neg, ip, fp. split; [exact Nr|]. left. exists (t ++ s).
    pose proof (dashes_number neg [] b s t Et (fun H => H) Nb N45) as E. cbn [app] in E. rewrite E.
    split; [split; [exact T2|]; exists [], []; rewrite app_nil_r; repeat split; constructor|]. rewrite !filter_app, Fm, Fs, Fms, Fss, app_nil_r. auto.
  - split; [|split; [repeat constructor; [exact No|apply Nop, Ig]|discriminate]]. apply R2. exists neg, ip, fp. split; [exact Nr|]. right. exists s, t.
    pose proof (dashes_number neg (s ++ lit " ") b [] t Et) as E. rewrite app_nil_r, <- app_assoc in E. rewrite E; auto.
    2:{ intro I. apply in_app_or in I as [I|I]; auto. }
    split; [split; [exact Ts|]; split; [exact Tt|]; exists [], (lit " "), []; rewrite app_nil_r; repeat split; auto|]. rewrite Fm, Fs, Fms, Fss. auto.
  - split; [|split; [repeat constructor; [apply Nop, Ig|exact No]|discriminate]]. apply R2. exists neg, ip, fp. split; [exact Nr|]. right. exists t, s.
    pose proof (dashes_number neg [] b (lit " " ++ s) t Et (fun H => H) Nb) as E. cbn [app] in E. rewrite E.
    2:{ intro I. destruct I as [I|I]; [discriminate|auto]. }
    split; [split; [exact Tt|]; split; [exact Ts|]; exists [], (lit " "), []; rewrite app_nil_r; repeat split; auto|]. rewrite Fm, Fs, Fms, Fss, app_nil_r. auto.
Qed.

(** ** Postings *)
Definition like (p : typed) (q : posting) : Prop :=
  is_envelope q = false /\ get_account q = t_account p
  /\ match t_amount p, get_amount q with
     | None, None => True
     | Some (z, sym), Some a => symbol a = sym /\ units (mag a) z
     | _, _ => False
     end.
Lemma posting_read accounts names line l p : typed_posting accounts line p -> (forall n, In n accounts -> In n names) ->
  words l = words line -> exists q, parse_posting l 46%N names = Ok q /\ like p q.
Proof.
  intros (_ & I & Ne & ws & E & A) Sub El. unfold words in *. rewrite <- El in E.
  rewrite parse_posting_markfree, E. rewrite (proj2 (str_eqb_neq _ _) Ne).
  assert (Forall (fun t => ~ op_token t) ws /\ exists o, read_opt 46%N (match ws with [] => None | _ => Some ws end) = Ok o
    /\ match t_amount p, o with None, None => True | Some (z, sym), Some a => symbol a = sym /\ units (mag a) z | _, _ => False end) as (No & o & Ro & Lo).
  { destruct (t_amount p) as [(z & sym)|]; [|subst ws; split; [constructor|]; exists None; split; [reflexivity|exact Logic.I]].
    destruct (amount_read ws z sym A) as ((a & R & Q) & No & N). split; [exact No|]. exists (Some a). destruct ws; [contradiction|]. auto. }
  assert (split_ws (remove_comments (remove_comments l)) = t_account p :: ws ++ clause_tokens []) as E2
    by (rewrite remove_comments_idem; cbn; rewrite app_nil_r; exact E).
  rewrite (parse_classic_clauses _ 46%N names (t_account p) ws [] E2) by (split; [exact No|split; constructor]).
  unfold classic_of. rewrite Ro. cbn [bind clause_of List.find option_map read_opt].
  assert (mem (t_account p) names = true) as -> by (apply mem_In; auto). cbn [bind].
  eexists. split; [reflexivity|]. split; [reflexivity|]. split; [reflexivity|]. cbn [get_amount c_amount]. exact Lo.
Qed.

(** ** Entries *)
Definition plain_line (l : str) : Prop := markfree l = true /\ ~ In 10%N l.
Lemma plain_words l : plain_line l -> words l = split_ws l.
Proof. intros (M & _). unfold words. rewrite remove_comments_markfree by exact M. reflexivity. Qed.
Lemma same_words l l' : plain_line l -> same_line l l' -> words l' = words l.
Proof. intros P H. rewrite (plain_words l P). apply same_line_tokens; [apply P|exact H]. Qed.
Lemma words_not_ws l t ts : plain_line l -> words l = t :: ts -> ~ all_ws l.
Proof. intros P E W. rewrite (plain_words l P), (split_ws_all_ws _ W) in E. discriminate. Qed.
Lemma chunk_lines l ls : plain_line l -> Forall plain_line ls -> ~ indented l -> words l <> [] -> Forall (fun m => words m <> []) ls ->
  exists h ls', lines (trim (chunk_of l ls)) = h :: ls' /\ same_line l h /\ Forall2 same_line ls ls'.
Proof.
  intros P Ps Ni Nw Nws. set (L := l :: ls).
  assert (Forall plain_line L) as PL by (constructor; assumption).
  assert (Forall (fun m => words m <> []) L) as WL by (constructor; assumption).
  assert (trim (chunk_of l ls) = trim_end (block L)) as ->.
  { unfold trim. rewrite trim_start_id.
    - subst L. rewrite <- chunk_block. symmetry. apply trim_end_ws. reflexivity.
    - unfold chunk_of. destruct l as [|c l]; [exfalso; apply Nw; reflexivity|]. cbn [app]. destruct (is_ws c) eqn:Ec; [|reflexivity].
      exfalso. apply Ni. exists c, l. auto. }
  destruct (exists_last (A := str) (l := L)) as (L' & l0 & EL); [discriminate|].
  assert (In l0 L) as I by (rewrite EL; apply in_or_app; right; left; reflexivity).
  assert (~ all_ws l0) as N0.
  { rewrite Forall_forall in PL, WL. pose proof (WL l0 I) as W0. destruct (words l0) as [|t ts] eqn:E; [contradiction|]. exact (words_not_ws l0 t ts (PL l0 I) E). }
  assert (Forall (fun m => ~ In 10%N m) (L' ++ [l0])) as F by (rewrite <- EL; eapply Forall_impl; [|exact PL]; intros m (_ & N); exact N).
  destruct (lines_block L' l0 F N0) as (ls' & El & Fs).
  assert (lines (trim_end (block L)) = ls') as -> by (rewrite EL; exact El).
  assert (Forall2 same_line L ls') as Fs2 by (rewrite EL; exact Fs). subst L. inversion Fs2 as [|? h ? ls'' Sh Sl]; subst. exists h, ls''. auto.
Qed.
Lemma usual_pattern d : pattern default_format usual_date d.
Proof.
  split; [|split].
  - apply (written_spec "Y" [PNum NYear ZeroPad] (lit "/%m/%d")); [cbn; tauto|]. apply (written_text 47%N (lit "%m/%d")); [discriminate|].
    apply (written_spec "m" [PNum NMonth ZeroPad] (lit "/%d")); [cbn; tauto|]. apply (written_text 47%N (lit "%d")); [discriminate|].
    apply (written_spec "d" [PNum NDay ZeroPad] []); [cbn; tauto|]. constructor.
  - cbn. tauto.
  - left. split; [left; split; [left|]|left]; exists ZeroPad; cbn; tauto.
Qed.
Lemma usual_read d : 0 <= year d < 10000 -> parse_date (date_text usual_date d) default_format = Some d.
Proof.
  intro Y. rewrite <- (format_date_pattern _ _ d (usual_pattern d) Y). exact (parse_format_date _ _ d (usual_pattern d) Y).
Qed.

Definition like_entry (t : typed_entry) (e : entry) : Prop := e_date e = fst t /\ Forall2 like (snd t) (e_postings e).
Lemma like_given ps qs : Forall2 like ps qs -> Forall2 (fun x a => symbol a = snd x /\ units (mag a) (fst x)) (given ps) (written qs).
Proof.
  induction 1 as [|p q ps qs (_ & _ & A) _ IH]; [constructor|]. unfold given, written. cbn [flat_map].
  destruct (t_amount p) as [(z & sym)|], (get_amount q) as [a|]; try contradiction; cbn [app]; [constructor; [exact A|exact IH]|exact IH].
Qed.
Lemma like_blanks ps qs : Forall2 like ps qs -> SpecEntry.blanks qs = List.length (filter open ps).
Proof.
  induction 1 as [|p q ps qs (_ & _ & A) _ IH]; [reflexivity|]. unfold SpecEntry.blanks in *. cbn [filter]. unfold open at 1.
  destruct (t_amount p) as [(z & sym)|], (get_amount q) as [a|]; try contradiction; cbn [List.length]; congruence.
Qed.
Lemma like_acceptable ps qs : Forall2 like ps qs -> complete ps -> acceptable qs.
Proof.
  intros L (C1 & C2). pose proof (like_blanks ps qs L) as B. pose proof (like_given ps qs L) as G. split; [lia|].
  intros B1 s t Hs Ht.
  assert (exists p, In p ps /\ t_amount p = None) as (p & Ip & Np).
  { destruct (filter open ps) as [|p r] eqn:F; [cbn in B; lia|]. assert (In p (filter open ps)) as I by (rewrite F; left; reflexivity).
    apply filter_In in I as [I O]. exists p. split; [exact I|]. unfold open in O. destruct (t_amount p); [discriminate|reflexivity]. }
  destruct (C2 p Ip Np) as (x & _ & Sx).
  assert (forall u, In u (named qs) -> Some u = snd x) as K.
  { intros u Iu. unfold named in Iu. apply in_flat_map in Iu as (a & Ia & Iu). destruct (symbol a) as [v|] eqn:Ea; [|destruct Iu].
    destruct Iu as [<-|[]]. destruct (AccountFacts.Forall2_In_r _ _ _ a G Ia) as (y & Iy & Sy & _). rewrite <- (Sx y Iy). congruence. }
  pose proof (K s Hs). pose proof (K t Ht). congruence.
Qed.

Lemma entry_read accounts names line d ls ps : typed_header line d -> Forall2 (typed_posting accounts) ls ps -> complete ps ->
  (forall n, In n accounts -> In n names) -> plain_line line -> Forall plain_line ls ->
  exists e, parse_entry (chunk_of line ls) default_format 46%N names = Ok e /\ like_entry (d, ps) e.
Proof.
  intros (Ni & Y & st & s & ws & Ew & Ss & Nb) F C Sub P Ps.
  assert (Forall (fun m => words m <> []) ls) as Nw.
  { clear - F. induction F as [|l p ls ps (_ & _ & _ & ws & E & _) _ IH]; constructor; [rewrite E; discriminate|exact IH]. }
  destruct (chunk_lines line ls P Ps Ni ltac:(rewrite Ew; discriminate) Nw) as (h & ls' & El & Sh & Sl).
  assert (exists qs, Forall2 (fun l q => parse_posting l 46%N names = Ok q)
     (filter (fun l => match trim l with [] => false | _ => true end) ls') qs /\ Forall2 like ps qs) as (qs & Pq & Lq).
  { clear - F Ps Sl Sub. revert ls' Sl. induction F as [|l p ls ps T F IH]; intros ls' Sl; inversion Sl as [|? l1 ? ls1 S1 Sl1]; subst.
    - exists []. split; constructor.
    - inversion Ps as [|? ? P1 P2]; subst. destruct (IH P2 ls1 Sl1) as (qs & Pq & Lq).
      destruct (posting_read accounts names l l1 p T Sub (same_words l l1 P1 S1)) as (q & Rq & Kq).
      exists (q :: qs). split; [|constructor; assumption]. cbn [filter].
      destruct (trim l1) eqn:Et; [|constructor; assumption]. exfalso. apply trim_nil in Et.
      destruct T as (_ & _ & _ & ws & E & _). destruct (same_line_split l l1 S1) as (w & Ew & Hw).
      apply (words_not_ws l _ _ P1 E). rewrite Ew. apply all_ws_app. auto. }
  exists (mkEntry d st (join (lit " ") ws) None None qs). split; [|split; [reflexivity|exact Lq]].
  apply parse_entry_Ok. exists h, ls'. cbn [e_date e_status e_desc e_payee e_comment e_postings]. split; [exact El|].
  split; [|split; [reflexivity|split; [exact Pq|exact (like_acceptable ps qs Lq C)]]].
  exists (date_text usual_date d), s, ws. split; [rewrite <- Ew; exact (same_words line h P Sh)|]. split; [exact (usual_read d Y)|].
  split; [exact Ss|]. left. split; [|auto]. clear - Nb. induction Nb as [|t ws H _ IH]; [intros []|].
  destruct ws as [|t' ws]; [exact H|]. change (~ In 91%N (t ++ lit " " ++ join (lit " ") (t' :: ws))).
  intro I. apply in_app_or in I as [I|I]; [auto|]. apply in_app_or in I as [[I|[]]|I]; [discriminate|auto].
Qed.
Lemma entry_words line d ls : typed_header line d -> plain_line line ->
  exists k rest, split_ws (chunk_of line ls) = k :: rest /\ exists c, digit_char c /\ In c k.
Proof.
  intros (_ & Y & st & s & ws & Ew & _) P. unfold chunk_of.
  rewrite split_ws_app_ws by (destruct ls; [exact I|reflexivity]). rewrite <- (plain_words line P), Ew. cbn [app]. do 2 eexists. split; [reflexivity|].
  destruct (date_text_has_digit usual_date d) as (c & D & Ic); [apply (usual_pattern d)|exact Y|]. exists c. split; [|exact Ic].
  unfold is_digit in D. unfold digit_char. apply andb_prop in D as (A & B). apply N.leb_le in A, B. split; assumption.
Qed.

(** ** Journals *)
Lemma like_inferred t e q : like_entry t e -> complete (snd t) -> In q (e_postings e) -> blank q ->
  written (e_postings e) <> [] /\ exists sym, Forall (fun a => symbol a = sym) (written (e_postings e))
  /\ (forall p, In p (snd t) -> t_amount p = None -> snd (moved (snd t) p) = sym).
Proof.
  intros (_ & L) (_ & C) I B. pose proof (like_given _ _ L) as G.
  destruct (AccountFacts.Forall2_In_r _ _ _ q L I) as (p & Ip & _ & _ & A). unfold blank in B. rewrite B in A.
  destruct (t_amount p) as [(z & s)|] eqn:Ep; [contradiction|]. destruct (C p Ip Ep) as (x & Ix & Sx).
  split. { destruct (written (e_postings e)); [|discriminate]. inversion G as [Q|]; subst. rewrite <- Q in Ix. destruct Ix. }
  exists (snd x). split.
  - apply Forall_forall. intros a Ia. destruct (AccountFacts.Forall2_In_r _ _ _ a G Ia) as (y & Iy & Sy & _). rewrite <- (Sx y Iy). exact Sy.
  - intros r Ir Nr. unfold moved. rewrite Nr. cbn [snd]. destruct (given (snd t)) as [|y g]; [destruct Ix|]. apply Sx. left. reflexivity.
Qed.
Lemma like_worth t e q : like_entry t e -> complete (snd t) -> In q (e_postings e) -> exists a, worth e q a.
Proof.
  intros L C I. destruct (get_amount q) as [a|] eqn:A; [exists a; left; exact A|].
  destruct (like_inferred t e q L C I A) as (N & sym & S & _). eexists. right. split; [exact A|].
  apply (blank_amount_one e sym (ex_intro _ q (conj I A)) N S).
Qed.
Definition simple (l : ledger) : Prop := forall k a, In (k, a) (l_accounts l) -> a_expenses a = [] /\ a_goals a = [].
Lemma simple_add today l e : simple l -> (forall q, In q (e_postings e) -> exists a, worth e q a) ->
  exists l', add_entry today l e = Ok l' /\ simple l' /\ account_names l' = account_names l /\ l_format l' = l_format l.
Proof.
  intros Si W.
  assert (forall name ps r, (forall q, In q ps -> exists a, worth e q a) -> exists r', fold_res (real_step name e) ps r = Ok r') as K.
  { intros name ps. induction ps as [|q ps IH]; intros r H; cbn [fold_res]; [eauto|].
    assert (exists r1, real_step name e r q = Ok r1) as (r1 & ->).
    { unfold real_step. destruct (_ && _); [|eauto]. destruct (H q (or_introl eq_refl)) as (a & [A|[A B]]); rewrite A; [eauto|]. rewrite B. cbn [bind]. eauto. }
    cbn [bind]. apply IH. intros q' I. apply H. right. exact I. }
  assert (exists accs, map_res (process_pair today e) (l_accounts l) = Ok accs) as (accs & E).
  { apply AgainFacts.map_res_total. intros (k & a) I. destruct (Si k a I) as [Ex Go]. unfold process_pair, acc_process. cbn [fst snd]. rewrite Ex, Go. cbn [map_res bind].
    destruct (K (a_name a) (e_postings e) (a_real a) W) as (r & ->). cbn [bind]. eauto. }
  rewrite add_entry_accounts_eq, E. cbn [bind]. eexists. split; [reflexivity|]. split; [|split; [|reflexivity]].
  - intros k b I. cbn [l_accounts] in I. apply map_res_Ok in E. destruct (AccountFacts.Forall2_In_r _ _ _ (k, b) E I) as ((k0 & a) & Ia & Q).
    destruct (Si k0 a Ia) as [Ex Go]. unfold process_pair, acc_process in Q. cbn [fst snd] in Q. rewrite Ex, Go in Q. cbn [map_res bind] in Q.
    destruct (fold_res _ _ _) as [r| | |]; try discriminate. cbn [bind] in Q. injection Q as <- <-. split; reflexivity.
  - unfold account_names. cbn [l_accounts]. exact (process_keys today e _ _ E).
Qed.
Definition so_far (today : date) (accounts : list str) (es : list typed_entry) (l : ledger) : Prop :=
  exists fs, built today l fs /\ Forall2 like_entry es fs /\ Forall (fun t => complete (snd t)) es
  /\ l_format l = default_format /\ (forall n, In n accounts -> In n (account_names l)) /\ simple l.
Lemma indented_chunks ls rest cs : Forall indented ls -> (forall cur, chunks cur rest (cur :: cs)) ->
  forall cur, chunks cur (ls ++ rest) (chunk_of cur ls :: cs).
Proof.
  intros F H. induction F as [|l ls I _ IH]; intro cur.
  - unfold chunk_of. cbn. rewrite app_nil_r. apply H.
  - cbn [app]. apply chunks_more; [exact I|]. specialize (IH (cur ++ 10%N :: l)).
    unfold chunk_of in *. cbn [map List.concat]. rewrite <- app_assoc in IH. exact IH.
Qed.
Section Load.
Context (today : date) (inc : str -> lw -> res lw).
Lemma journal_read accounts ls es : typed_lines accounts ls es -> Forall plain_line ls ->
  exists cs, (forall cur, chunks cur ls (cur :: cs))
  /\ forall es0 l w, so_far today accounts es0 l ->
     exists l' accounts', fold_res (parse_chunk today inc) cs (l, w) = Ok (l', w) /\ so_far today accounts' (es0 ++ es) l'.
Proof.
  induction 1 as [accounts|accounts line name rest es Ni Ew _ IH|accounts line d ls ps rest es H F C _ IH]; intro P.
  - exists []. split; [intro; constructor|]. intros es0 l w S. exists l, accounts. split; [reflexivity|]. rewrite app_nil_r. exact S.
  - inversion P as [|? ? P1 P2]; subst. destruct (IH P2) as (cs & Hc & Hf). exists (line :: cs).
    split; [intro; apply chunks_new; [exact Ni|apply Hc]|].
    intros es0 l w (fs & B & L & Cs & Fm & N & Si). cbn [fold_res].
    assert (ledger_parse_account l line = Ok (mkLedger (l_path l) (l_entries l) (l_format l)
      (map_insert name (mkAccount name [] [] []) (l_accounts l)) (l_currency l))) as E.
    { unfold ledger_parse_account, parse_account. rewrite lines_one.
      - unfold account_header. unfold words in Ew. rewrite Ew. reflexivity.
      - apply P1.
      - intros ->. discriminate. }
    assert (parse_chunk today inc (l, w) line = Ok (mkLedger (l_path l) (l_entries l) (l_format l)
      (map_insert name (mkAccount name [] [] []) (l_accounts l)) (l_currency l), w)) as ->.
    { unfold parse_chunk. rewrite <- (plain_words line P1), Ew. cbv zeta. rewrite (proj2 (str_eqb_eq _ _) eq_refl). cbn [fst]. rewrite E. reflexivity. }
    cbn [bind]. apply Hf. exists fs. split; [eapply built_account; eassumption|]. split; [exact L|]. split; [exact Cs|]. split; [exact Fm|]. split.
    + intros n I. unfold account_names. cbn [l_accounts]. rewrite map_insert_keys.
      destruct (in_dec str_dec name (map fst (l_accounts l))) as [J|J]; destruct I as [<-|I]; auto; [apply in_or_app; right; left; reflexivity|apply in_or_app; left; apply N, I].
    + intros k a I. cbn [l_accounts] in I. apply ErrorFacts.insert_In in I as [->|I]; [split; reflexivity|exact (Si k a I)].
  - inversion P as [|? ? P1 P2]; subst. apply Forall_app in P2 as [Pl P2]. destruct (IH P2) as (cs & Hc & Hf). exists (chunk_of line ls :: cs).
    assert (Forall indented ls) as In_ by (clear - F; induction F as [|l p ls ps (I & _) _ IH]; constructor; assumption).
    split; [intro; apply chunks_new; [apply H|apply indented_chunks; assumption]|].
    intros es0 l w (fs & B & L & Cs & Fm & N & Si). cbn [fold_res].
    destruct (entry_read accounts (account_names l) line d ls ps H F C N P1 Pl) as (e & Pe & Le).
    destruct (simple_add today l e Si (fun q I => like_worth (d, ps) e q Le C I)) as (l' & A & Si' & Na & Fm').
    assert (parse_chunk today inc (l, w) (chunk_of line ls) = Ok (l', w)) as ->.
    { unfold parse_chunk. destruct (entry_words line d ls H P1) as (k & r & Ek & c & Dc & Ic). rewrite Ek. cbv zeta.
      rewrite (keyword_no_digit k "account" c Dc Ic), (keyword_no_digit k "currency" c Dc Ic), (keyword_no_digit k "date_format" c Dc Ic), (keyword_no_digit k "include" c Dc Ic) by reflexivity. cbn [fst snd]. unfold ledger_parse_entry. rewrite Fm. unfold decimal_symbol.
      change (chr ".") with 46%N. rewrite Pe. cbn [bind]. rewrite A. reflexivity. }
    cbn [bind]. destruct (Hf (es0 ++ [(d, ps)]) l' w) as (l2 & acc2 & E2 & S2).
    { exists (fs ++ [e]). split; [eapply built_entry; eassumption|]. split; [apply Forall2_app; [exact L|constructor; [exact Le|constructor]]|].
      split; [apply Forall_app; split; [exact Cs|constructor; [exact C|constructor]]|]. split; [congruence|]. split; [rewrite Na; exact N|exact Si']. }
    exists l2, acc2. split; [exact E2|]. rewrite <- app_assoc in S2. exact S2.
Qed.
Lemma plain_contents t : Forall plain_line (contents (lines t)).
Proof.
  unfold contents. apply Forall_forall. intros l I. apply filter_In in I as [I _]. apply in_map_iff in I as (m & <- & I). split.
  - apply markfree_remove_comments.
  - apply content_no_lf. pose proof (DefinitionFacts.lines_no_nl t) as F. rewrite Forall_forall in F. exact (F m I).
Qed.
Lemma text_read text es p w : typed_journal text es ->
  exists l accounts, add_from_str today inc text (new_ledger p, w) = Ok (l, w) /\ so_far today accounts es l.
Proof.
  intro T. destruct (journal_read [] _ es T (plain_contents text)) as (cs & Hc & Hf).
  rewrite (add_from_str_chunks today inc text _ _ (Hc [])). cbn [fold_res]. change (parse_chunk today inc (new_ledger p, w) []) with (Ok (new_ledger p, w)).
  cbn [bind]. destruct (Hf [] (new_ledger p) w) as (l & acc & E & S).
  - exists []. split; [constructor|]. split; [constructor|]. split; [constructor|]. split; [reflexivity|]. split; [intros n []|intros k a []].
  - exists l, acc. auto.
Qed.
End Load.
