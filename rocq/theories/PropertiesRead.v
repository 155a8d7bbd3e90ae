(** C140: a balance report can be read in one way. *)
From Coq Require Import ZArith NArith List Bool Ascii String Reals Lia Lra Permutation Sorted.
From Verif Require Import Base Str F64 Date World Amount Posting Entry Envelope Account Register Ledger Importer Cli
  SpecDate SpecEntry SpecEnvelope SpecLedger SpecReport SpecAmount SpecTotals SpecCli SpecRun SpecTyped SpecZero SpecSame SpecAdded
  StrFacts LedgerFacts OrderFacts TypedFacts PropertiesLedger PropertiesTotals PropertiesCli PropertiesRun PropertiesFrame PropertiesReport PropertiesTyped PropertiesZero PropertiesSame PropertiesAdded.
Import ListNotations.
Local Open Scope Z_scope.

(** ** Numbers *)

Definition number_char (c : N) : bool := ((48 <=? c) && (c <=? 57) || (c =? 45) || (c =? 46))%N.
Definition symbol_char (c : N) : bool := negb (number_char c) && negb (c =? 32)%N.
Definition spelt (neg : bool) (ip fp : str) : str := (if neg : bool then [45%N] else []) ++ ip ++ match fp with [] => [] | _ => 46%N :: fp end.
Definition says (n : str) (z : Z) : Prop :=
  exists neg ip fp, n = spelt neg ip fp /\ Forall digit_char ip /\ Forall digit_char fp /\ ip <> [] /\ decimal_value neg ip fp = (IZR z / 100000000)%R.

Lemma digit_number c : digit_char c -> number_char c = true.
Proof. intros [A B]. unfold number_char. apply N.leb_le in A, B. rewrite A, B. reflexivity. Qed.
Lemma filter_all {A} (f : A -> bool) l : Forall (fun c => f c = true) l -> filter f l = l.
Proof. induction 1 as [|c l H F IH]; [reflexivity|]. cbn [filter]. rewrite H, IH. reflexivity. Qed.
Lemma filter_none {A} (f : A -> bool) l : Forall (fun c => f c = false) l -> filter f l = [].
Proof. induction 1 as [|c l H F IH]; [reflexivity|]. cbn [filter]. rewrite H, IH. reflexivity. Qed.
Lemma says_chars n z : says n z -> Forall (fun c => number_char c = true) n.
Proof.
  intros (neg & ip & fp & -> & I & F & _). assert (forall l, Forall digit_char l -> Forall (fun c => number_char c = true) l) as K by (intros l H; eapply Forall_impl; [|exact H]; exact digit_number).
  unfold spelt. apply Forall_app. split; [destruct neg; repeat constructor|]. apply Forall_app. split; [apply K, I|]. destruct fp; [constructor|]. constructor; [reflexivity|apply K, F].
Qed.
Lemma point_once (ip ip' r r' : str) : Forall digit_char ip -> Forall digit_char ip' ->
  (r = [] \/ exists f, r = 46%N :: f) -> (r' = [] \/ exists f, r' = 46%N :: f) -> ip ++ r = ip' ++ r' -> ip = ip' /\ r = r'.
Proof.
  intros I. revert ip'. induction I as [|c ip D I IH]; intros [|d ip'] I' R R' E; cbn [app] in E.
  - split; [reflexivity|exact E].
  - exfalso. destruct (Forall_inv I') as [A B]. destruct R as [->|(f & ->)]; [discriminate E|]. injection E as E _. subst d. lia.
  - exfalso. destruct D as [A B]. destruct R' as [->|(f & ->)]; [discriminate E|]. injection E as E _. subst c. lia.
  - injection E as -> E. destruct (IH ip' (Forall_inv_tail I') R R' E) as [-> ->]. split; reflexivity.
Qed.
Lemma says_once n z z' : says n z -> says n z' -> z = z'.
Proof.
  intros (neg & ip & fp & -> & I & F & N & V) (neg' & ip' & fp' & E & I' & F' & N' & V').
  assert (forall ip, ip <> [] -> Forall digit_char ip -> exists c r, ip = c :: r /\ c <> 45%N) as Hd.
  { intros [|c r] Q K; [contradiction|]. exists c, r. split; [reflexivity|]. inversion K as [|? ? [A B] _]; subst. lia. }
  destruct (Hd ip N I) as (c & r & Ei & Nc), (Hd ip' N' I') as (c' & r' & Ei' & Nc').
  assert (neg = neg') as <-. { unfold spelt in E. rewrite Ei, Ei' in E. destruct neg, neg'; try reflexivity; cbn [app] in E; injection E as E _; congruence. }
  unfold spelt in E. apply app_inv_head in E.
  destruct (point_once ip ip' (match fp with [] => [] | _ => 46%N :: fp end) (match fp' with [] => [] | _ => 46%N :: fp' end) I I') as [<- Ef]; [destruct fp; eauto|destruct fp'; eauto|exact E|].
  assert (fp = fp') as <- by (destruct fp, fp'; try discriminate Ef; [reflexivity|injection Ef as -> ->; reflexivity]).
  rewrite V in V'. apply eq_IZR. lra.
Qed.
Lemma shown_says t z sym : total_shown t z sym -> exists n, says n z /\ (t = with_symbol sym n \/ t = with_symbol sym (32%N :: n)).
Proof.
  intros [(n & (neg & ip & fp & E & I & F & L & _ & _ & V) & ->)|[-> (n & Hn & Ht)]].
  - exists n. split; [exists neg, ip, fp; split; [exact E|]; split; [exact I|]; split; [exact F|]; split; [destruct L as [->|(c & r & -> & _)]; discriminate|exact V]|].
    destruct (z <? 0); [left|right]; reflexivity.
  - exists n. split; [|exact Ht]. destruct Hn as [->| ->]; [exists false, [48%N], []|exists true, [48%N], []]; (split; [reflexivity|]);
      (split; [repeat constructor; vm_compute; discriminate|]); (split; [constructor|]); (split; [discriminate|]); unfold decimal_value; cbn; lra.
Qed.

(** ** Currencies *)

Definition letters (sym : option str) : str := match sym with Some s => s | None => [] end.
Lemma plain_chars s : plain_symbol (Some s) -> s <> [] /\ Forall (fun c => number_char c = false) s /\ Forall (fun c => symbol_char c = true) s.
Proof.
  intros [[N T] P]. split; [exact N|]. rewrite Forall_forall in T, P. assert (Forall (fun c => number_char c = false) s) as A.
  { apply Forall_forall. intros c I. destruct (P c I) as (D & D1 & D2 & _). unfold number_char. apply N.eqb_neq in D1, D2. rewrite D1, D2, !orb_false_r. apply not_true_iff_false. intro H. apply andb_true_iff in H as [H1 H2]. apply D. split; apply N.leb_le; assumption. }
  split; [exact A|]. rewrite Forall_forall in *. intros c I. unfold symbol_char. rewrite (A c I). cbn [negb andb]. destruct (N.eqb_spec c 32) as [->|]; [|reflexivity]. exfalso. apply (T _ I). reflexivity.
Qed.
Lemma number_part t z sym : plain_symbol sym -> total_shown t z sym -> says (filter number_char t) z /\ filter symbol_char t = letters sym.
Proof.
  intros P H. destruct (shown_says _ _ _ H) as (n & S & E). pose proof (says_chars _ _ S) as C.
  assert (filter number_char n = n) as A1 by (apply filter_all, C).
  assert (filter symbol_char n = []) as A2 by (apply filter_none; eapply Forall_impl; [|exact C]; intros c Q; unfold symbol_char; rewrite Q; reflexivity).
  assert (forall m, (m = n \/ m = 32%N :: n) -> filter number_char m = n /\ filter symbol_char m = []) as K by (intros m [->| ->]; cbn [filter]; split; assumption).
  assert (exists m, (m = n \/ m = 32%N :: n) /\ t = with_symbol sym m) as (m & Hm & ->) by (destruct E as [->| ->]; eauto). destruct (K m Hm) as [K1 K2].
  assert (filter number_char (with_symbol sym m) = n /\ filter symbol_char (with_symbol sym m) = letters sym) as [-> ->]; [|split; [exact S|reflexivity]].
  destruct sym as [s|]; [|split; assumption]. destruct (plain_chars s P) as (_ & B1 & B2). cbn [with_symbol letters].
  destruct (byte_len s <=? 2)%nat; rewrite !filter_app; cbn [filter]; change (number_char 32%N) with false; change (symbol_char 32%N) with false; cbv iota;
    rewrite (filter_none _ _ B1), (filter_all _ _ B2), K1, K2, ?app_nil_r; split; reflexivity.
Qed.
(** The text of an amount tells the number and the currency. *)
Lemma shown_once t z z' sym sym' : plain_symbol sym -> plain_symbol sym' -> total_shown t z sym -> total_shown t z' sym' -> z = z' /\ sym = sym'.
Proof.
  intros P P' H H'. destruct (number_part _ _ _ P H) as [A B], (number_part _ _ _ P' H') as [A' B']. split; [exact (says_once _ _ _ A A')|].
  rewrite B in B'. destruct sym as [s|], sym' as [s'|]; cbn [letters] in B'; [congruence| | |reflexivity]; exfalso; [destruct (plain_chars s P) as [N _]|destruct (plain_chars s' P') as [N _]]; congruence.
Qed.

(** ** Rows *)

Definition clean (t : str) : Prop := t <> [] /\ ~ In 10%N t.
Definition word_name (n : str) : Prop := n <> [] /\ Forall (fun c => ~ blank_char c) n.
Lemma cut_once (c : N) a : forall a' x x', ~ In c a -> ~ In c a' -> a ++ c :: x = a' ++ c :: x' -> a = a' /\ x = x'.
Proof.
  induction a as [|b a IH]; intros [|b' a'] x x' N N' E; cbn [app] in E.
  - injection E as E. split; [reflexivity|exact E].
  - injection E as E _. destruct N'. left. symmetry. exact E.
  - injection E as E _. destruct N. left. exact E.
  - injection E as <- E. destruct (IH a' x x') as [-> ->]; [intro I; apply N; right; exact I|intro I; apply N'; right; exact I|exact E|split; reflexivity].
Qed.
Definition body (ts : list str) : str := match ts with [t] => t | ts => flat_map (fun t => [10%N; 9%N] ++ t) ts end.
Definition no_tab (R : str) : Prop := match R with c :: _ => c <> 9%N | [] => True end.
Lemma lines_once ts : forall ts' R R', Forall clean ts -> Forall clean ts' -> no_tab R -> no_tab R' ->
  flat_map (fun t => [10%N; 9%N] ++ t) ts ++ 10%N :: R = flat_map (fun t => [10%N; 9%N] ++ t) ts' ++ 10%N :: R' -> ts = ts' /\ R = R'.
Proof.
  assert (forall ts R, exists y, flat_map (fun t => [10%N; 9%N] ++ t) ts ++ 10%N :: R = 10%N :: y) as K by (intros [|t l] R; cbn; eauto).
  induction ts as [|t ts IH]; intros [|t' ts'] R R' C C' T T' E.
  - injection E as ->. split; reflexivity.
  - exfalso. cbn in E. injection E as E. subst R. apply T. reflexivity.
  - exfalso. cbn in E. injection E as E. subst R'. apply T'. reflexivity.
  - cbn [flat_map] in E. rewrite <- !app_assoc in E. apply app_inv_head in E. destruct (K ts R) as (y & Ey), (K ts' R') as (y' & Ey'). rewrite Ey, Ey' in E.
    destruct (cut_once 10%N t t' y y') as [<- <-]; [apply (Forall_inv C)|apply (Forall_inv C')|exact E|].
    destruct (IH ts' R R') as [<- <-]; [exact (Forall_inv_tail C)|exact (Forall_inv_tail C')|exact T|exact T'|congruence|]. split; reflexivity.
Qed.
Lemma body_once ts ts' R R' : Forall clean ts -> Forall clean ts' -> no_tab R -> no_tab R' ->
  body ts ++ 10%N :: R = body ts' ++ 10%N :: R' -> ts = ts' /\ R = R'.
Proof.
  intros C C' T T' E.
  assert (forall t l Q Q', clean t -> List.length l <> 1%nat -> t ++ 10%N :: Q = body l ++ 10%N :: Q' -> False) as X.
  { intros t l Q Q' [N I] L H. assert (exists y, body l ++ 10%N :: Q' = 10%N :: y) as (y & Ey) by (destruct l as [|a [|b l]]; [cbn; eauto|destruct L; reflexivity|cbn; eauto]).
    rewrite Ey in H. destruct t as [|c t]; [apply N; reflexivity|]. injection H as H _. apply I. left. exact H. }
  destruct (Nat.eq_dec (List.length ts) 1) as [L|L], (Nat.eq_dec (List.length ts') 1) as [L'|L'].
  - destruct ts as [|t [|? ?]]; try discriminate L. destruct ts' as [|t' [|? ?]]; try discriminate L'. cbn [body] in E.
    destruct (cut_once 10%N t t' R R') as [-> ->]; [apply (Forall_inv C)|apply (Forall_inv C')|exact E|split; reflexivity].
  - exfalso. destruct ts as [|t [|? ?]]; try discriminate L. exact (X t ts' R R' (Forall_inv C) L' E).
  - exfalso. destruct ts' as [|t [|? ?]]; try discriminate L'. symmetry in E. exact (X t ts R' R (Forall_inv C') L E).
  - apply lines_once; try assumption. destruct ts as [|t [|? ?]], ts' as [|t' [|? ?]]; try exact E; exfalso; first [apply L; reflexivity|apply L'; reflexivity].
Qed.
Lemma row_text_is r R : exists y, row_text r ++ R = fst r ++ 32%N :: y
  /\ y = repeat 32%N (35 - List.length (fst r)) ++ [32%N; 32%N; 32%N] ++ body (map snd (snd r)) ++ 10%N :: R.
Proof.
  eexists. split; [|reflexivity]. unfold row_text, blanks. rewrite <- !app_assoc. f_equal. change (lit "    ") with ([32%N] ++ [32%N; 32%N; 32%N]). rewrite <- app_assoc, app_assoc.
  rewrite <- repeat_cons. unfold body. destruct (map snd (snd r)) as [|t [|u l]]; reflexivity.
Qed.
Definition readable (r : str * list (option str * str)) : Prop := word_name (fst r) /\ Forall clean (map snd (snd r)).
Lemma word_no_blank n : word_name n -> ~ In 32%N n.
Proof. intros [_ F] I. rewrite Forall_forall in F. apply (F _ I). reflexivity. Qed.
Lemma rows_no_tab rows : Forall readable rows -> no_tab (flat_map row_text rows).
Proof.
  intros [|r rows' [[N W] _] _]; [exact I|]. cbn [flat_map]. unfold row_text. destruct (fst r) as [|c n]; [contradiction|]. cbn. intros ->. apply (Forall_inv W). reflexivity.
Qed.
Lemma rows_once rows : forall rows', Forall readable rows -> Forall readable rows' -> flat_map row_text rows = flat_map row_text rows' ->
  Forall2 (fun r r' => fst r = fst r' /\ map snd (snd r) = map snd (snd r')) rows rows'.
Proof.
  induction rows as [|r rows IH]; intros [|r' rows'] C C' E; [constructor| | |].
  - exfalso. cbn [flat_map] in E. destruct (row_text_is r' (flat_map row_text rows')) as (y & Ey & _). rewrite Ey in E. destruct (fst r'); discriminate E.
  - exfalso. cbn [flat_map] in E. destruct (row_text_is r (flat_map row_text rows)) as (y & Ey & _). rewrite Ey in E. destruct (fst r); discriminate E.
  - cbn [flat_map] in E. destruct (row_text_is r (flat_map row_text rows)) as (y & Ey & Hy), (row_text_is r' (flat_map row_text rows')) as (y' & Ey' & Hy'). rewrite Ey, Ey' in E.
    destruct (Forall_inv C) as [W Cl], (Forall_inv C') as [W' Cl'].
    destruct (cut_once 32%N (fst r) (fst r') y y' (word_no_blank _ W) (word_no_blank _ W') E) as [En Eb]. rewrite Hy, Hy', <- En in Eb. apply app_inv_head in Eb. apply app_inv_head in Eb.
    destruct (body_once _ _ _ _ Cl Cl' (rows_no_tab _ (Forall_inv_tail C)) (rows_no_tab _ (Forall_inv_tail C')) Eb) as [Et Er].
    constructor; [split; assumption|]. apply IH; [exact (Forall_inv_tail C)|exact (Forall_inv_tail C')|exact Er].
Qed.
Lemma shown_clean t z sym : plain_symbol sym -> total_shown t z sym -> clean t.
Proof.
  intros P H. destruct (number_part _ _ _ P H) as [S L]. split.
  - intros ->. destruct S as (neg & ip & fp & E & _ & _ & N & _). cbn in E. unfold spelt in E. destruct neg; [discriminate E|]. destruct ip; [contradiction|discriminate E].
  - intro I. assert (In 10%N (filter symbol_char t)) as J by (apply filter_In; split; [exact I|reflexivity]). rewrite L in J. destruct sym as [s|]; [|destruct J].
    destruct P as [[_ T] _]. rewrite Forall_forall in T. apply (T _ J). reflexivity.
Qed.

(** ** Journals *)

Definition well_named (es : list typed_entry) : Prop :=
  (forall n, named_in es n -> word_name n)
  /\ forall e x, In e es -> In x (given (snd e)) -> plain_symbol (snd x).
Lemma lines_well_named accounts ls es : typed_lines accounts ls es -> Forall word_name accounts -> well_named es.
Proof.
  induction 1 as [accounts|accounts line name rest es N Wl T IH|accounts line d lines ps rest es Hd F C T IH]; intro A.
  - split; [intros n (e & p & [] & _)|intros e x []].
  - apply IH. constructor; [|exact A]. pose proof (split_ws_tokens (remove_comments line)) as K. fold (words line) in K. rewrite Wl in K. destruct (Forall_inv (Forall_inv_tail K)) as [Nn W].
    split; [exact Nn|]. apply Forall_forall. intros c I B. unfold no_ws in W. rewrite forallb_forall in W. specialize (W c I). unfold blank_char in B. rewrite B in W. discriminate W.
  - destruct (IH A) as [I1 I2]. rewrite Forall_forall in A. split.
    + intros n (e & p & [<-|I] & J & E); [|apply I1; exists e, p; auto]. cbn [snd] in J. destruct (AccountFacts.Forall2_In_r _ _ _ p F J) as (l & _ & (_ & K & _)). apply A. rewrite <- E. exact K.
    + intros e x [<-|I] J; [|exact (I2 e x I J)]. cbn [snd] in J. apply in_flat_map in J as (p & Ip & J). destruct (AccountFacts.Forall2_In_r _ _ _ p F Ip) as (l & _ & (_ & _ & _ & ws & _ & K)).
      destruct (t_amount p) as [[z s]|]; [|destruct J]. destruct J as [<-|[]]. cbn [snd]. destruct K as (t & neg & ip & fp & _ & _ & _ & K). destruct s as [s|]; [apply K|exact I].
Qed.
Lemma moves_plain es name sym : well_named es -> moves es name sym <> [] -> plain_symbol sym.
Proof.
  intros [_ W] H. unfold moves in H. destruct (flat_map _ es) as [|z l] eqn:E; [contradiction|]. assert (In z (flat_map (in_entry (fun ps p => [fst (moved ps p)]) name sym) es)) as I by (rewrite E; left; reflexivity).
  apply in_flat_map in I as (e & Ie & I). apply in_flat_map in I as (p & Ip & _). apply filter_In in Ip as [Ip Q].
  unfold meant in Q. destruct (str_dec (t_account p) name); [|discriminate Q]. destruct (sym_dec (snd (moved (snd e) p)) sym) as [<-|]; [|discriminate Q].
  unfold moved. destruct (t_amount p) as [x|] eqn:Ex.
  - apply (W e x Ie). apply in_flat_map. exists p. split; [exact Ip|]. rewrite Ex. left. reflexivity.
  - cbn [snd]. destruct (given (snd e)) as [|x l'] eqn:G; [exact I|]. apply (W e x Ie). rewrite G. left. reflexivity.
Qed.

(** Journals that print the same balances have the same totals. *)
Theorem C140_read : forall x args f w p text es x' args' f' w' p' text' es',
  parse_args args = Some (Ok f) -> f_cmd f = Balance -> chosen x f p -> (0 < x_fuel x)%nat ->
  components p <> [] -> files w (resolve w p) = Some text ->
  typed_journal text es -> opened es -> modest_sums es ->
  parse_args args' = Some (Ok f') -> f_cmd f' = Balance -> chosen x' f' p' -> (0 < x_fuel x')%nat ->
  components p' <> [] -> files w' (resolve w' p') = Some text' ->
  typed_journal text' es' -> opened es' -> modest_sums es' ->
  o_out (main x args w) = o_out (main x' args' w') -> same_totals es es'.
Proof.
  intros x args f w p text es x' args' f' w' p' text' es' Pa Fc Ch Fu Np Fi T O M Pa' Fc' Ch' Fu' Np' Fi' T' O' M' Eo.
  destruct (C133_balances x args f w p text es Pa Fc Ch Fu Np Fi T O M) as (_ & _ & rows & Out & Ord & Nm & Row).
  destruct (C133_balances x' args' f' w' p' text' es' Pa' Fc' Ch' Fu' Np' Fi' T' O' M') as (_ & _ & rows' & Out' & Ord' & Nm' & Row').
  pose proof (lines_well_named _ _ _ T (Forall_nil _)) as W. pose proof (lines_well_named _ _ _ T' (Forall_nil _)) as W'.
  assert (forall es rows, well_named es -> (forall name, In name (map fst rows) <-> named_in es name) -> Forall (right_row es) rows -> Forall readable rows) as K.
  { clear. intros es rows W Nm R. rewrite Forall_forall in *. intros r I. destruct (R r I) as (_ & C & S). split; [apply W, Nm, in_map, I|].
    apply Forall_forall. intros t J. apply in_map_iff in J as ((s & u) & E & J). cbn [snd] in E. subst u. eapply shown_clean; [|exact (S s t J)].
    apply (moves_plain es (fst r) s W). apply C. apply in_map_iff. exists (s, t). auto. }
  assert (Forall (right_row es) rows) as R by (apply Forall_forall; intros [n ts] I; exact (Row n ts I)).
  assert (Forall (right_row es') rows') as R' by (apply Forall_forall; intros [n ts] I; exact (Row' n ts I)).
  rewrite Out, Out' in Eo. pose proof (rows_once rows rows' (K _ _ W Nm R) (K _ _ W' Nm' R') Eo) as F. clear K.
  assert (map fst rows = map fst rows') as En by (clear - F; induction F as [|r r' l l' [A _] F IH]; [reflexivity|]; cbn [map]; rewrite A, IH; reflexivity).
  assert (forall n, named_in es n <-> named_in es' n) as Nn by (intro n; rewrite <- Nm, <- Nm', En; reflexivity).
  split; [exact Nn|]. intros name sym.
  destruct (in_dec str_dec name (map fst rows)) as [I|I].
  2:{ rewrite !unnamed; [split; reflexivity|rewrite <- Nn, <- Nm; exact I|rewrite <- Nm; exact I]. }
  apply in_map_iff in I as (r & Er & I). destruct (AccountFacts.Forall2_In_l _ _ _ r F I) as (r' & I' & E1 & E2). rewrite Forall_forall in R, R'.
  destruct (R r I) as (D & C & S), (R' r' I') as (D' & C' & S'). rewrite <- E1 in C', S'. rewrite Er in *. clear E1.
  assert (forall es s, well_named es -> moves es name s <> [] -> plain_symbol s) as Pl by (intros ? ? Hw; apply moves_plain, Hw).
  assert (forall ts ts', map snd ts = map snd ts' -> (forall s t, In (s, t) ts -> total_shown t (Zsum (moves es name s)) s /\ plain_symbol s)
    -> (forall s t, In (s, t) ts' -> total_shown t (Zsum (moves es' name s)) s /\ plain_symbol s)
    -> map fst ts = map fst ts' /\ forall s, In s (map fst ts) -> Zsum (moves es name s) = Zsum (moves es' name s)) as X.
  { clear. induction ts as [|[s t] ts IH]; intros [|[s' t'] ts'] E A B; try discriminate E; [split; [reflexivity|intros s []]|]. cbn [map snd fst] in *. injection E as <- E.
    destruct (IH ts' E) as [H1 H2]; [intros; apply A; right; assumption|intros; apply B; right; assumption|].
    destruct (A s t (or_introl eq_refl)) as [A1 A2], (B s' t (or_introl eq_refl)) as [B1 B2]. destruct (shown_once _ _ _ _ _ A2 B2 A1 B1) as [Ez <-].
    split; [rewrite H1; reflexivity|]. intros u [<-|J]; [exact Ez|exact (H2 u J)]. }
  destruct (X (snd r) (snd r') E2) as [X1 X2].
  { intros s t J. split; [exact (S s t J)|]. apply (Pl es s W), C, in_map_iff. exists (s, t). auto. }
  { intros s t J. split; [exact (S' s t J)|]. apply (Pl es' s W'), C', in_map_iff. exists (s, t). auto. }
  assert (moves es name sym <> [] <-> moves es' name sym <> []) as Q by (rewrite <- C, <- C', X1; reflexivity).
  split; [destruct (moves es name sym), (moves es' name sym); split; intro Z; try reflexivity; try discriminate Z; exfalso; [apply (proj2 Q); [discriminate|reflexivity]|apply (proj1 Q); [discriminate|reflexivity]]|].
  destruct (in_dec sym_dec sym (map fst (snd r))) as [J|J]; [exact (X2 sym J)|]. assert (moves es name sym = []) as -> by (destruct (moves es name sym) eqn:Z; [reflexivity|]; destruct J; apply C; rewrite Z; discriminate).
  assert (moves es' name sym = []) as -> by (destruct (moves es' name sym) eqn:Z; [reflexivity|]; destruct J; rewrite X1; apply C'; rewrite Z; discriminate). reflexivity.
Qed.
Print Assumptions C140_read.

(** Two purchases instead of one print the same, one unit of 10^-8 more does
    not. *)
Definition split_entry : typed_entry := (mkDate 2024 2 5 eq_refl, [mkTyped (lit "food") (Some (200000000, None)); mkTyped (lit "food") (Some (1025000000, None)); mkTyped purse None]).
Definition split_text : str := text ["account assets:cash"; "account equity"; "account food"; "";
  "2024/02/01 * opening"; "  assets:cash  100.5"; "  equity  -100.5"; ""; "2024/02/05 ~ market"; "  food  2"; "  food  10.25"; "  assets:cash"]%string.
Definition more_text : str := text ["account assets:cash"; "account equity"; "account food"; "";
  "2024/02/01 * opening"; "  assets:cash  100.5"; "  equity  -100.5"; ""; "2024/02/05 ~ market"; "  food  12.25000001"; "  assets:cash"]%string.
Example C140_case :
  shown_by ["b"]%string (world_of [(j, split_text)] [[]] []) = shown_by ["b"]%string (world_of [(j, first_text)] [[]] [])
  /\ map (fun n => Zsum (moves [start_entry; split_entry] n None)) [purse; lit "equity"; lit "food"]
     = map (fun n => Zsum (moves [start_entry; market_entry] n None)) [purse; lit "equity"; lit "food"]
  /\ shown_by ["b"]%string (world_of [(j, more_text)] [[]] []) = map lit
      ["assets:cash                             88.24999999"; "equity                                 -100.5"; "food                                    12.25000001"]%string.
Proof. repeat split; vm_compute; reflexivity. Qed.
