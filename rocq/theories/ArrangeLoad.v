(** Journals whose definitions stand in another order: the ledgers they give. *)
From Coq Require Import ZArith NArith List Bool String Permutation.
From Verif Require Import Base Str F64 Date World Amount Posting Entry Envelope Account Register Ledger
  SpecText SpecEnvelope SpecDefinition SpecEntry SpecLedger SpecLayout SpecArrange
  StrFacts LineFacts PostingFacts EntryFacts EnvelopeFacts DefinitionFacts AccountFacts LedgerFacts LoadFacts OrderFacts CrashImport LayoutFacts ArrangeFacts.
Import ListNotations.

(** ** Entries and envelopes *)
Definition reauto (v : envelope) (A : list str) : envelope :=
  mkEnvelope (v_name v) (v_amount v) (v_type v) A (v_freq v) (v_funding v) (v_starting v) (v_next v) (v_now v) (v_account v) (v_last v).
Definition rmap {A C} (f : A -> C) (r : res A) : res C := bind r (fun x => Ok (f x)).
Lemma same_reauto v u : same_envelope v u -> u = reauto v (v_auto u) /\ forall a, mem a (v_auto v) = mem a (v_auto u).
Proof.
  intros (H1 & H2 & H3 & H4 & H5 & H6 & H7 & H8 & H9 & H10 & A). split.
  - destruct u. unfold reauto. cbn in *. congruence.
  - intro a. apply eq_true_iff_eq. rewrite !mem_In. apply A.
Qed.
Lemma reauto_same v A : (forall a, mem a (v_auto v) = mem a A) -> same_envelope v (reauto v A).
Proof.
  intro H. unfold same_envelope. cbn. do 10 (split; [reflexivity|]). intro a. rewrite <- !mem_In, H. reflexivity.
Qed.
Lemma reauto_apply today v A a d : apply_amount today (reauto v A) a d = rmap (fun w => reauto w A) (apply_amount today v a d).
Proof.
  unfold apply_amount, rmap. cbn [reauto v_freq v_now v_next]. destruct (fltb (mag a) fzero); [destruct (amount_add (v_now v) a); reflexivity|].
  destruct (fltb fzero (mag a)); [|reflexivity]. destruct (freq_last today (v_freq v)) as [[l|]| | |]; cbn [bind]; try reflexivity.
  - destruct (date_ltb d l); [destruct (amount_add (v_now v) a)|destruct (amount_add (v_next v) a)]; reflexivity.
  - destruct (amount_add (v_next v) a); reflexivity.
Qed.
Lemma reauto_process today v A e : (forall a, mem a (v_auto v) = mem a A) -> env_process today (reauto v A) e = rmap (fun w => reauto w A) (env_process today v e).
Proof.
  intro H. unfold env_process. destruct (has_envelope_posting e).
  - unfold process_manual. generalize (envelope_postings e) as ps. intro ps. revert v H. induction ps as [|p ps IH]; intros v H; [reflexivity|]. cbn [fold_res].
    assert (S : manual_step today (e_date e) (reauto v A) p = rmap (fun w => reauto w A) (manual_step today (e_date e) v p)).
    { unfold manual_step. destruct p as [c|ep]; [reflexivity|]. cbn [reauto v_account v_name]. destruct (_ && _); [apply reauto_apply|reflexivity]. }
    rewrite S. unfold rmap at 1. destruct (manual_step today (e_date e) v p) as [w| | |] eqn:E; cbn [bind]; try reflexivity. apply IH.
    assert (v_auto w = v_auto v) as ->; [|exact H]. unfold manual_step in E. destruct p as [c|ep]; [injection E as <-; reflexivity|].
    destruct (_ && _); [|injection E as <-; reflexivity]. clear - E. unfold apply_amount in E. apply bind_Ok in E as (w' & E & F). injection F as <-. cbn [set_last v_auto].
    destruct (fltb _ _); [apply bind_Ok in E as (n & _ & E); injection E as <-; reflexivity|]. destruct (fltb _ _); [|injection E as <-; reflexivity].
    apply bind_Ok in E as (l & _ & E). destruct l as [l|]; [destruct (date_ltb _ _)|]; apply bind_Ok in E as (n & _ & E); injection E as <-; reflexivity.
  - unfold infer. cbv zeta. cbn [reauto v_amount v_account].
    assert (C : count_auto (reauto v A) (e_postings e) = count_auto v (e_postings e)).
    { unfold count_auto. f_equal. apply filter_ext. intro p. cbn [reauto v_account v_auto]. rewrite H. reflexivity. }
    assert (D : count_self (reauto v A) (e_postings e) = count_self v (e_postings e)) by reflexivity.
    rewrite C, D. destruct (_ || _); [reflexivity|].
    assert (F : forall ps s, fold_res (infer_step (reauto v A) e) ps s = fold_res (infer_step v e) ps s).
    { intros ps s. apply fold_ext. intros [x y] p _. unfold infer_step. change (infer_amount (reauto v A) e p) with (infer_amount v e p). cbn [reauto v_account v_auto]. rewrite H. reflexivity. }
    rewrite F. unfold rmap. destruct (fold_res (infer_step v e) (e_postings e) _) as [[x y]| | |]; cbn [bind]; try reflexivity.
    destruct (negb _); [|reflexivity]. rewrite reauto_apply. reflexivity.
Qed.
Lemma env_same today v u e : same_envelope v u -> both same_envelope (env_process today v e) (env_process today u e).
Proof.
  intro H. destruct (same_reauto _ _ H) as [E M]. rewrite E. rewrite reauto_process by exact M. unfold rmap.
  destruct (env_process today v e) as [w| | |] eqn:P; cbn; try exact I. apply reauto_same.
  destruct (env_process_inv _ _ _ _ P) as [D _]. unfold same_definition in D. intro a. rewrite <- M. f_equal. tauto.
Qed.
Lemma map_res_both {A C D F} (R : A -> C -> Prop) (S : D -> F -> Prop) f g l m : (forall a b, R a b -> both S (f a) (g b)) -> Forall2 R l m -> both (Forall2 S) (map_res f l) (map_res g m).
Proof.
  intro H. induction 1 as [|a b l m Q G IH]; [constructor|]. cbn [map_res]. eapply both_bind; [apply H, Q|]. intros x y X. eapply both_bind; [exact IH|]. intros xs ys Y. constructor; assumption.
Qed.
Lemma acc_same today a b e : same_account a b -> both same_account (acc_process today a e) (acc_process today b e).
Proof.
  intros (N & R & X & G). unfold acc_process.
  eapply both_bind; [apply (map_res_both same_envelope same_envelope _ _ _ _ (fun v u => env_same today v u e) X)|]. intros ex ex' X'.
  eapply both_bind; [apply (map_res_both same_envelope same_envelope _ _ _ _ (fun v u => env_same today v u e) G)|]. intros go go' G'.
  rewrite N, R. eapply both_bind; [apply both_refl|]. intros r ? <-. repeat split; assumption.
Qed.

(** ** Maps of accounts *)
Definition KA (x y : str * account) : Prop := fst x = fst y /\ same_account (snd x) (snd y).
Lemma KA_refl x : KA x x.
Proof. split; [reflexivity|apply same_account_refl]. Qed.
Lemma KA_trans x y z : KA x y -> KA y z -> KA x z.
Proof. intros [A C] [D E]. split; [congruence|eapply same_account_trans; eassumption]. Qed.
Lemma accounts_refl m : same_accounts m m.
Proof. exists m. split; [apply Forall2_same, KA_refl|apply Permutation_refl]. Qed.
Lemma accounts_trans m n k : same_accounts m n -> same_accounts n k -> same_accounts m k.
Proof.
  intros (o & F & P) (o' & F' & P'). destruct (Forall2_perm KA n o (Permutation_sym P) o' F') as (o2 & P2 & F2).
  exists o2. split; [eapply Forall2_compose; [exact KA_trans|exact F|exact F2]|]. eapply perm_trans; [apply Permutation_sym, P2|exact P'].
Qed.
Lemma KA_keys m o : Forall2 KA m o -> map fst m = map fst o.
Proof. induction 1 as [|x y m o [E _] F IH]; [reflexivity|]. cbn. congruence. Qed.
Lemma accounts_keys m n : same_accounts m n -> Permutation (map fst m) (map fst n).
Proof. intros (o & F & P). rewrite (KA_keys _ _ F). apply Permutation_map, P. Qed.
Lemma accounts_NoDup m n : same_accounts m n -> NoDup (map fst m) -> NoDup (map fst n).
Proof. intros H. apply Permutation_NoDup, accounts_keys, H. Qed.
Lemma KA_insert k a b m o : same_account a b -> Forall2 KA m o -> Forall2 KA (map_insert k a m) (map_insert k b o).
Proof.
  intros H. induction 1 as [|[k1 a1] [k2 a2] m o Q F IH]; [constructor; [split; [reflexivity|exact H]|constructor]|].
  pose proof Q as [E _]. cbn in E. subst k2. cbn [map_insert]. destruct (str_eqb k1 k); constructor; auto. split; [reflexivity|exact H].
Qed.
Lemma accounts_insert k a b m n : NoDup (map fst m) -> same_account a b -> same_accounts m n -> same_accounts (map_insert k a m) (map_insert k b n).
Proof.
  intros N H (o & F & P). exists (map_insert k b o). split; [apply KA_insert; assumption|]. apply map_insert_perm; [|exact P]. rewrite <- (KA_keys _ _ F). exact N.
Qed.
Lemma insert_swap {A} j k (a b : A) m : j <> k -> NoDup (map fst m) -> Permutation (map_insert j a (map_insert k b m)) (map_insert k b (map_insert j a m)).
Proof.
  intros D N. apply NoDup_Permutation.
  - eapply NoDup_map_inv. apply map_insert_NoDup, map_insert_NoDup, N.
  - eapply NoDup_map_inv. apply map_insert_NoDup, map_insert_NoDup, N.
  - intros [k' v']. rewrite <- !map_get_In by (apply map_insert_NoDup, map_insert_NoDup; assumption).
    rewrite !map_get_insert. destruct (str_dec j k'), (str_dec k k'); try reflexivity. congruence.
Qed.
Lemma accounts_process today e m n : same_accounts m n -> both same_accounts (map_res (process_pair today e) m) (map_res (process_pair today e) n).
Proof.
  intros (o & F & P).
  assert (G : both (Forall2 KA) (map_res (process_pair today e) m) (map_res (process_pair today e) o)).
  { apply (map_res_both KA KA); [|exact F]. intros [k a] [k' b] [E H]. cbn in E, H. subst k'. unfold process_pair. cbn [fst snd].
    eapply both_bind; [apply acc_same, H|]. intros a' b' Q. split; [reflexivity|exact Q]. }
  pose proof (map_res_perm (process_pair today e) o n P) as B.
  destruct (map_res (process_pair today e) m), (map_res (process_pair today e) o), (map_res (process_pair today e) n); cbn in *; try contradiction; try exact I.
  exists a0. auto.
Qed.

(** ** Ledgers *)
Definition Led (l m : ledger) : Prop := same_ledger l m /\ NoDup (account_names l).
Lemma Led_right l m : Led l m -> Led m m.
Proof.
  intros [(P & E & F & C & A) N]. split; [repeat split; apply accounts_refl|]. exact (accounts_NoDup _ _ A N).
Qed.
Lemma Led_trans l m n : Led l m -> Led m n -> Led l n.
Proof.
  intros [(P & E & F & C & A) N] [(P' & E' & F' & C' & A') _]. split; [|exact N].
  split; [congruence|]. split; [congruence|]. split; [congruence|]. split; [congruence|]. eapply accounts_trans; eassumption.
Qed.
Lemma Led_mem l m s : Led l m -> mem s (account_names l) = mem s (account_names m).
Proof. intros [(_ & _ & _ & _ & A) _]. apply mem_perm, accounts_keys, A. Qed.
Lemma Led_add today l m e : Led l m -> both Led (add_entry today l e) (add_entry today m e).
Proof.
  intros [(P & E & F & C & A) N]. rewrite !add_entry_accounts_eq. pose proof (accounts_process today e _ _ A) as B.
  destruct (map_res (process_pair today e) (l_accounts l)) as [a| | |] eqn:M, (map_res (process_pair today e) (l_accounts m)) as [b| | |]; cbn in *; try contradiction; try exact I.
  split; [unfold same_ledger; cbn; rewrite P, E, F, C; auto|]. unfold account_names in *. cbn. rewrite (process_keys _ _ _ _ M). exact N.
Qed.
Lemma Led_parse_entry today l m c : Led l m -> both Led (ledger_parse_entry today l c) (ledger_parse_entry today m c).
Proof.
  intro H. pose proof H as [(P & E & F & C & A) N]. unfold ledger_parse_entry. rewrite F, (parse_entry_names c _ _ (account_names l) (account_names m)) by (intro s; apply Led_mem, H).
  eapply both_bind; [apply both_refl|]. intros e ? <-. apply Led_add, H.
Qed.
Lemma Led_account l m a b : Led l m -> same_account a b ->
  Led (mkLedger (l_path l) (l_entries l) (l_format l) (map_insert (a_name a) a (l_accounts l)) (l_currency l))
      (mkLedger (l_path m) (l_entries m) (l_format m) (map_insert (a_name b) b (l_accounts m)) (l_currency m)).
Proof.
  intros [(P & E & F & C & A) N] H. assert (Nm : a_name a = a_name b) by apply H. rewrite Nm. split.
  - unfold same_ledger. cbn. rewrite P, E, F, C. repeat split. apply accounts_insert; assumption.
  - unfold account_names. cbn. apply map_insert_NoDup, N.
Qed.

(** ** Loading *)
Definition St (s t : lw) : Prop := Led (fst s) (fst t) /\ rearranged_world (snd s) (snd t).
Lemma text_refl t : rearranged_text t t.
Proof. destruct (cut_up_total t) as (cs & C). exists cs, cs. split; [exact C|]. split; [exact C|apply rearranged_refl]. Qed.
Lemma text_trans t u x : rearranged_text t u -> rearranged_text u x -> rearranged_text t x.
Proof.
  intros (cs & ds & C & D & R) (ds' & es & D' & E & R'). rewrite (chunks_unique _ _ _ _ D' D) in R'. exists cs, es. split; [exact C|]. split; [exact E|eapply rearranged_trans; eassumption].
Qed.
Lemma world_refl w : rearranged_world w w.
Proof. split; [reflexivity|]. split; [reflexivity|]. intro p. destruct (files w p); [apply text_refl|exact I]. Qed.
Lemma world_trans w v u : rearranged_world w v -> rearranged_world v u -> rearranged_world w u.
Proof.
  intros (D & C & F) (D' & C' & F'). split; [intro p; rewrite D; apply D'|]. split; [congruence|]. intro p. specialize (F p). specialize (F' p).
  destruct (files w p), (files v p), (files u p); try contradiction; try exact I. eapply text_trans; eassumption.
Qed.
Lemma St_trans r s t : St r s -> St s t -> St r t.
Proof. intros [A C] [D E]. split; [eapply Led_trans; eassumption|eapply world_trans; eassumption]. Qed.
Lemma St_right s t : St s t -> St t t.
Proof. intros [A _]. split; [exact (Led_right _ _ A)|apply world_refl]. Qed.
Lemma St_ledger s t r r' : St s t -> both Led r r' -> both St (on_ledger s r) (on_ledger t r').
Proof. intros [_ W] H. unfold on_ledger. eapply both_bind; [exact H|]. intros l m L. split; [exact L|exact W]. Qed.

Definition clean (c : str) : Prop := Forall (fun l => markfree l = true) (lines c).
Lemma rearranged_clean cs ds : rearranged cs ds -> Forall clean cs -> Forall clean ds.
Proof.
  induction 1 as [cs|c cs ds R IH|c d m n cs _ _ _|c d h ls x y ms cs _ _ Ec Ed|cs ds es R1 IH1 R2 IH2]; intro H; auto.
  - inversion H; subst. constructor; auto.
  - inversion H as [|? ? A K]; subst. inversion K; subst. constructor; [assumption|]. constructor; assumption.
  - inversion H as [|? ? A K]; subst. constructor; [|exact K]. unfold clean in *. rewrite Ed. rewrite Ec in A. inversion A as [|? ? A1 A2]; subst. constructor; [exact A1|].
    apply Forall_app in A2 as [A2 A3]. apply Forall_app. split; [exact A2|]. inversion A3 as [|? ? A4 A5]; subst. inversion A5; subst. repeat (constructor; try assumption).
Qed.
Lemma account_chunk c h ls : lines c = h :: ls -> first_word h (lit "account") -> exists r, split_ws c = lit "account" :: r.
Proof.
  intros E W. rewrite words_sentences. unfold sentences. rewrite E. cbn [map filter]. unfold first_word in W. destruct (split_ws h) as [|x y]; [discriminate|]. injection W as ->. eexists. reflexivity.
Qed.
Lemma parse_account_chunk today inc s c h ls : lines c = h :: ls -> first_word h (lit "account") -> parse_chunk today inc s c = on_ledger s (ledger_parse_account (fst s) c).
Proof. intros E W. destruct (account_chunk c h ls E W) as (r & K). unfold parse_chunk. rewrite K. reflexivity. Qed.

Section Load.
Context (today : date) (inc : str -> lw -> res lw) (Hinc : forall f s t, St s t -> both St (inc f s) (inc f t)).
Lemma St_chunk s t c : St s t -> both St (parse_chunk today inc s c) (parse_chunk today inc t c).
Proof.
  intro H. pose proof H as [L W]. pose proof L as [(P & E & F & C & A) N]. unfold parse_chunk. destruct (split_ws c) as [|k r]; [exact H|]. cbv zeta.
  destruct (str_eqb k (lit "account")).
  { apply St_ledger; [exact H|]. unfold ledger_parse_account. rewrite F. eapply both_bind; [apply both_refl|]. intros a ? <-. pose proof (Led_account _ _ a a L (same_account_refl a)) as Q. rewrite F in Q. exact Q. }
  destruct (str_eqb k (lit "currency")).
  { apply St_ledger; [exact H|]. unfold set_currency. destruct (hd_error r); [|exact I]. split; [unfold same_ledger; cbn; auto|exact N]. }
  destruct (str_eqb k (lit "date_format")).
  { apply St_ledger; [exact H|]. unfold set_date_format. destruct (hd_error r); [|exact I]. split; [unfold same_ledger; cbn; auto|exact N]. }
  destruct (str_eqb k (lit "include")); [destruct (hd_error r); [apply Hinc, H|exact I]|].
  apply St_ledger; [exact H|]. apply Led_parse_entry, L.
Qed.
Lemma St_chunks cs : forall s t, St s t -> both St (fold_res (parse_chunk today inc) cs s) (fold_res (parse_chunk today inc) cs t).
Proof. induction cs as [|c cs IH]; intros s t H; [exact H|]. cbn [fold_res]. eapply both_bind; [apply St_chunk, H|]. intros s' t' H'. apply IH, H'. Qed.
Lemma St_accounts s t c d m n : defines c m -> defines d n -> m <> n -> Forall clean [c; d] -> St s t ->
  both St (fold_res (parse_chunk today inc) [c; d] s) (fold_res (parse_chunk today inc) [d; c] t).
Proof.
  intros (h & ls & Ec & Wc) (k & ms & Ed & Wd) Nmn Cl H. pose proof H as [L W]. pose proof L as [(P & E & F & C & A) N].
  assert (Hc : forall s, parse_chunk today inc s c = on_ledger s (ledger_parse_account (fst s) c)) by (intro; eapply parse_account_chunk; [exact Ec|unfold first_word; rewrite Wc; reflexivity]).
  assert (Hd : forall s, parse_chunk today inc s d = on_ledger s (ledger_parse_account (fst s) d)) by (intro; eapply parse_account_chunk; [exact Ed|unfold first_word; rewrite Wd; reflexivity]).
  inversion Cl as [|? ? Cc Cl']; subst. inversion Cl' as [|? ? Cd _]; subst. unfold clean in Cc, Cd. rewrite Ec in Cc. rewrite Ed in Cd. inversion Cc as [|? ? Mh _]; subst. inversion Cd as [|? ? Mk _]; subst.
  cbn [fold_res]. rewrite Hc, Hd. unfold ledger_parse_account, on_ledger. rewrite F.
  destruct (parse_account c decimal_symbol (l_format (fst t))) as [a| | |] eqn:Pa; cbn [bind].
  2-4: destruct (parse_account d decimal_symbol (l_format (fst t))) as [b| | |]; cbn [bind]; try exact I; rewrite Hc; cbn [fst]; unfold ledger_parse_account; cbn [l_format]; rewrite Pa; exact I.
  destruct (parse_account d decimal_symbol (l_format (fst t))) as [b| | |] eqn:Pb; cbn [bind].
  2-4: rewrite Hd; cbn [fst]; unfold ledger_parse_account; cbn [l_format]; rewrite Pb; exact I.
  rewrite Hd, Hc. cbn [fst]. unfold ledger_parse_account. cbn [l_format]. rewrite Pb, Pa. unfold on_ledger. cbn [bind l_path l_entries l_format l_accounts l_currency fst snd].
  assert (Na : a_name a = m /\ a_name b = n).
  { apply parse_account_iff in Pa as (h' & ls' & kw & ss & vs & E1 & E2 & _). apply parse_account_iff in Pb as (k' & ms' & kw' & ss' & vs' & E3 & E4 & _).
    rewrite Ec in E1. rewrite Ed in E3. injection E1 as <- <-. injection E3 as <- <-. rewrite (remove_comments_markfree _ Mh), Wc in E2. rewrite (remove_comments_markfree _ Mk), Wd in E4.
    injection E2. injection E4. auto. }
  destruct Na as [-> ->]. split; [|exact W]. cbn [fst]. split.
  - unfold same_ledger. cbn. rewrite P, E, C. repeat split. eapply accounts_trans.
    + apply accounts_insert; [apply map_insert_NoDup, N|apply same_account_refl|]. apply accounts_insert; [exact N|apply same_account_refl|exact A].
    + eexists. split; [apply Forall2_same, KA_refl|]. apply insert_swap; [congruence|]. exact (accounts_NoDup _ _ A N).
  - unfold account_names. cbn. apply map_insert_NoDup, map_insert_NoDup, N.
Qed.
Lemma St_rearranged cs ds : rearranged cs ds -> Forall clean cs -> forall s t, St s t ->
  both St (fold_res (parse_chunk today inc) cs s) (fold_res (parse_chunk today inc) ds t).
Proof.
  induction 1 as [cs|c cs ds R IH|c d m n cs Dc Dd Nmn|c d h ls x y ms cs W D Ec Ed|cs ds es R1 IH1 R2 IH2]; intros Cl s t H.
  - apply St_chunks, H.
  - inversion Cl; subst. cbn [fold_res]. eapply both_bind; [apply St_chunk, H|]. intros s' t' H'. apply IH; assumption.
  - change (c :: d :: cs) with ([c; d] ++ cs). change (d :: c :: cs) with ([d; c] ++ cs). rewrite !fold_res_app.
    eapply both_bind; [eapply St_accounts; try eassumption|intros s' t' H'; apply St_chunks, H'].
    inversion Cl as [|? ? A K]; subst. inversion K; subst. repeat (constructor; try assumption).
  - inversion Cl as [|? ? A K]; subst. cbn [fold_res]. eapply both_bind; [|intros s' t' H'; apply St_chunks, H'].
    rewrite (parse_account_chunk today inc s c h _ Ec W), (parse_account_chunk today inc t d h _ Ed W). apply St_ledger; [exact H|].
    destruct H as [L _]. pose proof L as [(_ & _ & F & _) _]. unfold ledger_parse_account. rewrite F.
    eapply both_bind; [eapply settings_account; eassumption|]. intros a b Q. pose proof (Led_account _ _ a b L Q) as K'. rewrite F in K'. exact K'.
  - eapply both_trans; [exact St_trans|apply IH1; eassumption|]. apply IH2; [eapply rearranged_clean; eassumption|eapply St_right; exact H].
Qed.
Lemma St_str x y s t : rearranged_text x y -> St s t -> both St (add_from_str today inc x s) (add_from_str today inc y t).
Proof.
  intros (cs & ds & C & D & R) H. rewrite (add_from_str_chunks _ _ _ _ _ C), (add_from_str_chunks _ _ _ _ _ D). apply St_rearranged; [exact R| |exact H].
  pose proof (cut_markfree _ _ C) as M. eapply Forall_impl; [|exact M]. intros c Mc. apply markfree_lines, Mc.
Qed.
End Load.
Lemma St_file today : forall fuel f s t, St s t -> both St (add_from_file fuel today f s) (add_from_file fuel today f t).
Proof.
  induction fuel as [|fuel IH]; intros f s t H; [exact I|]. cbn [add_from_file]. pose proof H as [L (D & C & Fw)].
  assert (R : resolve (snd s) f = resolve (snd t) f) by (unfold resolve; rewrite C; reflexivity).
  unfold read_file. rewrite R. specialize (Fw (resolve (snd t) f)) as Ft.
  destruct (files (snd s) _) as [x|] eqn:Ex, (files (snd t) _) as [y|] eqn:Ey; try contradiction; [|exact I]. cbn [bind].
  assert (K : both rearranged_world (chdir_parent (snd s) f) (chdir_parent (snd t) f)).
  { unfold chdir_parent. rewrite C. destruct (components f) as [|z zs]; [exact I|]. rewrite D. destruct (_ && _).
    - split; [exact D|]. split; [reflexivity|exact Fw].
    - split; [exact D|]. split; [exact C|exact Fw]. }
  eapply both_bind; [exact K|]. intros w v Wv. apply St_str; [exact IH|exact Ft|]. split; [exact L|exact Wv].
Qed.
Lemma St_from_file fuel today p w v : rearranged_world w v -> both St (from_file fuel today p w) (from_file fuel today p v).
Proof. intro W. apply St_file. split; [split; [repeat split; apply accounts_refl|constructor]|exact W]. Qed.
