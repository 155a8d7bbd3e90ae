(** Property C96: the entry that moves money to envelopes. *)
From Coq Require Import ZArith NArith List Bool String Permutation Lia.
From Verif Require Import Base Str F64 Date Amount Posting Entry Envelope Account World Register Ledger Importer Cli
  SpecAmount SpecDate SpecEntry SpecEnvelope SpecLedger SpecRegister SpecReport SpecImport SpecCli SpecRun SpecMoves
  StrFacts EnvelopeFacts AmountFacts EntryFacts AccountFacts LedgerFacts LoadFacts IncludeFacts RunFacts PropertiesLedger PropertiesImport PropertiesCli PropertiesRun.
Import ListNotations.

Lemma fillings_moves today p vs ps q : fillings today p vs ps q ->
  exists ms, moves_of today p vs ms /\ filter keep_posting ps = map move_posting ms.
Proof.
  intro F. induction F as [p|p v a vs ps q E F (ms & M & K)]; [exists []; split; [constructor|reflexivity]|].
  cbn [filter keep_posting get_amount ep_amount]. destruct (feqb (mag a) fzero) eqn:Z; cbn [negb].
  - exists ms. split; [exact (moves_zero _ _ _ _ _ _ E Z M)|exact K].
  - exists (mkMove (v_account v) (v_name v) a :: ms). split; [exact (moves_some _ _ _ _ _ _ E Z M)|]. cbn [map]. rewrite K. reflexivity.
Qed.
Lemma fill_moves today l ps : fill_postings today l = Ok ps ->
  exists mss, Forall2 (fun ka ms => account_moves today (snd ka) ms) (l_accounts l) mss /\ ps = map move_posting (List.concat mss).
Proof.
  unfold fill_postings. intro H. apply bind_Ok in H as (pss & M & H). injection H as <-. apply map_res_Ok in M.
  induction M as [|(k & a) qs accs pss E M (mss & F & Q)]; [exists []; split; [constructor|reflexivity]|].
  cbn [snd] in E. apply filling_postings_iff in E as (q & F0). destruct (fillings_moves _ _ _ _ _ F0) as (ms & Mo & K).
  exists (ms :: mss). split; [constructor; [|exact F]|].
  - unfold account_moves. unfold all_envelopes in Mo. rewrite rev_app_distr in Mo. exact Mo.
  - cbn [List.concat]. rewrite filter_app, map_app, K, Q. reflexivity.
Qed.
Lemma moves_text_shown fmt today m ms :
  moves_text fmt today (m :: ms) = 10%N :: show_entry fmt (fill_entry today (map move_posting (m :: ms))).
Proof.
  unfold moves_text, show_entry, show_entry_header, fill_entry, new_entry. cbn [e_date e_status e_desc e_payee e_comment e_postings status_char app].
  change (match lit "automatically generated by silverfox" with [] => None | _ => Some (lit "automatically generated by silverfox") end)
    with (Some (lit "automatically generated by silverfox")). cbv iota.
  f_equal. rewrite <- (app_assoc _ _ (10%N :: _)), <- (app_assoc _ _ (10%N :: _)), <- (app_assoc (format_date fmt today)). f_equal.
  rewrite !app_assoc. f_equal. cbn [app]. f_equal.
  generalize (m :: ms) as l. intro l. induction l as [|x l IH]; [reflexivity|]. cbn [flat_map map List.concat]. rewrite IH. clear.
  unfold move_line, move_posting, show_posting, show_envposting, pad_right, blanks. cbn [m_account ep_account ep_envelope ep_amount]. cbv zeta.
  repeat (cbn [app]; rewrite <- ?app_assoc). reflexivity.
Qed.

Theorem C96_text : forall today l w w' l', fill_envelopes today l w = (w', Ok l') ->
  exists accs mss, Permutation accs (map snd (l_accounts l)) /\ Forall2 (account_moves today) accs mss
  /\ let ms := List.concat mss in let q := resolve w (l_path l) in
     cwd w' = cwd w /\ (forall d, dirs w' d = dirs w d)
     /\ (forall r, r <> q -> files w' r = files w r)
     /\ files w' q = option_map (fun t => t ++ moves_text (l_format l) today ms) (files w q)
     /\ (ms <> [] -> files w q <> None)
     /\ Permutation (l_entries l') (moves_entry today ms ++ l_entries l).
Proof.
  intros today l w w' l' H. unfold fill_envelopes in H. destruct (fill_postings today l) as [ps| | |] eqn:E; try discriminate.
  destruct (fill_moves _ _ _ E) as (mss & F & ->). exists (map snd (l_accounts l)), mss. split; [reflexivity|].
  split; [clear -F; induction F; constructor; assumption|]. cbv zeta.
  destruct (List.concat mss) as [|m ms] eqn:Em.
  - cbn [map] in H. injection H as <- <-. split; [reflexivity|]. split; [reflexivity|]. split; [reflexivity|].
    split; [|split; [congruence|reflexivity]]. cbn [moves_text]. destruct (files w (resolve w (l_path l))) as [t|]; [cbn; rewrite app_nil_r|]; reflexivity.
  - assert (append_entry today l w (fill_entry today (map move_posting (m :: ms))) = (w', Ok l')) as A by exact H. clear H.
    unfold append_entry, append_file in A. rewrite <- moves_text_shown in A.
    destruct (files w (resolve w (l_path l))) as [t|] eqn:Ft; [|discriminate]. destruct (printable (l_format l)); [|discriminate].
    injection A as <- A. cbn [cwd dirs files]. split; [reflexivity|]. split; [reflexivity|]. split.
    { intros r N. destruct (path_eqb r (resolve w (l_path l))) eqn:Q; [|reflexivity]. apply path_eqb_eq in Q. contradiction. }
    split; [rewrite (proj2 (path_eqb_eq _ _) eq_refl); reflexivity|]. split; [discriminate|].
    unfold add_entry in A. apply bind_Ok in A as (accs & _ & A). injection A as <-. cbn [l_entries].
    rewrite <- sort_entries_perm. rewrite Permutation_app_comm. reflexivity.
Qed.
Print Assumptions C96_text.

(** The files after a run that reports something. *)
Theorem C96_run : forall x args f w, parse_args args = Some (Ok f) -> f_no_move f = false -> f_cmd f <> Import ->
  o_res (main x args w) = Ok tt ->
  exists p l w1 accs mss, chosen x f p /\ from_file (x_fuel x) (x_today x) p w = Ok (l, w1)
  /\ Permutation accs (map snd (l_accounts l)) /\ Forall2 (account_moves (x_today x)) accs mss
  /\ forall q, files (o_world (main x args w)) q
       = if path_eqb q (resolve w1 (l_path l))
         then option_map (fun t => t ++ moves_text (l_format l) (x_today x) (List.concat mss)) (files w q)
         else files w q.
Proof.
  intros x args f w P Nm Ni H. assert (main x args w = execute x f w) as M by (unfold main; rewrite P; reflexivity). rewrite M in *.
  destruct (run_ready x f w) as [(l2 & w2 & R)|[_ N]]; [|contradiction].
  rewrite (ready_run x f w l2 w2 R) in *. rewrite (run_world x f l2 w2 Ni).
  inversion R as [|p l w1 l' w' C F _ Fi]; [congruence|subst].
  destruct (C96_text _ _ _ _ _ Fi) as (accs & mss & Pe & Mo & _ & _ & O & J & _). exists p, l, w1, accs, mss.
  split; [exact C|]. split; [exact F|]. split; [exact Pe|]. split; [exact Mo|]. pose proof (from_file_disk _ _ _ _ _ _ F) as (Df & _).
  intro q. destruct (path_eqb q (resolve w1 (l_path l))) eqn:Q.
  - apply path_eqb_eq in Q as ->. rewrite J, Df. reflexivity.
  - rewrite O, Df; [reflexivity|]. intros ->. rewrite (proj2 (path_eqb_eq _ _) eq_refl) in Q. discriminate.
Qed.
Print Assumptions C96_run.

Definition two_accounts : list string :=
  ["date_format %d.%m.%Y"; "account a"; "  expense x due every 15th"; "    amount $10"; "    funding aggressive";
   "  goal y by 20.07.2024"; "    amount $30"; "    funding aggressive"; "  goal z by 20.07.2024"; "    amount $30"; "    funding manual";
   "account b"; "  expense x due every 15th"; "    amount 4"; "    funding aggressive";
   "03.02.2024 * one"; "  a $37"; "  b $-37"; "03.02.2024 * two"; "  b 3"; "  a"]%string.
Definition two_ledger : ledger := loaded two_accounts.
(** The goal gets all it needs, the expense what is left, and [z] nothing. *)
Example C96_case :
  let w := world_of [(j, text two_accounts)] [[]] [] in
  files (o_world (main (ctx [] (fun _ => [])) (map lit ["b"; "-f"; "/j"]%string) w)) j
  = Some (text (two_accounts ++ ["20.03.2024 ~ move to envelopes // automatically generated by silverfox";
      "    envelope a y                                       $ 30"; "    envelope a x                                       $ 7";
      "    envelope b x                                        3"; ""]%string)).
Proof. vm_compute. reflexivity. Qed.
