(** Properties C20-C31: the ledger, journal texts, includes and the journal file. *)
From Coq Require Import ZArith NArith List Bool String Permutation Sorted Lia.
From Verif Require Import Base Str F64 Date Amount Posting Entry Envelope Account World Register Ledger
  SpecAmount SpecDate SpecEntry SpecEnvelope SpecLedger StrFacts AmountFacts EntryFacts EnvelopeFacts
  AccountFacts DateFormat LedgerFacts LoadFacts IncludeFacts.
Import ListNotations.
Local Open Scope Z_scope.

Local Notation D y m d := (mkDate y m d eq_refl).
Definition today : date := D 2024 3 20.
Definition nl : str := [10%N].
Definition text (ls : list string) : str := join nl (map lit ls).

(** A world given by lists. *)
Definition world_of (fs : list (path * str)) (ds : list path) (c : path) : world :=
  mkWorld (fun p => option_map snd (List.find (fun x => path_eqb (fst x) p) fs))
          (fun p => existsb (path_eqb p) ds) c.
Definition proper_lists (fs : list (path * str)) (ds : list path) (c : path) : bool :=
  existsb (path_eqb []) ds && existsb (path_eqb c) ds
  && forallb (fun d => negb (existsb (fun x => path_eqb (fst x) d) fs)) ds
  && forallb (fun x : path * str => existsb (path_eqb (removelast (fst x))) ds) fs.
Lemma world_of_proper fs ds c : proper_lists fs ds c = true -> proper (world_of fs ds c).
Proof.
  unfold proper_lists. rewrite !andb_true_iff, !forallb_forall. intros (((H1 & H2) & H3) & H4).
  unfold proper, world_of. cbn [files dirs cwd]. split; [exact H1|]. split; [exact H2|]. split.
  - intros p H. apply existsb_exists in H as (d & I & E). apply path_eqb_eq in E. subst d.
    specialize (H3 p I). apply negb_true_iff in H3.
    destruct (find _ fs) as [x|] eqn:F; [|reflexivity]. apply find_some in F as (I' & E).
    assert (existsb (fun x => path_eqb (fst x) p) fs = true) by (apply existsb_exists; eauto). congruence.
  - intros p t H. destruct (find _ fs) as [x|] eqn:F; [|discriminate]. apply find_some in F as (I' & E).
    apply path_eqb_eq in E. subst p. apply H4, I'.
Qed.
(** Loading one text as the file [/j], with an empty current directory. *)
Definition j : path := [lit "j"].
Definition loading (ls : list string) : res lw :=
  from_file 3 today (lit "/j") (world_of [(j, text ls)] [[]] []).
Definition loaded (ls : list string) : ledger :=
  match loading ls with Ok s => fst s | _ => new_ledger [] end.
Definition real_text (n : string) (l : ledger) : option str :=
  option_map (fun a => show_pool (a_real a)) (map_get (lit n) (l_accounts l)).

(** ** C20 *)
Theorem C20_entries_sorted : forall today l es, built today l es ->
  Permutation es (l_entries l)
  /\ StronglySorted (fun x y => not_later (e_date x) (e_date y)) (l_entries l)
  /\ forall d, on d (l_entries l) = on d es.
Proof. exact built_entries. Qed.
Print Assumptions C20_entries_sorted.

(** Every loaded ledger is one of those. *)
Theorem C20_loaded : forall fuel today p w l w', from_file fuel today p w = Ok (l, w') ->
  exists es, built today l es.
Proof.
  intros fuel td p w l w' H. exact (loaded_built fuel td p _ _ [] H (built_new td p)).
Qed.
Print Assumptions C20_loaded.

Definition three_days : list string :=
  ["account a"; "account b";
   "2024/02/03 * second"; " a 1"; " b";
   "2024/01/05 * first"; " a 2"; " b";
   "2024/02/03 ~ third"; " a 3"; " b"]%string.
Example C20_case :
  map e_desc (l_entries (loaded three_days)) = map lit ["first"; "second"; "third"]%string.
Proof. vm_compute. reflexivity. Qed.

(** ** C21 *)
Theorem C21_real_value : forall today l es0 es l' name a,
  built today l es0 -> fold_res (add_entry today) es l = Ok l' ->
  map_get name (l_accounts l) = Some a ->
  exists a' xs, map_get name (l_accounts l') = Some a'
  /\ worths (filter (to_classic name) (postings es)) xs
  /\ a_real a' = fold_left pool_add xs (a_real a).
Proof.
  intros td l es0 es l' name a B H G.
  destruct (real_after td es l l' name a H G) as (a' & xs & G' & _ & W & R).
  - apply (built_well_keyed _ _ _ B), G.
  - eauto.
Qed.
Print Assumptions C21_real_value.

(** Counted from the definition of the account, per currency. *)
Theorem C21_per_currency : forall today l es name a,
  built today l es -> map_get name (l_accounts l) = Some a ->
  exists before since xs, es = before ++ since
  /\ worths (filter (to_classic name) (postings since)) xs
  /\ forall sym, mag (pool_only (a_real a) sym) = left_sum (contributions sym (map PAdd xs)).
Proof.
  intros td l es name a B G. destruct (built_real td l es name a B G) as (e1 & e2 & xs & E & W & R).
  exists e1, e2, xs. split; [exact E|]. split; [exact W|]. intro sym. rewrite R. apply pool_only_mag.
Qed.
Print Assumptions C21_per_currency.

Theorem C21_envelope_postings : forall name e ep, to_classic name (e, EnvPosting ep) = false.
Proof. reflexivity. Qed.

Definition moving : list string :=
  ["account a"; " expense x due every 15th"; "  amount 10"; "account b";
   "2024/02/03 * one"; " a 7"; " b";
   "2024/01/05 * two"; " a 2 EUR"; " b";
   "2024/02/03 ~ three"; " envelope a x 4";
   "2024/02/03 ~ four"; " b 3"; " a"]%string.
Example C21_case :
  let item (s : string) := [10; 9]%N ++ lit s in
  real_text "a" (loaded moving) = Some (item " 4"%string ++ item " 2 EUR"%string)
  /\ real_text "b" (loaded moving) = Some (item "-4"%string ++ item "-2 EUR"%string).
Proof. vm_compute. split; reflexivity. Qed.

(** ** C22 *)
Theorem C22_adding : forall today l l' e, reordered l l' ->
  both reordered (add_entry today l e) (add_entry today l' e).
Proof. exact add_entry_reordered. Qed.
Print Assumptions C22_adding.

Theorem C22_same_accounts : forall l l' name, NoDup (account_names l) -> reordered l l' ->
  map_get name (l_accounts l) = map_get name (l_accounts l').
Proof. exact reordered_get. Qed.
Print Assumptions C22_same_accounts.

(** Loading any file on top of it, and all reports. *)
Theorem C22_loading : forall fuel today p l l' w, NoDup (account_names l) -> reordered l l' ->
  both (fun s s' => reordered (fst s) (fst s') /\ NoDup (account_names (fst s)) /\ snd s = snd s')
    (add_from_file fuel today p (l, w)) (add_from_file fuel today p (l', w)).
Proof.
  intros fuel td p l l' w N R. eapply both_weaken; [|apply (swapped_load td fuel p (l, w) (l', w))].
  - intros s s' ((H1 & H2) & H3). auto.
  - split; [split; assumption|reflexivity].
Qed.
Print Assumptions C22_loading.

Theorem C22_reports : forall today tty l l' b e m, NoDup (account_names l) -> reordered l l' ->
  show_balance l = show_balance l' /\ show_envelopes today l = show_envelopes today l'
  /\ show_register tty l b e m = show_register tty l' b e m.
Proof. exact reordered_reports. Qed.
Print Assumptions C22_reports.

Theorem C22_built : forall today l es, built today l es -> NoDup (account_names l).
Proof. intros td l es B. apply (built_well_keyed _ _ _ B). Qed.
Print Assumptions C22_built.

Example C22_case :
  let l := loaded moving in
  let l' := mkLedger (l_path l) (l_entries l) (l_format l) (rev (l_accounts l)) (l_currency l) in
  account_names l = map lit ["a"; "b"]%string /\ account_names l' = map lit ["b"; "a"]%string
  /\ show_envelopes today l = show_envelopes today l'.
Proof. vm_compute. repeat split; reflexivity. Qed.

(** ** C23 *)
(** A first blank posting counts as zero, and money put into an envelope as
    money of the account. *)
Theorem C23_refuted : exists ls,
  show_balance (loaded ls) = Ok (text [
    "a                                       11";
    "b                                       0"; ""]%string)
  /\ real_text "a" (loaded ls) = Some (lit " 7") /\ real_text "b" (loaded ls) = Some (lit "-7").
Proof.
  exists ["account a"; " expense x due every 15th"; "  amount 10"; "account b";
    "2024/02/03 * one"; " a 7"; " b";
    "2024/02/03 ~ three"; " envelope a x 4"]%string.
  vm_compute. repeat split; reflexivity.
Qed.
Print Assumptions C23_refuted.

(** What it shows: the first amount, zero if blank, and the sum of the others. *)
Theorem C23_shown_partial : forall l m name, get_totals l = Ok m ->
  match filter (to_account name) (postings (l_entries l)) with
  | [] => map_get name m = None
  | x :: rest => exists xs, worths rest xs
      /\ map_get name m
         = Some (fold_left pool_add xs [match get_amount (snd x) with Some a => a | None => amount_zero end])
  end.
Proof.
  intros l m name H. pose proof (get_totals_spec l m H name) as T. unfold total_of in T.
  destruct (filter _ _) as [|x rest]; exact T.
Qed.
Print Assumptions C23_shown_partial.

(** So it is right for an account without envelope postings whose first
    posting has an amount. *)
Theorem C23_right_partial : forall l m name x rest, get_totals l = Ok m ->
  filter (to_account name) (postings (l_entries l)) = x :: rest -> get_amount (snd x) <> None ->
  (forall e ep, In (e, EnvPosting ep) (x :: rest) -> False) ->
  exists xs, worths (filter (to_classic name) (postings (l_entries l))) xs
  /\ map_get name m = Some (sum_up xs)
  /\ forall sym, mag (pool_only (sum_up xs) sym) = left_sum (contributions sym (map PAdd xs)).
Proof.
  intros l m name x rest H F A N.
  pose proof (C23_shown_partial l m name H) as T. rewrite F in T. destruct T as (xs & W & G).
  destruct (get_amount (snd x)) as [a|] eqn:Ea; [|contradiction].
  exists (a :: xs). split; [|split; [|intro; apply pool_only_mag]].
  - assert (filter (to_classic name) (postings (l_entries l)) = x :: rest) as ->.
    { rewrite <- F. apply filter_ext_in. intros [e p] I. unfold to_classic, to_account. cbn [snd].
      destruct p as [c|ep]; [reflexivity|]. cbn [get_account].
      destruct (str_dec (ep_account ep) name) as [E|_]; [|reflexivity]. exfalso.
      apply (N e ep). rewrite <- F. apply filter_In. split; [exact I|].
      unfold to_account. cbn [snd get_account]. destruct (str_dec (ep_account ep) name); [reflexivity|contradiction]. }
    constructor; [left; exact Ea|exact W].
  - rewrite G, sum_up_fold. reflexivity.
Qed.
Print Assumptions C23_right_partial.

Example C23_case :
  show_balance (loaded ["account a"; "account b"; "2024/02/03 * x"; " a 7"; " b -7";
                        "2024/02/01 * x"; " a 2"; " b"]%string)
  = Ok (text ["a                                       9"; "b                                      -7"; ""]%string)
  /\ show_balance (loaded ["account a"; "account b"; "2024/02/01 * x"; " a 7"; " b -7";
                           "2024/02/03 * x"; " a 2"; " b"]%string)
  = Ok (text ["a                                       9"; "b                                      -9"; ""]%string).
Proof. vm_compute. split; reflexivity. Qed.

(** ** C24 *)
Theorem C24_chunks : forall today inc t s,
  exists cs, cut_up t cs /\ (forall cs', cut_up t cs' -> cs' = cs)
  /\ add_from_str today inc t s = fold_res (parse_chunk today inc) cs s.
Proof.
  intros td inc t s. destruct (cut_up_total t) as (cs & C). exists cs. split; [exact C|].
  split; [|apply add_from_str_chunks, C]. intros cs' C'. exact (chunks_unique _ _ _ _ C' C).
Qed.
Print Assumptions C24_chunks.

Theorem C24_inserted_line : forall today inc t t' l1 l l2 s,
  lines t = l1 ++ l2 -> lines t' = l1 ++ l :: l2 -> Forall blank_char l \/ comment l ->
  add_from_str today inc t' s = add_from_str today inc t s.
Proof.
  intros td inc t t' l1 l l2 s E E' H. apply add_from_str_contents. rewrite E, E', !contents_app.
  f_equal. rewrite contents_cons. unfold contents at 1. cbn [map filter].
  destruct H as [H|H]; [rewrite (content_blank l H)|rewrite (content_comment l H)]; reflexivity.
Qed.
Print Assumptions C24_inserted_line.

Theorem C24_trailing_comment : forall today inc t t' l1 l c l2 s,
  lines t = l1 ++ l :: l2 -> lines t' = l1 ++ (l ++ c) :: l2 ->
  trim_end l = l -> comment c -> (exists r, c = lit ";" ++ r) \/ List.last l 0%N <> 47%N ->
  add_from_str today inc t' s = add_from_str today inc t s.
Proof.
  intros td inc t t' l1 l c l2 s E E' T C K. apply add_from_str_contents. rewrite E, E', !contents_app.
  f_equal. rewrite (contents_cons l), (contents_cons (l ++ c)). f_equal. unfold contents. cbn [map].
  rewrite (content_then_comment l c T C K). reflexivity.
Qed.
Print Assumptions C24_trailing_comment.

Example C24_case :
  cut_up (text ["account a  ; one"; ""; "  expense x"; "// two"; "account b"; "   "; " amount 1 "]%string)
    [[]; text ["account a  "; "  expense x"]%string; text ["account b"; " amount 1"]%string].
Proof.
  unfold cut_up. remember (contents _) as ls eqn:E. vm_compute in E. subst ls.
  repeat first [apply chunks_nil
               |apply chunks_new; [intros (c & r & E & H); injection E as <- <-; discriminate|]
               |apply chunks_more; [eexists; eexists; split; [reflexivity|reflexivity]|]; cbn [app]].
Qed.
Example C24_same :
  loaded (["// my journal"; ""]%string ++ three_days) = loaded three_days.
Proof. vm_compute. reflexivity. Qed.

(** ** C25 *)
Theorem C25_currency : forall today inc l w c, keyword c "currency" ->
  parse_chunk today inc (l, w) c =
  match value c with
  | Some v => Ok (mkLedger (l_path l) (l_entries l) (l_format l) (l_accounts l) v, w)
  | None => Err (EParse NoCurrency)
  end.
Proof.
  intros td inc l w c K. unfold keyword, value, parse_chunk in *. destruct (split_ws c); [discriminate|].
  cbn [hd_error tl] in *. injection K as ->. cbn. destruct (hd_error _); reflexivity.
Qed.
Print Assumptions C25_currency.

Theorem C25_date_format : forall today inc l w c, keyword c "date_format" ->
  parse_chunk today inc (l, w) c =
  match value c with
  | Some v => Ok (mkLedger (l_path l) (l_entries l) v (l_accounts l) (l_currency l), w)
  | None => Err (EParse NoDateFormat)
  end.
Proof.
  intros td inc l w c K. unfold keyword, value, parse_chunk in *. destruct (split_ws c); [discriminate|].
  cbn [hd_error tl] in *. injection K as ->. cbn. destruct (hd_error _); reflexivity.
Qed.
Print Assumptions C25_date_format.

Theorem C25_account : forall today inc l w c s, keyword c "account" ->
  (parse_chunk today inc (l, w) c = Ok s <->
   exists a, parse_account c 46%N (l_format l) = Ok a
   /\ snd s = w /\ l_path (fst s) = l_path l /\ l_entries (fst s) = l_entries l
   /\ l_format (fst s) = l_format l /\ l_currency (fst s) = l_currency l
   /\ l_accounts (fst s) = map_insert (a_name a) a (l_accounts l)).
Proof.
  intros td inc l w c s K. unfold keyword, parse_chunk in *. destruct (split_ws c); [discriminate|].
  cbn [hd_error] in *. injection K as ->. cbn [str_eqb lit]. 
  change (str_eqb (lit "account") (lit "account")) with true. cbv iota.
  unfold on_ledger, ledger_parse_account. cbn [fst snd]. split.
  - intro H. apply bind_Ok in H as (l' & H & E). apply bind_Ok in H as (a & H & E').
    injection E as <-. injection E' as <-. exists a. cbn. auto 10.
  - intros (a & H & Hw & Hp & He & Hf & Hc & Ha). change decimal_symbol with 46%N. rewrite H. cbn.
    destruct s as [[p es f m c'] w']. cbn in *. subst. reflexivity.
Qed.
Print Assumptions C25_account.

Theorem C25_account_map : forall l a k,
  map_get k (map_insert (a_name a) a (l_accounts l))
  = if str_dec (a_name a) k then Some a else map_get k (l_accounts l).
Proof. intros. apply map_get_insert. Qed.
Print Assumptions C25_account_map.

(** The default currency changes nothing but itself, whatever follows. *)
Theorem C25_currency_unused : forall fuel today t t' cs1 c cs2 s,
  cut_up t (cs1 ++ c :: cs2) -> cut_up t' (cs1 ++ cs2) -> keyword c "currency" -> value c <> None ->
  both (fun r r' => recoined (fst r) (fst r') /\ snd r = snd r')
    (add_from_str today (add_from_file fuel today) t' s)
    (add_from_str today (add_from_file fuel today) t s).
Proof. intros fuel td t t' cs1 c cs2 s. apply recoined_load. Qed.
Print Assumptions C25_currency_unused.

Theorem C25_currency_reports : forall today tty l l' b e m, recoined l l' ->
  show_balance l = show_balance l' /\ show_envelopes today l = show_envelopes today l'
  /\ show_register tty l b e m = show_register tty l' b e m
  /\ fill_postings today l = fill_postings today l'.
Proof.
  intros td tty l l' b e m (P & E & F & A).
  unfold show_balance, get_totals, show_envelopes, show_register, fill_postings.
  rewrite E, F, A. auto.
Qed.
Print Assumptions C25_currency_reports.

Example C25_case :
  let l := loaded ["account a"; "account b"; "2024/02/03 * x"; " a 7"; " b";
                   "date_format %d.%m.%Y"; "currency EUR"; "04.02.2024 * y"; " b 1"; " a"]%string in
  map e_desc (l_entries l) = map lit ["x"; "y"]%string /\ l_currency l = lit "EUR"
  /\ l_format l = lit "%d.%m.%Y" /\ real_text "a" l = Some (lit " 6")
  /\ loading ["date_format"]%string = Err (EParse NoDateFormat)
  /\ loading ["currency"]%string = Err (EParse NoCurrency)
  /\ loading ["account"]%string = Err (EParse (AccountBlank (lit "account")))
  /\ loading ["include"]%string = Err (EParse NoIncludeFile).
Proof. vm_compute. repeat split; reflexivity. Qed.

(** ** C26 *)
Theorem C26_refuted : exists ls,
  real_text "a" (loaded ls) = Some (lit " 7")
  /\ real_text "a" (loaded (ls ++ ["account a"]%string)) = Some []
  /\ real_text "b" (loaded (ls ++ ["account a"]%string)) = Some (lit "-7").
Proof.
  exists ["account a"; "account b"; "2024/02/03 * one"; " a 7"; " b"]%string.
  vm_compute. repeat split; reflexivity.
Qed.
Print Assumptions C26_refuted.

(** The second definition always starts the account anew. *)
Theorem C26_starts_anew_partial : forall l c l', ledger_parse_account l c = Ok l' ->
  exists a, parse_account c 46%N (l_format l) = Ok a /\ a_real a = []
  /\ map_get (a_name a) (l_accounts l') = Some a
  /\ (forall k, k <> a_name a -> map_get k (l_accounts l') = map_get k (l_accounts l))
  /\ l_entries l' = l_entries l.
Proof.
  intros l c l' H. unfold ledger_parse_account in H. apply bind_Ok in H as (a & H & E). injection E as <-.
  exists a. split; [exact H|]. split; [eapply fresh_real; eauto|]. cbn [l_accounts l_entries].
  split; [|split; [|reflexivity]].
  - rewrite map_get_insert. destruct (str_dec _ _); [reflexivity|contradiction].
  - intros k N. rewrite map_get_insert. destruct (str_dec _ _); [congruence|reflexivity].
Qed.
Print Assumptions C26_starts_anew_partial.

(** Repeating a definition right away, or before any entry, is harmless. *)
Theorem C26_untouched_partial : forall l c a,
  parse_account c 46%N (l_format l) = Ok a -> map_get (a_name a) (l_accounts l) = Some a ->
  ledger_parse_account l c = Ok l.
Proof.
  intros l c a H G. unfold ledger_parse_account. change decimal_symbol with 46%N. rewrite H. cbn [bind].
  f_equal. assert (map_insert (a_name a) a (l_accounts l) = l_accounts l) as ->; [|destruct l; reflexivity].
  revert G. induction (l_accounts l) as [|[k v] m IH]; cbn [map_get map_insert]; [discriminate|].
  destruct (str_eqb k (a_name a)); intro G; [injection G as ->; reflexivity|]. rewrite IH by exact G. reflexivity.
Qed.
Print Assumptions C26_untouched_partial.

Example C26_case :
  let ls := ["account a"; "account a"; "account b"; "2024/02/03 * one"; " a 7"; " b"]%string in
  real_text "a" (loaded ls) = Some (lit " 7").
Proof. vm_compute. reflexivity. Qed.

(** ** C27 *)
Theorem C27_append : forall today l w e w' r, append_entry today l w e = (w', r) ->
  let journal := resolve w (l_path l) in
  match files w journal with
  | None => w' = w /\ r = Err (EFile (l_path l))
  | Some old =>
      (valid_format (l_format l) ->
       files w' journal = Some (old ++ 10%N :: show_entry (l_format l) e)
       /\ (forall q, q <> journal -> files w' q = files w q)
       /\ (forall q, dirs w' q = dirs w q) /\ cwd w' = cwd w
       /\ r = add_entry today l e)
      /\ (~ valid_format (l_format l) -> w' = w /\ r = Panic)
  end.
Proof.
  intros td l w e w' r H journal. unfold append_entry in H.
  pose proof (append_file_spec w (l_path l) (10%N :: show_entry (l_format l) e)) as S.
  fold journal in S. destruct (files w journal) as [old|].
  - destruct S as (w1 & E & C & Dd & F & O). rewrite E in H. pose proof (printable_iff (l_format l)) as V.
    destruct (printable (l_format l)); injection H as <- <-; split; intro X.
    + auto.
    + exfalso. apply X, V. reflexivity.
    + apply V in X. discriminate.
    + auto.
  - rewrite S in H. injection H as <- <-. auto.
Qed.
Print Assumptions C27_append.

Example C27_case :
  let w := world_of [(j, text three_days); ([lit "k"], lit "x")] [[]] [] in
  let e := new_entry today Cleared (lit "end") None [] None in
  let w' := fst (append_entry today (loaded three_days) w e) in
  files w' j = Some (text three_days ++ nl ++ lit "2024/03/20 ~ end" ++ nl)
  /\ files w' [lit "k"] = Some (lit "x") /\ files w' [lit "l"] = None.
Proof. vm_compute. repeat split; reflexivity. Qed.

(** ** C28 *)
Theorem C28_read_back : forall today inc old s0 l w e,
  add_from_str today inc old s0 = Ok (l, w) ->
  journal_date (l_format l) (e_date e) ->
  writable_entry (account_names l) e ->
  add_from_str today inc (old ++ 10%N :: show_entry (l_format l) e) s0
  = let! l' := add_entry today l (reread e) in Ok (l', w).
Proof. intros td inc old s0 l w e H P W. exact (load_appended td inc old s0 (l, w) e H P W). Qed.
Print Assumptions C28_read_back.

Example C28_case :
  let e := new_entry today Cleared (lit "end") (Some (lit "shop"))
             [Classic (mkClassic (Some (mkAmount (fofZ 5) (Some (lit "$")))) (lit "a") None None);
              Classic (mkClassic None (lit "b") None None)] (Some (lit "note")) in
  let l := loaded three_days in
  match loading (three_days ++ ["2024/03/20 ~ end [shop] // note"; "    a   $5"; "    b"]%string),
        add_entry today l (reread e) with
  | Ok s, Ok l' => fst s = l'
  | _, _ => False
  end
  /\ show_entry (l_format l) e
     = text ["2024/03/20 ~ end [shop] // note"; "    a                                                  $ 5";
             "    b                                                  "; ""]%string.
Proof. vm_compute. split; reflexivity. Qed.

(** ** C29 *)
(** A journal given by a relative path with a directory is not found again; if
    the same path exists once more below that directory, that file is changed. *)
Definition nested : world :=
  world_of [([lit "d"; lit "j"], []); ([lit "d"; lit "d"; lit "j"], lit "; other")]
           [[]; [lit "d"]; [lit "d"; lit "d"]] [].
Definition an_entry : entry := new_entry today Cleared (lit "x") None [] None.
Theorem C29_refuted : exists w p l w', proper w /\ from_file 3 today p w = Ok (l, w')
  /\ let w'' := fst (append_entry today l w' an_entry) in
     files w'' (resolve w p) = files w (resolve w p)
     /\ files w'' [lit "d"; lit "d"; lit "j"] <> files w [lit "d"; lit "d"; lit "j"].
Proof.
  exists nested, (lit "d/j"), (new_ledger (lit "d/j")),
    (mkWorld (files nested) (dirs nested) [lit "d"]).
  split; [apply world_of_proper; vm_compute; reflexivity|]. split; [reflexivity|].
  split; [vm_compute; reflexivity|]. vm_compute. discriminate.
Qed.
Print Assumptions C29_refuted.

(** An absolute path is safe, whatever is included. *)
Theorem C29_absolute_partial : forall fuel today p w l w',
  from_file fuel today p w = Ok (l, w') -> is_absolute p = true ->
  resolve w' (l_path l) = resolve w p.
Proof.
  intros fuel td p w l w' H A. unfold from_file in H.
  pose proof (load_path _ _ _ _ _ H) as E. cbn in E. rewrite E, !resolve_located.
  apply located_absolute, A.
Qed.
Print Assumptions C29_absolute_partial.

(** So is a path to a file in the current directory, if all included files are
    in that directory too. *)
Theorem C29_beside_partial : forall fuel today p w l w',
  proper w -> (forall q t f, files w q = Some t -> includes t f ->
    file_path f /\ removelast (located (removelast q) f) = removelast q) ->
  file_path p -> removelast (resolve w p) = cwd w ->
  from_file fuel today p w = Ok (l, w') -> resolve w' (l_path l) = resolve w p.
Proof.
  intros fuel td p w l w' P I F C H. unfold from_file in H.
  pose proof (load_path _ _ _ _ _ H) as E. cbn in E. rewrite E, !resolve_located.
  destruct (beside_agree td w P (fun q t f A B => proj1 (I q t f A B))
              (fun q t f A B => proj2 (I q t f A B)) fuel p (new_ledger p) w F) as (_ & B).
  - split; [apply same_disk_refl|apply P].
  - destruct (B _ H) as (_ & Cw). cbn [snd] in Cw. rewrite Cw, <- resolve_located, C. reflexivity.
Qed.
Print Assumptions C29_beside_partial.

Example C29_case :
  match from_file 3 today (lit "j") (world_of [(j, lit "include k"); ([lit "k"], lit "account a")] [[]] []) with
  | Ok (l, w') => resolve w' (l_path l) = j
  | _ => False
  end.
Proof. vm_compute. reflexivity. Qed.

(** ** C30 *)
Definition two_includes : world :=
  world_of [(j, text ["include sub/a"; "include b"]%string); ([lit "sub"; lit "a"], lit "account x");
            ([lit "b"], lit "account right"); ([lit "sub"; lit "b"], lit "account wrong")]
           [[]; [lit "sub"]] [].
(** After the first include the second one is looked up in its directory. *)
Theorem C30_refuted : exists w p, proper w /\
  match from_file 3 today p w, load 3 today w (cwd w) p (new_ledger p) with
  | Ok (l, _), Ok l' => account_names l = map lit ["x"; "wrong"]%string
                        /\ account_names l' = map lit ["x"; "right"]%string
  | _, _ => False
  end.
Proof.
  exists two_includes, (lit "j"). split; [apply world_of_proper; vm_compute; reflexivity|].
  vm_compute. split; reflexivity.
Qed.
Print Assumptions C30_refuted.

Theorem C30_absolute_partial : forall fuel today p w, proper w -> file_path p ->
  (forall q t f, files w q = Some t -> includes t f -> file_path f /\ is_absolute f = true) ->
  (let! s := from_file fuel today p w in Ok (fst s)) = load fuel today w (cwd w) p (new_ledger p).
Proof.
  intros fuel td p w P F I.
  apply (absolute_agree td w P (fun q t f A B => proj1 (I q t f A B))
           (fun q t f A B => proj2 (I q t f A B)) fuel p (new_ledger p) w F).
  split; [apply same_disk_refl|apply P].
Qed.
Print Assumptions C30_absolute_partial.

Theorem C30_beside_partial : forall fuel today p w, proper w -> file_path p ->
  (forall q t f, files w q = Some t -> includes t f ->
    file_path f /\ removelast (located (removelast q) f) = removelast q) ->
  (let! s := from_file fuel today p w in Ok (fst s)) = load fuel today w (cwd w) p (new_ledger p).
Proof.
  intros fuel td p w P F I.
  apply (beside_agree td w P (fun q t f A B => proj1 (I q t f A B))
           (fun q t f A B => proj2 (I q t f A B)) fuel p (new_ledger p) w F).
  split; [apply same_disk_refl|apply P].
Qed.
Print Assumptions C30_beside_partial.

Example C30_case :
  let w := world_of [([lit "d"; lit "j"], text ["include a"; "include b"]%string);
                     ([lit "d"; lit "a"], lit "account x"); ([lit "d"; lit "b"], lit "account y")]
                    [[]; [lit "d"]] [] in
  match from_file 3 today (lit "d/j") w with
  | Ok (l, _) => account_names l = map lit ["x"; "y"]%string
  | _ => False
  end.
Proof. vm_compute. reflexivity. Qed.

(** ** C31 *)
Definition self_including : world := world_of [(j, lit "include j")] [[]] [].
Theorem C31_refuted : exists w p, proper w /\ forall fuel today, from_file fuel today p w = Loop.
Proof.
  exists self_including, (lit "j"). split; [apply world_of_proper; vm_compute; reflexivity|].
  intros fuel td. unfold from_file. generalize (new_ledger (lit "j")) as l.
  induction fuel as [|k IH]; intro l; [reflexivity|].
  transitivity (add_from_file k td (lit "j") (l, self_including)); [reflexivity|apply IH].
Qed.
Print Assumptions C31_refuted.

(** A journal in an include cycle is never loaded. *)
Theorem C31_never_loaded_partial : forall today w (cycle : str -> Prop),
  (forall p, cycle p -> is_absolute p = true
     /\ exists text q, files w (resolve w p) = Some text /\ includes text q /\ cycle q) ->
  forall fuel p l w', cycle p -> from_file fuel today p w <> Ok (l, w').
Proof.
  intros td w C H fuel p l w' Cp. apply (cycle_never td w C) with (1 := fun p c =>
    match H p c with conj A B => conj A (eq_rect _ (fun x => exists text q, files w x = Some text /\ includes text q /\ C q) B _ (located_absolute (cwd w) [] p A)) end).
  - exact Cp.
  - apply same_disk_refl.
Qed.
Print Assumptions C31_never_loaded_partial.

(** More fuel does not change an outcome; so [Loop] for all fuel is what
    the code does without bound. *)
Theorem C31_fuel : forall today k n p s, (k <= n)%nat -> add_from_file k today p s <> Loop ->
  add_from_file n today p s = add_from_file k today p s.
Proof. exact add_from_file_mono. Qed.
Print Assumptions C31_fuel.

Example C31_case :
  let w := world_of [([lit "a"], lit "include /b"); ([lit "b"], lit "include /a")] [[]] [] in
  from_file 50 today (lit "/a") w = Loop /\ loading ["include /k"]%string = Err (EFile (lit "/k")).
Proof. vm_compute. split; reflexivity. Qed.
