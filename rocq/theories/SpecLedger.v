(** Specifications for ledgers: histories, journal texts, includes. *)
From Coq Require Import ZArith NArith List Bool String Permutation.
From Verif Require Import Base Str F64 Date World Amount Posting Entry Envelope Account Register Ledger
  SpecAmount SpecDate SpecEntry SpecEnvelope.
Import ListNotations.
Local Open Scope Z_scope.

(** ** Histories *)

(** Ledgers that can come about, with the entries in the order in which they
    were added. *)
Inductive built (today : date) : ledger -> list entry -> Prop :=
  | built_new p : built today (new_ledger p) []
  | built_entry l es e l' : built today l es -> add_entry today l e = Ok l' ->
      built today l' (es ++ [e])
  | built_account l es chunk l' : built today l es -> ledger_parse_account l chunk = Ok l' ->
      built today l' es
  | built_currency l es v l' : built today l es -> set_currency l v = Ok l' -> built today l' es
  | built_format l es v l' : built today l es -> set_date_format l v = Ok l' -> built today l' es.

(** The entries of a list with the given date, in order. *)
Definition date_dec (x y : date) : {x = y} + {x <> y}.
Proof.
  destruct (Z.eq_dec (year x) (year y)) as [Y|Y]; [|right; congruence].
  destruct (Z.eq_dec (month x) (month y)) as [M|M]; [|right; congruence].
  destruct (Z.eq_dec (day x) (day y)) as [D|D]; [|right; congruence].
  left. destruct x, y; cbn in *; subst. f_equal. apply (Eqdep_dec.UIP_dec bool_dec).
Defined.
Definition on (d : date) (es : list entry) : list entry :=
  filter (fun e => if date_dec (e_date e) d then true else false) es.

(** All postings, each with its entry. *)
Definition postings (es : list entry) : list (entry * posting) :=
  flat_map (fun e => map (pair e) (e_postings e)) es.
(** The postings to an account. *)
Definition to_account (name : str) (x : entry * posting) : bool :=
  if str_dec (get_account (snd x)) name then true else false.
Definition to_classic (name : str) (x : entry * posting) : bool :=
  match snd x with
  | Classic c => if str_dec (c_account c) name then true else false
  | EnvPosting _ => false
  end.
(** [xs] are the amounts of the postings [ps], inferred where blank. *)
Definition worths (ps : list (entry * posting)) (xs : list amount) : Prop :=
  Forall2 (fun x a => worth (fst x) (snd x) a) ps xs.
Definition sum_up (xs : list amount) : pool := run_ops (map PAdd xs).

(** ** Hash maps *)

(** The same ledger with its accounts visited in another order. *)
Definition reordered (l l' : ledger) : Prop :=
  l_path l' = l_path l /\ l_entries l' = l_entries l /\ l_format l' = l_format l
  /\ l_currency l' = l_currency l /\ Permutation (l_accounts l) (l_accounts l').
(** The same but for the default currency. *)
Definition recoined (l l' : ledger) : Prop :=
  l_path l' = l_path l /\ l_entries l' = l_entries l /\ l_format l' = l_format l
  /\ l_accounts l' = l_accounts l.
(** Both succeed, with related results, or both fail. *)
Definition both {A B} (R : A -> B -> Prop) (r : res A) (r' : res B) : Prop :=
  match r, r' with
  | Ok a, Ok b => R a b
  | Ok _, _ => False
  | _, Ok _ => False
  | _, _ => True
  end.

(** ** Journal texts *)

(** What counts of a line: no comment, no white space at the end of the line. *)
Definition content (line : str) : str := remove_comments (trim_end line).
(** The lines that count. *)
Definition contents (ls : list str) : list str :=
  filter (fun l => match l with [] => false | _ => true end) (map content ls).
Definition indented (line : str) : Prop := exists c r, line = c :: r /\ is_ws c = true.
(** The chunks: a leading one, and one from each line that is not indented. *)
Inductive chunks : str -> list str -> list str -> Prop :=
  | chunks_nil cur : chunks cur [] [cur]
  | chunks_new cur l ls cs : ~ indented l -> chunks l ls cs -> chunks cur (l :: ls) (cur :: cs)
  | chunks_more cur l ls cs : indented l -> chunks (cur ++ 10%N :: l) ls cs ->
      chunks cur (l :: ls) cs.
Definition cut_up (text : str) (cs : list str) : Prop := chunks [] (contents (lines text)) cs.
(** The first word of a chunk, and the second. *)
Definition keyword (chunk : str) (k : string) : Prop := hd_error (split_ws chunk) = Some (lit k).
Definition value (chunk : str) : option str := hd_error (tl (split_ws chunk)).

(** A comment mark. *)
Definition comment (s : str) : Prop := exists r, s = lit ";" ++ r \/ s = lit "//" ++ r.

(** ** Includes *)

(** The file paths included by a text. *)
Definition includes (text f : str) : Prop :=
  exists cs c, cut_up text cs /\ In c cs /\ keyword c "include" /\ value c = Some f.

(** Loading as it should be: there is no current directory, each path is taken
    from the directory of the file it stands in. *)
Definition located (dir : path) (p : str) : path :=
  resolve_aux (if is_absolute p then [] else dir) (components p).
Fixpoint load (fuel : nat) (today : date) (w : world) (dir : path) (p : str) (l : ledger)
  : res ledger :=
  match fuel with
  | O => Loop
  | S k =>
      match files w (located dir p) with
      | None => Err (EFile p)
      | Some text =>
          let! s := add_from_str today
                      (fun f s => let! l' := load k today w (removelast (located dir p)) f (fst s) in
                                  Ok (l', snd s))
                      text (l, w) in
          Ok (fst s)
      end
  end.

(** ** Entries as read back *)
Definition reread (e : entry) : entry :=
  mkEntry (e_date e) (e_status e) (e_desc e) (e_payee e) None (map to8_posting (e_postings e)).

(** A file system as it should be: the root and the current directory are
    directories, no directory is a file, and each file is in a directory. *)
Definition proper (w : world) : Prop :=
  dirs w [] = true /\ dirs w (cwd w) = true
  /\ (forall p, dirs w p = true -> files w p = None)
  /\ (forall p t, files w p = Some t -> dirs w (removelast p) = true).
(** A path that does not end in [..]. *)
Definition file_path (p : str) : Prop := List.last (components p) [] <> lit "..".
(** Only the current directory may differ. *)
Definition same_disk (w w' : world) : Prop :=
  (forall p, files w' p = files w p) /\ (forall p, dirs w' p = dirs w p).
