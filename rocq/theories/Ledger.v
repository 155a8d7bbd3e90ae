(** src/ledger/mod.rs *)
From Coq Require Import ZArith NArith List Bool String.
From Verif Require Import Base Str F64 Date World Amount Posting Entry Envelope Account Register.
Import ListNotations.

(** src/ledger/mod.rs 19-26.  [accounts] is a hash map: an association list
    without repeated keys, in an arbitrary order.  [decimal_symbol] is always
    ['.'] (line 37 is the only assignment). *)
Record ledger : Set := mkLedger {
  l_path : str;
  l_entries : list entry;
  l_format : str;
  l_accounts : list (str * account);
  l_currency : str }.

Definition decimal_symbol : char := chr ".".

(** src/ledger/mod.rs 30-39 *)
Definition new_ledger (path : str) : ledger := mkLedger path [] default_format [] [].

Definition account_names (l : ledger) : list str := map fst (l_accounts l).

(** [HashMap::insert] *)
Fixpoint map_insert {A} (k : str) (v : A) (m : list (str * A)) : list (str * A) :=
  match m with
  | [] => [(k, v)]
  | (k', v') :: m' => if str_eqb k' k then (k', v) :: m' else (k', v') :: map_insert k v m'
  end.
(** [HashMap::get] *)
Fixpoint map_get {A} (k : str) (m : list (str * A)) : option A :=
  match m with
  | [] => None
  | (k', v) :: m' => if str_eqb k' k then Some v else map_get k m'
  end.

(** [Vec::sort_by] with the entries' dates: a stable sort. *)
Fixpoint insert_entry (x : entry) (l : list entry) : list entry :=
  match l with
  | [] => [x]
  | y :: l' => if date_leb (e_date x) (e_date y) then x :: l else y :: insert_entry x l'
  end.
Definition sort_entries (l : list entry) : list entry := fold_right insert_entry [] l.

(** src/ledger/mod.rs 173-182 *)
Definition add_entry (today : date) (l : ledger) (e : entry) : res ledger :=
  let! accs := map_res (fun ka => let! a := acc_process today (snd ka) e in Ok (fst ka, a))
                 (l_accounts l) in
  Ok (mkLedger (l_path l) (sort_entries (l_entries l ++ [e])) (l_format l) accs (l_currency l)).

(** src/ledger/mod.rs 158-168 *)
Definition ledger_parse_entry (today : date) (l : ledger) (chunk : str) : res ledger :=
  let! e := parse_entry chunk (l_format l) decimal_symbol (account_names l) in
  add_entry today l e.

(** src/ledger/mod.rs 199-204 *)
Definition ledger_parse_account (l : ledger) (chunk : str) : res ledger :=
  let! a := parse_account chunk decimal_symbol (l_format l) in
  Ok (mkLedger (l_path l) (l_entries l) (l_format l) (map_insert (a_name a) a (l_accounts l))
        (l_currency l)).

(** src/ledger/mod.rs 121-131 *)
Definition set_currency (l : ledger) (v : option str) : res ledger :=
  match v with
  | Some c => Ok (mkLedger (l_path l) (l_entries l) (l_format l) (l_accounts l) c)
  | None => Err (EParse NoCurrency)
  end.
(** src/ledger/mod.rs 133-145 *)
Definition set_date_format (l : ledger) (v : option str) : res ledger :=
  match v with
  | Some f => Ok (mkLedger (l_path l) (l_entries l) f (l_accounts l) (l_currency l))
  | None => Err (EParse NoDateFormat)
  end.

Definition lw := (ledger * world)%type.
Definition on_ledger (s : lw) (r : res ledger) : res lw := let! l := r in Ok (l, snd s).

(** src/ledger/mod.rs 102-118 and 147-156; [inc] is [add_from_file]. *)
Definition parse_chunk (today : date) (inc : str -> lw -> res lw) (s : lw) (chunk : str)
  : res lw :=
  match split_ws chunk with
  | [] => Ok s
  | keyword :: rest =>
      let value := List.hd_error rest in
      let l := fst s in
      if str_eqb keyword (lit "account") then on_ledger s (ledger_parse_account l chunk)
      else if str_eqb keyword (lit "currency") then on_ledger s (set_currency l value)
      else if str_eqb keyword (lit "date_format") then on_ledger s (set_date_format l value)
      else if str_eqb keyword (lit "include") then
        match value with
        | Some f => inc f s
        | None => Err (EParse NoIncludeFile)
        end
      else on_ledger s (ledger_parse_entry today l chunk)
  end.

(** src/ledger/mod.rs 73-87: one line; the state is the pending chunk and the
    ledger. *)
Definition line_step (today : date) (inc : str -> lw -> res lw) (st : str * lw) (line : str)
  : res (str * lw) :=
  let (chunk, s) := st in
  let line := remove_comments (trim_end line) in
  match line with
  | [] => Ok st
  | c :: _ =>
      if is_ws c then Ok (chunk ++ 10%N :: line, s)
      else let! s' := parse_chunk today inc s chunk in Ok (line, s')
  end.

(** src/ledger/mod.rs 67-95 *)
Definition add_from_str (today : date) (inc : str -> lw -> res lw) (text : str) (s : lw)
  : res lw :=
  let! (chunk, s') := fold_res (line_step today inc) (lines text) ([], s) in
  parse_chunk today inc s' chunk.

(** src/ledger/mod.rs 54-64.  The include recursion of the code is not bounded;
    [fuel] bounds it here and running out is [Loop]. *)
Fixpoint add_from_file (fuel : nat) (today : date) (p : str) (s : lw) : res lw :=
  match fuel with
  | O => Loop
  | S f =>
      let! text := read_file (snd s) p in
      let! w := chdir_parent (snd s) p in
      add_from_str today (add_from_file f today) text (fst s, w)
  end.

(** src/ledger/mod.rs 42-51 *)
Definition from_file (fuel : nat) (today : date) (p : str) (w : world) : res lw :=
  add_from_file fuel today p (new_ledger p, w).

(** src/ledger/mod.rs 186-197.  The file is opened, then the text of the entry
    is made (which panics if the date cannot be printed) and written, then the
    entry is processed; so the world is returned in any case. *)
Definition append_entry (today : date) (l : ledger) (w : world) (e : entry)
  : world * res ledger :=
  match append_file w (l_path l) (10%N :: show_entry (l_format l) e) with
  | Ok w' => if printable (l_format l) then (w', add_entry today l e) else (w, Panic)
  | Err x => (w, Err x)
  | Panic => (w, Panic)
  | Loop => (w, Loop)
  end.

(** src/ledger/mod.rs 225-254: one posting. *)
Definition totals_step (e : entry) (m : list (str * pool)) (p : posting)
  : res (list (str * pool)) :=
  let k := get_account p in
  match map_get k m with
  | Some pl =>
      match get_amount p with
      | Some a => Ok (map_insert k (pool_add pl a) m)
      | None =>
          let! o := get_blank_amount e in
          Ok (match o with Some b => map_insert k (pool_add pl b) m | None => m end)
      end
  | None =>
      Ok (map_insert k [match get_amount p with Some a => a | None => amount_zero end] m)
  end.
(** src/ledger/mod.rs 220-257 *)
Definition get_totals (l : ledger) : res (list (str * pool)) :=
  fold_res (fun m e => fold_res (totals_step e) (e_postings e) m) (l_entries l) [].

(** Sorting by key ([sort_by(|a, b| a.0.cmp(b.0))], [account_keys.sort()]). *)
Fixpoint insert_key {A} (x : str * A) (l : list (str * A)) : list (str * A) :=
  match l with
  | [] => [x]
  | y :: l' => match str_compare (fst x) (fst y) with
               | Gt => y :: insert_key x l'
               | _ => x :: l
               end
  end.
Definition sort_keys {A} (l : list (str * A)) : list (str * A) := fold_right insert_key [] l.

(** src/ledger/mod.rs 206-217 *)
Definition show_balance (l : ledger) : res str :=
  let! m := get_totals l in
  Ok (List.concat
        (map (fun kp => pad_right 35 (fst kp) ++ lit "    " ++ show_pool (snd kp) ++ [10%N])
             (sort_keys m))).

(** src/ledger/mod.rs 259-266 *)
Definition show_envelopes (today : date) (l : ledger) : res str :=
  let! ts := map_res (fun ka => show_account today (snd ka)) (sort_keys (l_accounts l)) in
  Ok (List.concat ts).

(** src/ledger/mod.rs 269-281 *)
Definition keep_posting (p : posting) : bool :=
  match get_amount p with Some a => negb (feqb (mag a) fzero) | None => false end.
Definition fill_postings (today : date) (l : ledger) : res (list posting) :=
  let! pss := map_res (fun ka => filling_postings today (snd ka)) (l_accounts l) in
  Ok (filter keep_posting (List.concat pss)).

(** src/ledger/mod.rs 288-295 *)
Definition fill_entry (today : date) (ps : list posting) : entry :=
  new_entry today Cleared (lit "move to envelopes") None ps
    (Some (lit "automatically generated by silverfox")).

(** src/ledger/mod.rs 268-298 *)
Definition fill_envelopes (today : date) (l : ledger) (w : world) : world * res ledger :=
  match fill_postings today l with
  | Ok [] => (w, Ok l)
  | Ok ps => append_entry today l w (fill_entry today ps)
  | Err x => (w, Err x)
  | Panic => (w, Panic)
  | Loop => (w, Loop)
  end.

(** src/ledger/mod.rs 328-342: an error of the register is unwrapped. *)
Definition show_register (tty : bool) (l : ledger) (b e : option date) (m : option str)
  : res str :=
  match register_display tty (l_entries l) (l_format l) b e m with
  | Err _ => Panic
  | r => r
  end.
