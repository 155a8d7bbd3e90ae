(** src/account.rs *)
From Coq Require Import ZArith NArith List Bool String.
From Verif Require Import Base Str F64 Date Amount Posting Entry Envelope.
Import ListNotations.

(** src/account.rs 9-17 *)
Record account : Set := mkAccount {
  a_name : str;
  a_expenses : list envelope;
  a_goals : list envelope;
  a_real : pool }.

(** [expense_envelopes.iter().chain(goal_envelopes.iter())] *)
Definition all_envelopes (a : account) : list envelope := a_expenses a ++ a_goals a.

(** src/account.rs 87-105 *)
Definition account_header (line : str) : res str :=
  match split_ws (remove_comments line) with
  | [_; name] => Ok name
  | [] | [_] => Err (EParse (AccountBlank (remove_comments line)))
  | _ => Err (EParse (AccountSpaces (remove_comments line)))
  end.

(** src/account.rs 111-133 *)
Definition add_envelope (a : account) (v : envelope) : res account :=
  match v_type v with
  | Expense =>
      if existsb (fun w => str_eqb (v_name w) (v_name v)) (a_expenses a)
      then Err (EValidation (DuplicateEnvelope (v_name v) (a_name a)))
      else Ok (mkAccount (a_name a) (a_expenses a ++ [v]) (a_goals a) (a_real a))
  | Goal =>
      if existsb (fun w => str_eqb (v_name w) (v_name v)) (a_goals a)
      then Err (EValidation (DuplicateEnvelope (v_name v) (a_name a)))
      else Ok (mkAccount (a_name a) (a_expenses a) (a_goals a ++ [v]) (a_real a))
  end.

(** src/account.rs 51-62, 72-79: parse and add the pending envelope text. *)
Definition flush_envelope (dsym : char) (fmt : str) (a : account) (chunk : str) : res account :=
  match trim chunk with
  | [] => Ok a
  | _ => let! v := parse_envelope chunk (a_name a) dsym fmt in add_envelope a v
  end.

(** src/account.rs 46-69: one line; the state is the account and the pending
    envelope text. *)
Definition account_line (dsym : char) (fmt : str) (st : account * str) (line : str)
  : res (account * str) :=
  let (a, chunk) := st in
  let t := trim line in
  if starts_with (lit "expense") t || starts_with (lit "goal") t then
    let! a' := flush_envelope dsym fmt a chunk in Ok (a', line)
  else Ok (a, chunk ++ 10%N :: line).

(** src/account.rs 20-84 *)
Definition parse_account (chunk : str) (dsym : char) (fmt : str) : res account :=
  match lines chunk with
  | [] => Err (EParse (AccountNoHeader chunk))
  | header :: body =>
      let! name := account_header header in
      let! (a, rest) := fold_res (account_line dsym fmt) body (mkAccount name [] [] [], []) in
      flush_envelope dsym fmt a rest
  end.

(** src/account.rs 146-161: classic postings change the real value. *)
Definition real_step (name : str) (e : entry) (p : pool) (x : posting) : res pool :=
  if str_eqb (get_account x) name && negb (is_envelope x) then
    match get_amount x with
    | Some a => Ok (pool_add p a)
    | None =>
        let! o := get_blank_amount e in
        Ok (match o with Some a => pool_add p a | None => p end)
    end
  else Ok p.

(** src/account.rs 137-164 *)
Definition acc_process (today : date) (a : account) (e : entry) : res account :=
  let! ex := map_res (fun v => env_process today v e) (a_expenses a) in
  let! go := map_res (fun v => env_process today v e) (a_goals a) in
  let! r := fold_res (real_step (a_name a) e) (e_postings e) (a_real a) in
  Ok (mkAccount (a_name a) ex go r).

(** src/account.rs 226-237 *)
Definition available_value (a : account) : pool :=
  fold_left (fun p v => pool_minus (pool_minus p (v_next v)) (v_now v))
    (all_envelopes a) (a_real a).

(** src/account.rs 204-224: the envelopes are visited in reverse order. *)
Definition filling_step (today : date) (st : pool * list posting) (v : envelope)
  : res (pool * list posting) :=
  let (av, ps) := st in
  let! ep := filling_posting today v av in
  Ok (pool_sub av (ep_amount ep), ps ++ [EnvPosting ep]).
Definition filling_postings (today : date) (a : account) : res (list posting) :=
  let! (_, ps) := fold_res (filling_step today) (rev (all_envelopes a)) (available_value a, []) in
  Ok ps.

(** src/account.rs 166-202: the printed text. *)
Definition show_account (today : date) (a : account) : res str :=
  match all_envelopes a with
  | [] => Ok []
  | _ =>
      let nl := [10%N] in
      let av := List.concat
        (map (fun x => if feqb (mag x) fzero then [] else lit "    " ++ show_amount x ++ nl)
             (available_value a)) in
      let section (title : str) (vs : list envelope) : res str :=
        match vs with
        | [] => Ok []
        | _ => let! ts := map_res (show_envelope today) vs in
               Ok (title ++ nl ++ List.concat (map (fun t => t ++ nl) ts))
        end in
      let! ex := section (lit "  expenses") (a_expenses a) in
      let! go := section (lit "  goals") (a_goals a) in
      Ok (a_name a ++ nl ++ lit "  available" ++ nl ++ av ++ ex ++ go ++ nl)
  end.
