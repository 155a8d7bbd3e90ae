(** src/posting.rs *)
From Coq Require Import ZArith NArith List Bool String.
From Verif Require Import Base Str F64 Amount.
Import ListNotations.

(** src/posting.rs 410-414 *)
Inductive cost : Set := TotalCost (a : amount) | UnitCost (a : amount).

(** src/posting.rs 5-11 *)
Record classic : Set := mkClassic {
  c_amount : option amount;
  c_account : str;
  c_cost : option cost;
  c_balance : option amount }.

(** src/posting.rs 13-18 *)
Record envposting : Set := mkEnvPosting {
  ep_account : str;
  ep_envelope : str;
  ep_amount : amount }.

(** src/posting.rs 92-96 *)
Inductive posting : Set := Classic (c : classic) | EnvPosting (e : envposting).

(** Membership in a [HashSet<&String>]. *)
Definition mem (s : str) (l : list str) : bool := existsb (str_eqb s) l.

(** [iter.position(p)] *)
Fixpoint position {A} (p : A -> bool) (l : list A) : option nat :=
  match l with
  | [] => None
  | a :: l' => if p a then Some 0 else option_map S (position p l')
  end.

(** src/posting.rs 425-451 *)
Definition extract_amount (toks : list str) (dsym : char) (op : str) (stop : str -> bool)
  : res (option amount) :=
  match position (str_eqb op) toks with
  | None => Ok None
  | Some i =>
      let useful := skipn (S i) toks in
      let useful := match position stop useful with
                    | Some j => firstn j useful
                    | None => useful
                    end in
      let! a := parse_amount (join (lit " ") useful) dsym in Ok (Some a)
  end.

Definition op_bal := lit "!".
Definition op_bal2 := lit "!!".
Definition op_unit := lit "@".
Definition op_total := lit "=".

(** src/posting.rs 247-272 *)
Definition parse_posting_amount (toks : list str) (dsym : char) : res (option amount) :=
  let is_op s := str_eqb s op_unit || str_eqb s op_bal || str_eqb s op_total || str_eqb s op_bal2 in
  let raw := match position is_op toks with
             | Some i => join (lit " ") (firstn i toks)
             | None => join (lit " ") toks
             end in
  match trim raw with
  | [] => Ok None
  | _ => let! a := parse_amount raw dsym in Ok (Some a)
  end.

(** src/posting.rs 298-305 *)
Definition parse_balance_assertion (toks : list str) (dsym : char) : res (option amount) :=
  extract_amount toks dsym op_bal
    (fun s => str_eqb s op_bal2 || str_eqb s op_unit || str_eqb s op_total).

(** src/posting.rs 307-318 *)
Definition parse_price (toks : list str) (dsym : char) : res (option cost) :=
  let! o := extract_amount toks dsym op_unit
    (fun s => str_eqb s op_bal || str_eqb s op_bal2 || str_eqb s op_total) in
  Ok (option_map UnitCost o).

(** src/posting.rs 320-331 *)
Definition parse_total_cost (toks : list str) (dsym : char) : res (option cost) :=
  let! o := extract_amount toks dsym op_total
    (fun s => str_eqb s op_bal || str_eqb s op_bal2 || str_eqb s op_unit) in
  Ok (option_map TotalCost o).

(** src/posting.rs 222-245 with 274-296 (parse_assertion_amounts) and 333-343
    (validate) inlined in the order in which they run.  [tokens[0]] on an empty
    list is the panic. *)
Definition parse_classic (line : str) (dsym : char) (accounts : list str) : res classic :=
  match split_ws (trim (remove_comments line)) with
  | [] => Panic
  | name :: toks =>
      let! amt := parse_posting_amount toks dsym in
      let! bal := parse_balance_assertion toks dsym in
      let! price := parse_price toks dsym in
      let! cst := match price with
                  | Some p => Ok (Some p)
                  | None => parse_total_cost toks dsym
                  end in
      if mem name accounts then Ok (mkClassic amt name cst bal)
      else Err (EValidation (UndefinedAccount name))
  end.

(** src/posting.rs 29-64 *)
Definition parse_envposting (line : str) (dsym : char) : res envposting :=
  match skipn 1 (split_ws line) with
  | [] => Err (EParse (NoAccountName line))
  | [_] => Err (EParse (NoEnvelopeName line))
  | acc :: env :: toks =>
      let! a := parse_amount (List.concat toks) dsym in
      Ok (mkEnvPosting acc env a)
  end.

(** src/posting.rs 111-139 *)
Definition parse_posting (line : str) (dsym : char) (accounts : list str) : res posting :=
  let line := trim (remove_comments line) in
  match split_ws line with
  | [] => Err (EParse PostingBlank)
  | t :: _ =>
      if str_eqb t (lit "envelope") then
        let! e := parse_envposting line dsym in Ok (EnvPosting e)
      else
        let! c := parse_classic line dsym accounts in Ok (Classic c)
  end.

(** src/posting.rs 143-149, 151-157, 180-186 *)
Definition get_amount (p : posting) : option amount :=
  match p with EnvPosting e => Some (ep_amount e) | Classic c => c_amount c end.
Definition get_account (p : posting) : str :=
  match p with Classic c => c_account c | EnvPosting e => ep_account e end.
Definition is_envelope (p : posting) : bool :=
  match p with EnvPosting _ => true | Classic _ => false end.

(** src/posting.rs 345-380 *)
Definition classic_native (c : classic) : option f64 :=
  match c_amount c with
  | None => None
  | Some a =>
      match symbol a with
      | None => Some (mag a)
      | Some _ =>
          match c_cost c with
          | Some (TotalCost b) =>
              match symbol b with None => Some (mag b) | Some _ => None end
          | Some (UnitCost b) =>
              match symbol b with None => Some (fmul (mag a) (mag b)) | Some _ => None end
          | None => None
          end
      end
  end.

(** src/posting.rs 159-164 *)
Definition native_value (p : posting) : option f64 :=
  match p with EnvPosting _ => None | Classic c => classic_native c end.

(** src/posting.rs 416-423 *)
Definition show_cost (c : cost) : str :=
  match c with
  | TotalCost a => lit " = " ++ show_amount a
  | UnitCost a => lit " @ " ++ show_amount a
  end.

(** src/posting.rs 383-401 *)
Definition show_classic (c : classic) : str :=
  let postlude :=
    (match c_amount c with Some a => show_amount a | None => [] end)
    ++ (match c_cost c with Some k => chr " " :: show_cost k | None => [] end)
    ++ (match c_balance c with Some b => lit " ! " ++ show_amount b | None => [] end) in
  pad_right 50 (c_account c) ++ chr " " :: postlude.

(** src/posting.rs 403-408 *)
Definition show_envposting (e : envposting) : str :=
  let prelude := lit "envelope " ++ ep_account e ++ chr " " :: ep_envelope e in
  pad_right 50 prelude ++ chr " " :: show_amount (ep_amount e).

(** src/posting.rs 174-178, 189-196 *)
Definition show_posting (p : posting) : str :=
  match p with Classic c => show_classic c | EnvPosting e => show_envposting e end.
