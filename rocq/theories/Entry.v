(** src/entry.rs *)
From Coq Require Import ZArith NArith List Bool String.
From Verif Require Import Base Str F64 Date Amount Posting.
Import ListNotations.

(** src/entry.rs 9-17 *)
Inductive status : Set := Pending | Cleared | Reconciled.

(** src/entry.rs 24-30 *)
Definition status_char (s : status) : char :=
  match s with
  | Reconciled => chr "*"
  | Cleared => chr "~"
  | Pending => chr "?"
  end.

(** src/entry.rs 33-49 *)
Definition parse_status (s : str) : res status :=
  if str_eqb s (lit "?") then Ok Pending
  else if str_eqb s (lit "~") then Ok Cleared
  else if str_eqb s (lit "*") then Ok Reconciled
  else Err (EParse (UnknownStatus s)).

(** src/entry.rs 57-67 *)
Record entry : Set := mkEntry {
  e_date : date;
  e_status : status;
  e_desc : str;
  e_payee : option str;
  e_comment : option str;
  e_postings : list posting }.

(** src/entry.rs 80-102 *)
Definition new_entry (d : date) (st : status) (desc : str) (payee : option str)
  (ps : list posting) (comment : option str) : entry :=
  mkEntry d st desc payee
    (match comment with Some [] => None | _ => comment end) ps.

(** src/entry.rs 182-202: description and payee.  [find]/[rfind] give byte
    indices of ASCII characters; cutting at character indices is the same.
    The slice [i + 1..j] panics when [j < i + 1]. *)
Definition split_payee (header s : str) : res (str * option str) :=
  match find_char (chr "[") s with
  | None => Ok (s, None)
  | Some i =>
      match rfind_char (chr "]") s with
      | None => Err (EParse (NoClosingBracket header))
      | Some j =>
          if Nat.leb (S i) j then
            Ok (trim (firstn i s), Some (trim (skipn (S i) (firstn j s))))
          else Panic
      end
  end.

(** src/entry.rs 153-212 *)
Definition parse_header (header date_format : str) : res entry :=
  match split_ws (remove_comments header) with
  | [] => Err (EParse HeaderBlank)
  | dtok :: rest =>
      match parse_date dtok date_format with
      | None => Err (EParse (EntryDate dtok date_format (remove_comments header)))
      | Some d =>
          match rest with
          | [] => Panic
          | stok :: words =>
              let! st := parse_status stok in
              let! (desc, payee) := split_payee header (join (lit " ") words) in
              Ok (mkEntry d st desc payee None [])
          end
      end
  end.

(** src/entry.rs 282-312.  [symbol_set] is a set: counted without repetition. *)
Definition add_symbol (l : list str) (s : str) : list str := if mem s l then l else s :: l.
Fixpoint validate_loop (chunk : str) (ps : list posting) (blanks : nat) (syms : list str)
  : res (nat * list str) :=
  match ps with
  | [] => Ok (blanks, syms)
  | p :: ps' =>
      match get_amount p with
      | Some a =>
          validate_loop chunk ps' blanks
            (match symbol a with Some s => add_symbol syms s | None => syms end)
      | None =>
          if Nat.ltb 1 (S blanks) then Err (EValidation (TwoBlanks chunk))
          else validate_loop chunk ps' (S blanks) syms
      end
  end.
Definition validate_entry (chunk : str) (e : entry) : res unit :=
  let! (blanks, syms) := validate_loop chunk (e_postings e) 0 [] in
  if Nat.ltb 0 blanks && Nat.ltb 1 (List.length syms) then Err (EValidation (MixedBlank chunk))
  else Ok tt.

(** src/entry.rs 131-145: posting lines, blank ones skipped. *)
Fixpoint parse_postings (ls : list str) (dsym : char) (accounts : list str)
  : res (list posting) :=
  match ls with
  | [] => Ok []
  | l :: ls' =>
      match trim l with
      | [] => parse_postings ls' dsym accounts
      | _ =>
          let! p := parse_posting l dsym accounts in
          let! ps := parse_postings ls' dsym accounts in
          Ok (p :: ps)
      end
  end.

(** src/entry.rs 104-151 *)
Definition parse_entry (chunk date_format : str) (dsym : char) (accounts : list str)
  : res entry :=
  let t := trim chunk in
  match t with
  | [] => Err (EParse EntryEmpty)
  | _ =>
      match lines t with
      | [] => Err (EParse (EntryNoHeader chunk))
      | h :: ls =>
          let! e := parse_header h date_format in
          let! ps := parse_postings ls dsym accounts in
          let e := mkEntry (e_date e) (e_status e) (e_desc e) (e_payee e) (e_comment e) ps in
          let! _ := validate_entry chunk e in
          Ok e
      end
  end.

(** src/entry.rs 352-360, 362-370, 332-336, 342-346 *)
Definition has_blank_posting (e : entry) : bool :=
  existsb (fun p => match get_amount p with None => true | Some _ => false end) (e_postings e).
Definition has_envelope_posting (e : entry) : bool := existsb is_envelope (e_postings e).
Definition envelope_postings (e : entry) : list posting := filter is_envelope (e_postings e).

(** [iter.find(|p| p.get_amount().is_some())]: the amount found, and what is
    left of the iterator. *)
Fixpoint find_amount (ps : list posting) : option (amount * list posting) :=
  match ps with
  | [] => None
  | p :: ps' => match get_amount p with Some a => Some (a, ps') | None => find_amount ps' end
  end.

(** src/entry.rs 372-402 *)
Definition has_mixed_currencies (e : entry) : bool :=
  match find_amount (e_postings e) with
  | None => false
  | Some (a, rest) =>
      existsb (fun p => match get_amount p with
                        | Some b => negb (ostr_eqb (symbol b) (symbol a))
                        | None => false
                        end) rest
  end.

(** src/entry.rs 314-330; a date is displayed as with ["%Y-%m-%d"]. *)
Definition full_string (e : entry) : str :=
  format_date (lit "%Y-%m-%d") (e_date e) ++ chr " " :: status_char (e_status e) :: chr " " ::
  e_desc e ++ lit " [" ++ (match e_payee e with Some p => p | None => lit "No payee" end) ++ lit "]"
  ++ List.concat (map (fun p => 10%N :: 9%N :: show_posting p) (e_postings e)).

(** src/entry.rs 224-241 *)
Fixpoint blank_native (e : entry) (ps : list posting) (acc : f64) : res f64 :=
  match ps with
  | [] => Ok acc
  | p :: ps' =>
      match native_value p with
      | Some v => blank_native e ps' (fsub acc v)
      | None => match get_amount p with
                | Some _ => Err (EProcessing (NoNativeValue (full_string e)))
                | None => blank_native e ps' acc
                end
      end
  end.

(** src/entry.rs 263-268 *)
Fixpoint blank_rest (ps : list posting) (acc : amount) : res amount :=
  match ps with
  | [] => Ok acc
  | p :: ps' =>
      match get_amount p with
      | Some a => let! acc' := amount_sub_assign acc a in blank_rest ps' acc'
      | None => blank_rest ps' acc
      end
  end.

(** src/entry.rs 214-273 *)
Definition get_blank_amount (e : entry) : res (option amount) :=
  if has_blank_posting e then
    if has_mixed_currencies e then
      let! m := blank_native e (e_postings e) fzero in Ok (Some (mkAmount m None))
    else
      match find_amount (e_postings e) with
      | None => Panic
      | Some (a, rest) => let! b := blank_rest rest (amount_neg a) in Ok (Some b)
      end
  else Ok None.

(** src/entry.rs 500-532.  The code panics unless [printable fmt]. *)
Definition show_entry_header (fmt : str) (e : entry) : str :=
  let base := format_date fmt (e_date e) ++ chr " " :: status_char (e_status e)
              :: chr " " :: e_desc e in
  let base := match e_payee e with Some p => base ++ lit " [" ++ p ++ lit "]" | None => base end in
  match e_comment e with Some c => base ++ lit " // " ++ c | None => base end.
Definition show_entry (fmt : str) (e : entry) : str :=
  show_entry_header fmt e ++ 10%N
  :: List.concat (map (fun p => lit "    " ++ show_posting p ++ [10%N]) (e_postings e)).

(** src/entry.rs 535-544 *)
Record register_data : Set := mkRegisterData {
  rd_date : str;
  rd_status : char;
  rd_description : str;
  rd_payee : str;
  rd_flow : str * str;
  rd_short_flow : str * str;
  rd_single : str;
  rd_amounts : pool }.

(** src/entry.rs 411-419 (and src/ledger/register.rs 26-35) *)
Definition is_focused (account_match : option str) (name : str) : bool :=
  match account_match with
  | Some m => contains m name
  | None => starts_with (lit "asset") name
  end.

(** [HashSet::insert]; only the number of names matters, and the name itself
    when there is exactly one. *)
Definition set_insert (s : str) (l : list str) : list str := if mem s l then l else l ++ [s].

(** src/entry.rs 426-443 *)
Fixpoint register_loop (e : entry) (m : option str) (ps : list posting)
  (pos neg : list str) (foc : pool) : res (list str * list str * pool) :=
  match ps with
  | [] => Ok (pos, neg, foc)
  | p :: ps' =>
      let! a := match get_amount p with
                | Some a => Ok a
                | None => let! o := get_blank_amount e in unwrap o
                end in
      let name := get_account p in
      let pos' := if fltb fzero (mag a) then set_insert name pos else pos in
      let neg' := if fltb fzero (mag a) then neg
                  else if fltb (mag a) fzero then set_insert name neg else neg in
      let foc' := if is_focused m name then pool_add foc a else foc in
      register_loop e m ps' pos' neg' foc'
  end.

(** src/entry.rs 451-461 *)
Definition set_name (l : list str) : str :=
  match l with
  | [] => lit "(none)"
  | [n] => n
  | _ => lit "(multiple)"
  end.
(** [name.split(':').next_back().unwrap()] *)
Definition last_part (s : str) : str := List.last (split_on (chr ":") s) [].

(** src/entry.rs 404-498 *)
Definition as_register_data (e : entry) (fmt : str) (m : option str)
  : res (option register_data) :=
  let! (pos, neg, foc) := register_loop e m (e_postings e) [] [] [] in
  if pool_is_zero foc then Ok None
  else if printable fmt then
    let pn := set_name pos in
    let nn := set_name neg in
    Ok (Some (mkRegisterData
      (format_date fmt (e_date e))
      (status_char (e_status e))
      (e_desc e)
      (match e_payee e with Some p => lit "[" ++ p ++ lit "]" | None => [] end)
      (nn, pn)
      (last_part nn, last_part pn)
      (if negb (is_focused m pn) then last_part pn
       else if negb (is_focused m nn) then last_part nn
       else lit "(conversion)")
      foc))
  else Panic.
