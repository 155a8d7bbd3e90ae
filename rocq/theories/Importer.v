(** src/importer.rs.

    Parameters of the model: [lower] is [str::to_lowercase]; [ord] is the
    iteration order of a hash map (any rearrangement of its pairs).  A csv
    record is the list of its fields; what the csv crate makes of a file is an
    input of the model. *)
From Coq Require Import ZArith NArith List Bool String.
From Verif Require Import Base Str F64 Date World Amount Posting Entry Ledger.
Import ListNotations.

Definition record := list str.

(** src/importer.rs 85-99 and 494-498 (a [Subrules] is a list of patterns and
    the rules of the block). *)
Inductive rules : Set := mkRules {
  r_accounts : list (str * str);
  r_amounts : list (str * str);
  r_comment : str;
  r_desc : str;
  r_format : str;
  r_date : str;
  r_decimal : char;
  r_fields : list str;
  r_payee : str;
  r_skip : Z;
  r_status : str;
  r_subrules : list (list str * rules) }.

(** src/importer.rs 101-121 *)
Definition default_rules : rules :=
  mkRules [] [] [] (lit "%description%") default_format (lit "%date%") (chr ".") [] [] 1
    (lit "~") [].

Definition set_accounts (r : rules) (x : list (str * str)) : rules :=
  mkRules x (r_amounts r) (r_comment r) (r_desc r) (r_format r) (r_date r) (r_decimal r)
    (r_fields r) (r_payee r) (r_skip r) (r_status r) (r_subrules r).
Definition set_amounts (r : rules) (x : list (str * str)) : rules :=
  mkRules (r_accounts r) x (r_comment r) (r_desc r) (r_format r) (r_date r) (r_decimal r)
    (r_fields r) (r_payee r) (r_skip r) (r_status r) (r_subrules r).
Definition set_comment (r : rules) (x : str) : rules :=
  mkRules (r_accounts r) (r_amounts r) x (r_desc r) (r_format r) (r_date r) (r_decimal r)
    (r_fields r) (r_payee r) (r_skip r) (r_status r) (r_subrules r).
Definition set_desc (r : rules) (x : str) : rules :=
  mkRules (r_accounts r) (r_amounts r) (r_comment r) x (r_format r) (r_date r) (r_decimal r)
    (r_fields r) (r_payee r) (r_skip r) (r_status r) (r_subrules r).
Definition set_format (r : rules) (x : str) : rules :=
  mkRules (r_accounts r) (r_amounts r) (r_comment r) (r_desc r) x (r_date r) (r_decimal r)
    (r_fields r) (r_payee r) (r_skip r) (r_status r) (r_subrules r).
Definition set_date (r : rules) (x : str) : rules :=
  mkRules (r_accounts r) (r_amounts r) (r_comment r) (r_desc r) (r_format r) x (r_decimal r)
    (r_fields r) (r_payee r) (r_skip r) (r_status r) (r_subrules r).
Definition set_decimal (r : rules) (x : char) : rules :=
  mkRules (r_accounts r) (r_amounts r) (r_comment r) (r_desc r) (r_format r) (r_date r) x
    (r_fields r) (r_payee r) (r_skip r) (r_status r) (r_subrules r).
Definition set_fields (r : rules) (x : list str) : rules :=
  mkRules (r_accounts r) (r_amounts r) (r_comment r) (r_desc r) (r_format r) (r_date r)
    (r_decimal r) x (r_payee r) (r_skip r) (r_status r) (r_subrules r).
Definition set_payee (r : rules) (x : str) : rules :=
  mkRules (r_accounts r) (r_amounts r) (r_comment r) (r_desc r) (r_format r) (r_date r)
    (r_decimal r) (r_fields r) x (r_skip r) (r_status r) (r_subrules r).
Definition set_skip (r : rules) (x : Z) : rules :=
  mkRules (r_accounts r) (r_amounts r) (r_comment r) (r_desc r) (r_format r) (r_date r)
    (r_decimal r) (r_fields r) (r_payee r) x (r_status r) (r_subrules r).
Definition set_status (r : rules) (x : str) : rules :=
  mkRules (r_accounts r) (r_amounts r) (r_comment r) (r_desc r) (r_format r) (r_date r)
    (r_decimal r) (r_fields r) (r_payee r) (r_skip r) x (r_subrules r).
Definition set_subrules (r : rules) (x : list (list str * rules)) : rules :=
  mkRules (r_accounts r) (r_amounts r) (r_comment r) (r_desc r) (r_format r) (r_date r)
    (r_decimal r) (r_fields r) (r_payee r) (r_skip r) (r_status r) x.

(** [HashMap::remove] *)
Definition map_remove {A} (k : str) (m : list (str * A)) : list (str * A) :=
  filter (fun p => negb (str_eqb (fst p) k)) m.

(** [str::parse::<i32>] *)
Definition parse_i32 (s : str) : option Z :=
  let '(neg, ds) := match s with
                    | c :: r => if N.eqb c (chr "-") then (true, r)
                                else if N.eqb c (chr "+") then (false, r) else (false, s)
                    | [] => (false, s)
                    end in
  match ds with
  | [] => None
  | _ => if forallb is_digit ds then
           let v := (if neg then - digits_val ds else digits_val ds)%Z in
           if ((- 2 ^ 31 <=? v) && (v <? 2 ^ 31))%Z then Some v else None
         else None
  end.

(** [&line[i..]] with a byte index. *)
Definition slice_from (i : nat) (s : str) : res str :=
  match split_at_byte i s with Some (_, b) => Ok b | None => Panic end.
Definition slice_to (i : nat) (s : str) : res str :=
  match split_at_byte i s with Some (a, _) => Ok a | None => Panic end.

Definition is_name (s : str) (names : list string) : bool :=
  existsb (fun n => str_eqb s (lit n)) names.

(** src/importer.rs 242-286: the value is ["-"].  [inc] is [add_from_file]. *)
Definition reset_rule (inc : str -> rules -> res rules) (line : str) (r : rules) (name value : str)
  : res rules :=
  if is_name name ["comment"; "note"]%string then Ok (set_comment r [])
  else if is_name name ["date_format"]%string then Ok (set_format r default_format)
  else if is_name name ["date"]%string then Ok (set_date r (lit "%date%"))
  else if is_name name ["decimal_symbol"; "decimal"]%string then Ok (set_decimal r (chr "."))
  else if is_name name ["description"]%string then Ok (set_desc r (lit "%description%"))
  else if is_name name ["fields"]%string then Err (EValidation FieldsDiscarded)
  else if is_name name ["if"]%string then Err (EParse NestedSubrules)
  else if is_name name ["include"; "use"]%string then inc value r
  else if is_name name ["payee"]%string then Ok (set_payee r [])
  else if is_name name ["skip"]%string then Ok (set_skip r 1)
  else if is_name name ["status"]%string then Ok (set_status r (lit "~"))
  else match strip_prefix (lit "amount") name with
       | Some k => Ok (set_amounts r (map_remove k (r_amounts r)))
       | None =>
           match strip_prefix (lit "account") name with
           | Some k => Ok (set_accounts r (map_remove k (r_accounts r)))
           | None => Err (EParse (UnknownRule name line))
           end
       end.

(** src/importer.rs 287-354 *)
Definition set_rule (inc : str -> rules -> res rules) (line : str) (r : rules) (name value : str)
  : res rules :=
  if is_name name ["comment"; "note"]%string then Ok (set_comment r value)
  else if is_name name ["date_format"]%string then Ok (set_format r value)
  else if is_name name ["date"]%string then Ok (set_date r value)
  else if is_name name ["decimal_symbol"; "decimal"]%string then
    if Nat.ltb 1 (byte_len value) then Err (EParse (DecimalLong line))
    else match value with c :: _ => Ok (set_decimal r c) | [] => Panic end
  else if is_name name ["description"]%string then Ok (set_desc r value)
  else if is_name name ["fields"]%string then
    Ok (set_fields r (r_fields r ++ map trim (split_on (chr ",") value)))
  else if is_name name ["if"]%string then Err (EParse NestedSubrules)
  else if is_name name ["include"; "use"]%string then inc value r
  else if is_name name ["payee"]%string then Ok (set_payee r value)
  else if is_name name ["skip"]%string then
    match parse_i32 value with Some n => Ok (set_skip r n) | None => Err (EParse (SkipNumber value)) end
  else if is_name name ["status"]%string then Ok (set_status r value)
  else match strip_prefix (lit "amount") name with
       | Some k => Ok (set_amounts r (map_insert k value (r_amounts r)))
       | None =>
           match strip_prefix (lit "account") name with
           | Some k => Ok (set_accounts r (map_insert k value (r_accounts r)))
           | None => Err (EParse (UnknownRule name line))
           end
       end.

(** src/importer.rs 219-357.  The position of the first white space is a
    character index that the code uses as a byte index. *)
Definition add_from_line (inc : str -> rules -> res rules) (r : rules) (line : str) : res rules :=
  let line := trim_start line in
  match position is_ws line with
  | None => Err (EParse (RuleNoValue line))
  | Some i =>
      let! name := slice_to i line in
      let! rest := slice_from (S i) line in
      let value := trim_start rest in
      if str_eqb (trim value) (lit "-") then reset_rule inc line r name value
      else set_rule inc line r name value
  end.

(** src/importer.rs 145-209: the root rules, the block being read, and whether
    the block has rules already. *)
Record rstate : Set := mkRState {
  st_root : rules;
  st_block : option (list str * rules);
  st_inrules : bool }.

Definition push_subrules (r : rules) (b : list str * rules) : rules :=
  set_subrules r (r_subrules r ++ [b]).

(** src/importer.rs 197-208: a line at root level. *)
Definition root_line (inc : str -> rules -> res rules) (root : rules) (line : str) : res rstate :=
  if starts_with (lit "if") line then
    let! pats := match position is_ws line with
                 | Some i => let! p := slice_from (S i) line in Ok [p]
                 | None => Ok []
                 end in
    Ok (mkRState root (Some (pats, root)) false)
  else
    let! root' := add_from_line inc root line in Ok (mkRState root' None false).

(** src/importer.rs 145-209: one line *)
Definition rules_line (inc : str -> rules -> res rules) (st : rstate) (line : str) : res rstate :=
  let line := remove_comments line in
  match trim line, line with
  | [], _ => Ok st
  | _, [] => Ok st
  | _, c :: _ =>
      match st_block st with
      | Some (pats, br) =>
          if is_ws c then
            let! br' := add_from_line inc br line in
            Ok (mkRState (st_root st) (Some (pats, br')) true)
          else if st_inrules st then
            root_line inc (push_subrules (st_root st) (pats, br)) line
          else Ok (mkRState (st_root st) (Some (pats ++ [line], br)) false)
      | None => root_line inc (st_root st) line
      end
  end.

(** src/importer.rs 140-217 *)
Definition rules_from_str (inc : str -> rules -> res rules) (r : rules) (s : str) : res rules :=
  let! st := fold_res (rules_line inc) (lines s) (mkRState r None false) in
  Ok (match st_block st with
      | Some b => push_subrules (st_root st) b
      | None => st_root st
      end).

(** src/importer.rs 133-138, with fuel for the include recursion. *)
Fixpoint rules_from_file (fuel : nat) (w : world) (p : str) (r : rules) : res rules :=
  match fuel with
  | O => Loop
  | S f =>
      let! s := read_file w p in rules_from_str (rules_from_file f w) r s
  end.

(** src/importer.rs 124-131 *)
Definition parse_rules (fuel : nat) (w : world) (s : str) : res rules :=
  rules_from_str (rules_from_file fuel w) default_rules s.

(** src/importer.rs 501-505; [record.as_slice()] is all fields without
    separators. *)
Definition applies_to (lower : str -> str) (pats : list str) (rec : record) : bool :=
  existsb (fun p => contains (lower p) (lower (List.concat rec))) pats.

(** src/importer.rs 364-369: the rules that are used for a record. *)
Fixpoint select_rules (lower : str -> str) (rec : record) (r : rules) : rules :=
  (fix go (l : list (list str * rules)) : rules :=
     match l with
     | [] => r
     | (pats, r') :: l' => if applies_to lower pats rec then select_rules lower rec r' else go l'
     end) (r_subrules r).

(** src/importer.rs 481-491 *)
Definition inject (ord : list (str * str) -> list (str * str)) (vars : list (str * str)) (s : str)
  : str :=
  let s := fold_left (fun acc p => replace (chr "%" :: fst p ++ lit "%") (snd p) acc)
             (ord vars) s in
  replace (lit "%%") (lit "%") s.

(** src/importer.rs 384-398 *)
Fixpoint make_variables (fields : list str) (rec : record) (acc : list (str * str))
  : res (list (str * str)) :=
  match fields, rec with
  | f :: fields', v :: rec' =>
      match map_get f acc with
      | Some _ => Err (EParse (DuplicateField f))
      | None => make_variables fields' rec' (map_insert f v acc)
      end
  | _, _ => Ok acc
  end.

(** src/importer.rs 372-382: defaults.  The code stores them in the rules, with
    the same effect on later records. *)
Definition accounts_or_default (r : rules) : list (str * str) :=
  match r_accounts r with [] => [([], lit "%account%")] | l => l end.
Definition amounts_or_default (r : rules) : list (str * str) :=
  match r_amounts r with [] => [([], lit "%amount%")] | l => l end.

(** src/importer.rs 199-212 of posting.rs: a blank posting. *)
Definition blank_to (name : string) : posting := Classic (mkClassic None (lit name) None None).

(** src/importer.rs 435-448: one posting. *)
Definition import_posting (ord : list (str * str) -> list (str * str))
  (vars : list (str * str)) (r : rules) (accounts : list str) (ka : str * str) : res posting :=
  let raw := match map_get (fst ka) (amounts_or_default r) with
             | Some a => snd ka ++ chr " " :: a
             | None => snd ka
             end in
  parse_posting (inject ord vars raw) (r_decimal r) accounts.

(** src/importer.rs 454-478 *)
Definition complete_postings (rec : record) (ps : list posting) : res (list posting) :=
  match ps with
  | [] => Err (EValidation (NoPostings (List.concat rec)))
  | [p] =>
      match get_amount p with
      | Some a =>
          Ok (p :: [if fltb (mag a) fzero then blank_to "expenses:unknown"
                    else if fltb fzero (mag a) then blank_to "income:unknown"
                    else blank_to "unknown"])
      | None => Err (EValidation OneBlankPosting)
      end
  | _ => Ok ps
  end.

(** src/importer.rs 372-479: the entry of a record, under given rules. *)
Definition entry_of_record (ord : list (str * str) -> list (str * str)) (r : rules)
  (rec : record) (accounts : list str) : res entry :=
  let! vars := make_variables (r_fields r) rec [] in
  let raw_date := inject ord vars (r_date r) in
  let! d := ok_or (parse_date raw_date (r_format r)) (EParse (ImportDate raw_date (r_format r))) in
  let desc := inject ord vars (r_desc r) in
  let! st := parse_status (inject ord vars (r_status r)) in
  let payee := match trim (r_payee r) with [] => None | _ => Some (inject ord vars (r_payee r)) end in
  let comment := match trim (r_comment r) with
                 | [] => None | _ => Some (inject ord vars (r_comment r)) end in
  let! ps := map_res (import_posting ord vars r accounts) (ord (accounts_or_default r)) in
  let! ps' := complete_postings rec (rev ps) in
  Ok (new_entry d st desc payee ps' comment).

(** src/importer.rs 359-479 *)
Definition import_record (lower : str -> str) (ord : list (str * str) -> list (str * str))
  (r : rules) (accounts : list str) (rec : record) : res entry :=
  entry_of_record ord (select_rules lower rec r) rec accounts.

(** src/importer.rs 43-71: the records after skipping; [None] is a record that
    the csv reader could not read.  [skip as usize] of a negative number skips
    everything. *)
Fixpoint collect_records (rs : list (option record)) : res (list record) :=
  match rs with
  | [] => Ok []
  | Some r :: rs' => let! l := collect_records rs' in Ok (r :: l)
  | None :: _ => Err (EParse CsvRecord)
  end.
Definition skip_records (n : Z) (rs : list (option record)) : list (option record) :=
  if (n <? 0)%Z then [] else skipn (Z.to_nat n) rs.

(** src/importer.rs 16-41; [csv] is the csv reader. *)
Definition open_importer (fuel : nat) (w : world) (csv : str -> list (option record))
  (csv_file : str) (rules_file : option str) : res (rules * list record) :=
  let rules_path := match rules_file with Some p => p | None => csv_file ++ lit ".rules" end in
  let! csv_str := read_file w csv_file in
  let! rules_str := read_file w rules_path in
  let! r := parse_rules fuel w rules_str in
  let! recs := collect_records (skip_records (r_skip r) (csv csv_str)) in
  Ok (r, recs).

(** src/ledger/mod.rs 313-320: entries are made and appended one by one. *)
Fixpoint import_records (today : date) (mk : record -> res entry) (l : ledger) (w : world)
  (recs : list record) : world * res ledger :=
  match recs with
  | [] => (w, Ok l)
  | rec :: recs' =>
      match mk rec with
      | Ok e =>
          match append_entry today l w e with
          | (w', Ok l') => import_records today mk l' w' recs'
          | (w', r) => (w', r)
          end
      | Err x => (w, Err x)
      | Panic => (w, Panic)
      | Loop => (w, Loop)
      end
  end.

(** src/ledger/mod.rs 300-323.  The set of accounts is taken before importing. *)
Definition import_csv (fuel : nat) (today : date) (lower : str -> str)
  (ord : list (str * str) -> list (str * str)) (csv : str -> list (option record))
  (l : ledger) (w : world) (csv_file : str) (rules_file : option str) : world * res ledger :=
  match open_importer fuel w csv csv_file rules_file with
  | Ok (r, recs) =>
      import_records today (import_record lower ord r (account_names l)) l w recs
  | Err x => (w, Err x)
  | Panic => (w, Panic)
  | Loop => (w, Loop)
  end.
