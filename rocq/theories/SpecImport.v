(** Specifications for importing. *)
From Coq Require Import ZArith NArith List Bool String Permutation.
From Verif Require Import Base Str F64 Date World Amount Posting Entry Ledger Importer
  SpecAmount SpecDate SpecEntry SpecEnvelope SpecLedger SpecRegister.
Import ListNotations.

(** ** The text of a rules file *)

(** The lines that count, without comments. *)
Definition rule_lines (text : str) : list str :=
  filter (fun l => negb (forallb is_ws l)) (map remove_comments (lines text)).

(** A rule at root level, or an [if] block: its first line, the lines with
    further patterns, the lines with rules. *)
Inductive item : Set := Root (line : str) | Block (first : str) (patterns rules : list str).
Definition starts_block (line : str) : Prop := exists r, line = lit "if" ++ r.
(** Blocks begin with [if], then there are lines that are not indented, then
    indented lines, as many as possible of each. *)
Inductive layout : list str -> list item -> Prop :=
  | layout_nil : layout [] []
  | layout_root l ls is : ~ starts_block l -> layout ls is -> layout (l :: ls) (Root l :: is)
  | layout_block l ps rs ls is : starts_block l ->
      Forall (fun p => ~ indented p) ps -> Forall indented rs ->
      (rs = [] -> ls = []) -> (forall h t, ls = h :: t -> ~ indented h) ->
      layout ls is -> layout (l :: ps ++ rs ++ ls) (Block l ps rs :: is).

(** The pattern in the first line of a block: what follows the first white
    space. *)
Inductive first_pattern : str -> list str -> Prop :=
  | first_none l : (forall c, In c l -> ~ blank_char c) -> first_pattern l []
  | first_some a c p : Forall (fun c => ~ blank_char c /\ (c < 128)%N) a -> blank_char c -> (c < 128)%N ->
      first_pattern (a ++ c :: p) [p].

(** ** Choosing rules *)

(** A pattern occurs in a record, whatever the case of the letters. *)
Definition matches (lower : str -> str) (rec : record) (patterns : list str) : Prop :=
  exists p, In p patterns /\ occurs (lower p) (lower (List.concat rec)) = true.
(** The rules without their blocks. *)
Definition bare (r : rules) : rules := set_subrules r [].

(** A line that includes a file, and the name of the file. *)
Definition includes_rules (line : str) : Prop :=
  exists k, hd_error (split_ws line) = Some k /\ (k = lit "include" \/ k = lit "use").
Definition includes_file (line p : str) : Prop :=
  exists a k c b, line = a ++ k ++ c :: b ++ p
    /\ Forall blank_char a /\ (k = lit "include" \/ k = lit "use") /\ blank_char c /\ Forall blank_char b
    /\ (forall h t, p = h :: t -> ~ blank_char h).
(** The items with those of all included files in their place.  Blocks must not
    include files. *)
Inductive expansion (w : world) : list item -> list item -> Prop :=
  | exp_nil : expansion w [] []
  | exp_rule l is is' : ~ includes_rules l -> expansion w is is' -> expansion w (Root l :: is) (Root l :: is')
  | exp_block l ps rs is is' : Forall (fun x => ~ includes_rules x) rs -> expansion w is is' ->
      expansion w (Block l ps rs :: is) (Block l ps rs :: is')
  | exp_file l p t is0 is0' is is' : includes_file l p -> files w (resolve w p) = Some t ->
      layout (rule_lines t) is0 -> expansion w is0 is0' -> expansion w is is' ->
      expansion w (Root l :: is) (is0' ++ is').
(** All blocks of all files are without [include]. *)
Definition flat_text (t : str) : Prop :=
  forall is l ps rs, layout (rule_lines t) is -> In (Block l ps rs) is -> Forall (fun x => ~ includes_rules x) rs.

Fixpoint roots (is : list item) : list str :=
  match is with
  | [] => []
  | Root l :: is' => l :: roots is'
  | Block _ _ _ :: is' => roots is'
  end.
Definition block_matches (lower : str -> str) (rec : record) (i : item) : Prop :=
  match i with
  | Root _ => False
  | Block l ps _ => exists p, first_pattern l p /\ matches lower rec (p ++ ps)
  end.
(** The lines that make the rules for a record: those of the first block that
    matches after the root lines above it, or all the root lines. *)
Definition used (lower : str -> str) (rec : record) (is : list item) (ls : list str) : Prop :=
  (exists is1 l ps rs is2, is = is1 ++ Block l ps rs :: is2 /\ block_matches lower rec (Block l ps rs)
     /\ Forall (fun i => ~ block_matches lower rec i) is1 /\ ls = roots is1 ++ rs)
  \/ (Forall (fun i => ~ block_matches lower rec i) is /\ ls = roots is).
(** No file can be included. *)
Definition no_file : str -> rules -> res rules := fun p _ => Err (EFile p).
Definition plain_header (i : item) : Prop :=
  match i with Root _ => True | Block l _ _ => exists p, first_pattern l p end.

(** ** Field references *)

Inductive piece : Set := Text (s : str) | Ref (name : str).
Definition template (ps : list piece) : str :=
  List.concat (map (fun p => match p with Text s => s | Ref n => 37%N :: n ++ [37%N] end) ps).
Definition lookup (vars : list (str * str)) (n : str) : str :=
  match List.find (fun v => if str_dec (fst v) n then true else false) vars with
  | Some v => snd v
  | None => []
  end.
Definition meaning (vars : list (str * str)) (ps : list piece) : str :=
  List.concat (map (fun p => match p with Text s => s | Ref n => lookup vars n end) ps).
Definition plain (s : str) : Prop := ~ In 37%N s.
Definition plain_piece (vars : list (str * str)) (p : piece) : Prop :=
  match p with Text s => plain s | Ref n => In n (map fst vars) end.
(** What stands between two references, after substitution, is not the name of
    a field. *)
Definition well_separated (vars : list (str * str)) (ps : list piece) : Prop :=
  forall t1 a mid b t2, ps = t1 ++ Ref a :: mid ++ Ref b :: t2 -> ~ In (meaning vars mid) (map fst vars).

(** ** Importing *)

(** What importing the records does: entries are appended one after the other,
    up to a record or an entry that fails. *)
Definition appended (fmt : str) (es : list entry) : str :=
  List.concat (map (fun e => 10%N :: show_entry fmt e) es).

(** ** Slots *)
(** What a rule is about; [comment] and [note] are the same. *)
Inductive slot : Set :=
  SComment | SFormat | SDate | SDecimal | SDesc | SFields | SPayee | SSkip | SStatus
  | SAmount (k : str) | SAccount (k : str).
Definition slot_dec (a b : slot) : {a = b} + {a <> b}.
Proof. decide equality; apply str_dec. Defined.
Definition slot_names : list (string * slot) :=
  [("comment", SComment); ("note", SComment); ("date_format", SFormat); ("date", SDate);
   ("decimal_symbol", SDecimal); ("decimal", SDecimal); ("description", SDesc); ("fields", SFields);
   ("payee", SPayee); ("skip", SSkip); ("status", SStatus)]%string.
Definition slot_of (name : str) : option slot :=
  match List.find (fun x => if str_dec (lit (fst x)) name then true else false) slot_names with
  | Some x => Some (snd x)
  | None =>
      if str_dec (firstn 6 name) (lit "amount") then Some (SAmount (skipn 6 name))
      else if str_dec (firstn 7 name) (lit "account") then Some (SAccount (skipn 7 name))
      else None
  end.
(** A rule is a name and a value, and it is written so. *)
Definition rule : Type := str * str.
Definition rule_ok (x : rule) : Prop :=
  token (fst x) /\ Forall (fun c => (c < 128)%N) (fst x) /\ slot_of (fst x) <> None.
Definition written_rule (x : rule) : str := fst x ++ 32%N :: snd x.
Definition about (s : slot) (x : rule) : bool :=
  match slot_of (fst x) with Some s' => if slot_dec s s' then true else false | None => false end.

(** ** Runs *)
(** The same failure. *)
Definition fails_as {A B} (a : res A) (b : res B) : Prop :=
  match a with Ok _ => False | Err x => b = Err x | Panic => b = Panic | Loop => b = Loop end.
(** Entries that differ only in the order of their postings. *)
Definition same_but_order (a b : entry) : Prop :=
  e_date a = e_date b /\ e_status a = e_status b /\ e_desc a = e_desc b /\ e_payee a = e_payee b
  /\ e_comment a = e_comment b /\ Permutation (e_postings a) (e_postings b).
(** A ledger with some comments of entries left out. *)
Definition uncommented (l l' : ledger) : Prop :=
  l_path l = l_path l' /\ l_format l = l_format l' /\ l_accounts l = l_accounts l' /\ l_currency l = l_currency l'
  /\ Forall2 (fun e e' => e' = e \/ e' = mkEntry (e_date e) (e_status e) (e_desc e) (e_payee e) None (e_postings e))
       (l_entries l) (l_entries l').
(** The text of the posting for an account rule, before substitution. *)
Definition posting_text (r : rules) (ka : str * str) : str :=
  let amounts := match r_amounts r with [] => [([], lit "%amount%")] | l => l end in
  match List.find (fun x => if str_dec (fst x) (fst ka) then true else false) amounts with
  | Some x => snd ka ++ 32%N :: snd x
  | None => snd ka
  end.
Definition account_rules (r : rules) : list (str * str) :=
  match r_accounts r with [] => [([], lit "%account%")] | l => l end.
Definition rule_texts (r : rules) : list str :=
  [r_date r; r_desc r; r_status r; r_payee r; r_comment r] ++ map (posting_text r) (account_rules r).
Definition good_text (vars : list (str * str)) (s : str) : Prop :=
  exists ps, s = template ps /\ Forall (plain_piece vars) ps /\ well_separated vars ps.
Definition good_vars (vars : list (str * str)) : Prop :=
  NoDup (map fst vars) /\ Forall (fun v => plain (fst v) /\ plain (snd v)) vars.
