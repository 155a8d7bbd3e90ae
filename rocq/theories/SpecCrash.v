(** Journals and imports on which no run crashes. *)
From Coq Require Import ZArith NArith List Bool String.
From Verif Require Import Base Str F64 Date World Amount Posting Entry Envelope Account Ledger Importer Cli
  SpecAmount SpecDate SpecEntry SpecEnvelope SpecLedger SpecRegister SpecImport.
Import ListNotations.
Local Open Scope Z_scope.

(** A due date in every month or year, and not at the end of the calendar. *)
Definition steady (f : frequency) : Prop :=
  match f with
  | Monthly n => 1 <= n <= 28
  | Bimonthly d => day d <= 28
  | Annually d => min_year < year d < max_year /\ ~ (month d = 2 /\ day d = 29)
  | _ => True
  end.

(** The amounts that the entry moves in the envelope are in its currency. *)
Definition matches (v : envelope) (e : entry) : Prop :=
  (manual e -> forall a, In (EnvPosting (mkEnvPosting (v_account v) (v_name v) a)) (e_postings e) ->
     symbol a = symbol (v_amount v))
  /\ (~ manual e -> symbol (v_amount v) = None ->
      (exists p, In p (e_postings e) /\ own v p) -> (exists p, In p (e_postings e) /\ linked v p) ->
      forall p a, In p (e_postings e) -> own v p \/ linked v p -> get_amount p = Some a ->
        symbol a = None \/ forall x, ~ native p x).

Definition directive (c : str) : Prop :=
  keyword c "account" \/ keyword c "currency" \/ keyword c "date_format" \/ keyword c "include".
(** The first line of an entry has a status, and no [\]] stands before a [\[]. *)
Definition good_header (h : str) : Prop :=
  exists a b words, split_ws (remove_comments h) = a :: b :: words /\ ~ brackets_reversed (join (lit " ") words).
(** Same-named envelopes of an account have the same currency. *)
Definition good_account (a : account) : Prop :=
  forall v, In v (all_envelopes a) -> steady (v_freq v)
    /\ forall u, In u (all_envelopes a) -> v_name u = v_name v -> symbol (v_amount u) = symbol (v_amount v).

(** The files of the journal [j]: the directory from which an included path is
    taken may be any. *)
Inductive journal_file (w : world) (j : str) : path -> Prop :=
  | journal_main : journal_file w j (located (cwd w) j)
  | journal_include q t f d : journal_file w j q -> files w q = Some t -> includes t f -> dirs w d = true ->
      journal_file w j (located d f).
(** Chunks, accounts and entries that stand in these files. *)
Definition stands_in (w : world) (j c : str) : Prop :=
  exists p t cs, journal_file w j p /\ files w p = Some t /\ cut_up t cs /\ In c cs.
Definition defined_in (w : world) (j : str) (a : account) : Prop :=
  exists c fmt, stands_in w j c /\ keyword c "account" /\ parse_account c 46%N fmt = Ok a.
Definition recorded_in (w : world) (j : str) (e : entry) : Prop :=
  exists c fmt names, stands_in w j c /\ ~ directive c /\ parse_entry c fmt 46%N names = Ok e.

Record sound_journal (w : world) (j : str) : Prop := mkSound {
  (** no indented line has only a comment *)
  no_blank_lines : forall p t l, journal_file w j p -> files w p = Some t -> In l (contents (lines t)) -> ~ Forall blank_char l;
  valid_formats : forall c f, stands_in w j c -> keyword c "date_format" -> value c = Some f -> valid_format f;
  good_headers : forall c h ls, stands_in w j c -> ~ directive c -> lines (trim c) = h :: ls -> good_header h;
  good_accounts : forall a, defined_in w j a -> good_account a;
  (** no entry consists of one blank posting *)
  some_amount : forall e p, recorded_in w j e -> e_postings e = [p] -> ~ blank p;
  all_match : forall a v e, defined_in w j a -> In v (all_envelopes a) -> recorded_in w j e -> matches v e }.

(** ** Imports *)

(** A rule whose name and the white space after it are ASCII characters; a
    decimal symbol has a value. *)
Inductive good_rule : str -> Prop :=
  | rule_word a k : Forall blank_char a -> Forall (fun c => ~ blank_char c) k -> good_rule (a ++ k)
  | rule_value a k c b : Forall blank_char a -> k <> [] -> Forall (fun c => ~ blank_char c /\ (c < 128)%N) k ->
      blank_char c -> (c < 128)%N ->
      (k = lit "decimal" \/ k = lit "decimal_symbol" -> ~ Forall blank_char b) ->
      good_rule (a ++ k ++ c :: b).
Definition sound_item (i : item) : Prop :=
  match i with
  | Root l => good_rule l
  | Block l _ rs => (exists p, first_pattern l p) /\ Forall good_rule rs
  end.
Definition ruled (is : list item) (l : str) : Prop :=
  In (Root l) is \/ exists h ps rs, In (Block h ps rs) is /\ In l rs.

(** The files of the rules [r], with paths taken from the directory [d]. *)
Inductive rules_file (w : world) (d : path) (r : str) : path -> Prop :=
  | rules_main : rules_file w d r (located d r)
  | rules_include q t is l f : rules_file w d r q -> files w q = Some t -> layout (rule_lines t) is -> ruled is l ->
      includes_file l f -> rules_file w d r (located d f).
(** An entry made from a record of the file [c]. *)
Definition imported (x : context) (w : world) (c r : str) (e : entry) : Prop :=
  exists d tr tc rs names rec, dirs w d = true /\ files w (located d r) = Some tr /\ files w (located d c) = Some tc
    /\ parse_rules (x_fuel x) (mkWorld (files w) (dirs w) d) tr = Ok rs
    /\ In (Some rec) (x_csv x tc) /\ import_record (x_lower x) (x_ord x) rs names rec = Ok e.

Record sound_import (x : context) (w : world) (j c r : str) : Prop := mkSoundImport {
  good_rules : forall d q t is i, dirs w d = true -> rules_file w d r q -> files w q = Some t ->
    layout (rule_lines t) is -> In i is -> sound_item i;
  (** the journal is another file *)
  apart : forall d q d', dirs w d = true -> dirs w d' = true -> rules_file w d r q \/ q = located d c -> q <> located d' j;
  (** not all postings are blank *)
  imports_amount : forall e, imported x w c r e -> exists p, In p (e_postings e) /\ ~ blank p;
  imports_match : forall a v e, defined_in w j a -> In v (all_envelopes a) -> imported x w c r e -> matches v e }.

(** The file with the rules for the file [c]. *)
Definition rules_for (f : flags) (c : str) : str :=
  match f_rules f with Some r => r | None => c ++ lit ".rules" end.
(** A run with these arguments reads what is sound. *)
Definition sound_run (x : context) (args : list str) (w : world) : Prop :=
  forall f j, parse_args args = Some (Ok f) -> journal_path x f = Some j ->
    sound_journal w j /\ (f_cmd f = CmdRegister -> x_tty x = true)
    /\ forall c, f_cmd f = Import -> f_csv f = Some c -> sound_import x w j c (rules_for f c).
