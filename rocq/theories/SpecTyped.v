(** Specification for C133: journals as they are typed, and the balances that
    follow from what is typed. *)
From Coq Require Import ZArith NArith List Bool String Reals.
From Verif Require Import Base Str F64 Date Amount Posting Entry
  SpecAmount SpecDate SpecEntry SpecEnvelope SpecLedger SpecReport.
Import ListNotations.
Local Open Scope Z_scope.

(** A posting as typed: the account, and an amount in units of 10^-8 with its
    currency, or no amount. *)
Record typed : Type := mkTyped { t_account : str; t_amount : option (Z * option str) }.
Definition typed_entry : Type := (date * list typed)%type.

(** ** Lines *)

(** The words of a line; comments do not count. *)
Definition words (line : str) : list str := split_ws (remove_comments line).

(** A decimal number, alone or with a currency on either side, in one word or
    in two. *)
Definition amount_words (ws : list str) (z : Z) (sym : option str) : Prop :=
  exists t neg ip fp, spells 46%N t neg ip fp
  /\ decimal_value neg ip fp = (IZR z / 100000000)%R /\ Z.abs z < 2 ^ 51
  /\ match sym with
     | None => ws = [t]
     | Some s => (ws = [s ++ t] \/ ws = [t ++ s] \/ ws = [s; t] \/ ws = [t; s])
         /\ plain_symbol (Some s) /\ ~ op_token s
     end.
Definition typed_posting (accounts : list str) (line : str) (p : typed) : Prop :=
  indented line /\ In (t_account p) accounts /\ t_account p <> lit "envelope"
  /\ exists ws, words line = t_account p :: ws
  /\ match t_amount p with
     | None => ws = []
     | Some (z, sym) => amount_words ws z sym
     end.

(** A date like 2024/02/29, a status and a description. *)
Definition usual_date : list piece :=
  [PNum NYear ZeroPad; PText 47%N; PNum NMonth ZeroPad; PText 47%N; PNum NDay ZeroPad].
Definition typed_header (line : str) (d : date) : Prop :=
  ~ indented line /\ 0 <= year d < 10000
  /\ exists st s ws, words line = date_text usual_date d :: s :: ws /\ sign_of st s
  /\ Forall (fun t => ~ In 91%N t) ws.

(** The amounts that are typed in an entry. *)
Definition given (ps : list typed) : list (Z * option str) :=
  flat_map (fun p => match t_amount p with Some x => [x] | None => [] end) ps.
(** At most one posting has no amount, and the amounts of the others are in one
    currency then. *)
Definition open (p : typed) : bool := match t_amount p with None => true | Some _ => false end.
Definition complete (ps : list typed) : Prop :=
  (List.length (filter open ps) <= 1)%nat
  /\ (forall p, In p ps -> t_amount p = None ->
        exists x, In x (given ps) /\ forall y, In y (given ps) -> snd y = snd x).

(** Account lines and entries, in any order, as long as an account stands before
    the entries that name it. *)
Inductive typed_lines : list str -> list str -> list typed_entry -> Prop :=
  | typed_end accounts : typed_lines accounts [] []
  | typed_account accounts line name rest es : ~ indented line -> words line = [lit "account"; name] ->
      typed_lines (name :: accounts) rest es -> typed_lines accounts (line :: rest) es
  | typed_next accounts line d lines ps rest es : typed_header line d ->
      Forall2 (typed_posting accounts) lines ps -> complete ps ->
      typed_lines accounts rest es -> typed_lines accounts (line :: lines ++ rest) ((d, ps) :: es).
(** Empty lines, comments and the length of white space do not matter. *)
Definition typed_journal (text : str) (es : list typed_entry) : Prop :=
  typed_lines [] (contents (lines text)) es.

(** ** Balances *)

(** What a posting moves: what is typed, or what the others leave. *)
Definition moved (ps : list typed) (p : typed) : Z * option str :=
  match t_amount p with
  | Some x => x
  | None => (- Zsum (map fst (given ps)), match given ps with x :: _ => snd x | [] => None end)
  end.
(** The numbers from which this is found. *)
Definition basis (ps : list typed) (p : typed) : list Z :=
  match t_amount p with Some x => [fst x] | None => map fst (given ps) end.

(** The postings for an account in a currency. *)
Definition meant (name : str) (sym : option str) (ps : list typed) (p : typed) : bool :=
  if str_dec (t_account p) name then if sym_dec (snd (moved ps p)) sym then true else false else false.
Definition in_entry {A} (f : list typed -> typed -> list A) (name : str) (sym : option str) (e : typed_entry) : list A :=
  flat_map (f (snd e)) (filter (meant name sym (snd e)) (snd e)).
Definition moves (es : list typed_entry) (name : str) (sym : option str) : list Z :=
  flat_map (in_entry (fun ps p => [fst (moved ps p)]) name sym) es.
Definition behind (es : list typed_entry) (name : str) (sym : option str) : list Z :=
  flat_map (in_entry basis name sym) es.

(** The amounts are not too large: their decimals could get lost. *)
Definition modest_sums (es : list typed_entry) : Prop :=
  forall name sym, let zs := behind es name sym in
    Z.of_nat (List.length zs) * Z.max 1 (Zsum (map Z.abs zs)) <= 2 ^ 47
    \/ (Forall (fun z => (100000000 | z)) zs /\ Zsum (map Z.abs zs) < 2 ^ 51).
(** A posting without an amount is not the first one for its account (see
    C23). *)
Definition opened (es : list typed_entry) : Prop :=
  forall e p, In e es -> In p (snd e) -> t_amount p = None ->
  exists e' p', In e' es /\ In p' (snd e') /\ t_account p' = t_account p /\ t_amount p' <> None
  /\ earlier (fst e') (fst e).
Definition named_in (es : list typed_entry) (name : str) : Prop :=
  exists e p, In e es /\ In p (snd e) /\ t_account p = name.

(** ** The report *)

(** A line for an account: one amount, or several below each other. *)
Definition row_text (row : str * list (option str * str)) : str :=
  fst row ++ blanks 35 (fst row) ++ lit "    "
  ++ match map snd (snd row) with
     | [t] => t
     | ts => flat_map (fun t => [10%N; 9%N] ++ t) ts
     end ++ [10%N].
