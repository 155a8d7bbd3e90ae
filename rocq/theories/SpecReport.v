(** Specifications for the balance and envelope reports. *)
From Coq Require Import ZArith NArith List Bool String.
From Verif Require Import Base Str F64 Date Amount Posting Entry Envelope Account Register Ledger
  SpecAmount SpecDate SpecEntry SpecEnvelope SpecLedger SpecRegister.
Import ListNotations.

(** Alphabetical order, by code points. *)
Inductive alphabetical : str -> str -> Prop :=
  | alphabetical_end c s : alphabetical [] (c :: s)
  | alphabetical_first c d s t : (c < d)%N -> alphabetical (c :: s) (d :: t)
  | alphabetical_later c s t : alphabetical s t -> alphabetical (c :: s) (c :: t).
(** Each before all that follow. *)
Inductive in_order : list str -> Prop :=
  | in_order_nil : in_order []
  | in_order_cons s ss : Forall (alphabetical s) ss -> in_order ss -> in_order (s :: ss).

(** A text with blanks after it, or before it, up to [n] characters. *)
Definition blanks (n : nat) (s : str) : str := repeat 32%N (n - List.length s).

(** The currencies of a list of amounts, in order of appearance. *)
Fixpoint nub (l : list (option str)) : list (option str) :=
  match l with
  | [] => []
  | x :: l' => x :: filter (fun y => if sym_dec x y then false else true) (nub l')
  end.
(** One sum for each currency. *)
Definition totals (xs : list amount) : list amount :=
  map (fun sym => total_in sym xs) (nub (map symbol xs)).

(** What the balance of an account is taken to be: a first posting without an
    amount counts as zero (see C23). *)
Definition balance (es : list entry) (name : str) (pl : list amount) : Prop :=
  exists x rest xs, filter (to_account name) (postings es) = x :: rest /\ worths rest xs
  /\ pl = totals ((match get_amount (snd x) with Some a => a | None => mkAmount fzero None end) :: xs).
Definition used (es : list entry) (name : str) : Prop :=
  exists e p, In e es /\ In p (e_postings e) /\ get_account p = name.

Definition amounts_text (xs : list amount) : str :=
  match xs with
  | [] => []
  | [a] => show_amount a
  | _ => flat_map (fun a => [10%N; 9%N] ++ show_amount a) xs
  end.
Definition balance_line (r : str * list amount) : str :=
  fst r ++ blanks 35 (fst r) ++ lit "    " ++ amounts_text (snd r) ++ [10%N].

(** ** Envelopes *)

(** What is shown as saved now and for the next time: an overdraft is taken
    from the next savings. *)
Definition now_shown (v : envelope) : amount :=
  mkAmount (if fltb fzero (mag (v_now v)) then mag (v_now v) else fzero) (symbol (v_now v)).
Definition next_shown (v : envelope) : amount :=
  mkAmount (if fltb (mag (v_now v)) fzero then fadd (mag (v_next v)) (mag (v_now v)) else mag (v_next v))
    (symbol (v_next v)).
(** Equal amounts; zero has no sign. *)
Definition same_number (a b : amount) : Prop :=
  symbol a = symbol b /\ (mag a = mag b \/ (feqb (mag a) fzero = true /\ feqb (mag b) fzero = true)).
(** [label], [a / target] and a bar. *)
Definition progress_line (v : envelope) (label : str) (a : amount) (t : str) : Prop :=
  exists bar, make_bar v (mag a) 40 = Ok bar
  /\ let frac := show_amount a ++ lit " / " ++ show_amount (v_amount v) in
     t = lit "      " ++ label ++ blanks 20 label ++ lit " " ++ blanks 30 frac ++ frac
         ++ lit " " ++ bar ++ [10%N].
Definition next_label (due : option date) : str :=
  match due with
  | None => lit "next"
  | Some d => lit "next (on " ++ format_date (lit "%Y-%m-%d") d ++ lit ")"
  end.
Definition envelope_lines (today : date) (v : envelope) (t : str) : Prop :=
  exists due now next t1 t2, env_next_due today v = Ok due
  /\ same_number now (now_shown v) /\ same_number next (next_shown v)
  /\ progress_line v (lit "now") now t1 /\ progress_line v (next_label due) next t2
  /\ t = lit "    " ++ v_name v ++ [10%N] ++ t1 ++ t2.
(** A title and the envelopes below it; nothing if there are none. *)
Definition section (today : date) (title : string) (vs : list envelope) (t : str) : Prop :=
  (vs = [] /\ t = [])
  \/ (vs <> [] /\ exists ts, Forall2 (envelope_lines today) vs ts
      /\ t = lit title ++ [10%N] ++ List.concat ts).
(** The money of the account that is in no envelope. *)
Definition available_lines (a : account) : str :=
  flat_map (fun x => if feqb (mag x) fzero then [] else lit "    " ++ show_amount x ++ [10%N])
    (available_value a).
Definition account_part (today : date) (a : account) (t : str) : Prop :=
  (a_expenses a = [] /\ a_goals a = [] /\ t = [])
  \/ ((a_expenses a <> [] \/ a_goals a <> []) /\ exists ex go,
      section today "  expenses" (a_expenses a) ex /\ section today "  goals" (a_goals a) go
      /\ t = a_name a ++ [10%N] ++ lit "  available" ++ [10%N] ++ available_lines a ++ ex ++ go ++ [10%N]).

(** ** Register *)
Definition ascii (s : str) : Prop := Forall (fun c => (c < 128)%N) s.
Definition ascii_entry (fmt : str) (x : entry) : Prop :=
  ascii (format_date fmt (e_date x)) /\ ascii (e_desc x)
  /\ forall p, In p (e_postings x) -> ascii (get_account p).
(** A text without line break, and an entry that is shown with such texts. *)
Definition one_line (s : str) : Prop := ~ In 10%N s.
Definition plain_entry (fmt : str) (x : entry) : Prop :=
  one_line (format_date fmt (e_date x)) /\ one_line (e_desc x)
  /\ forall p, In p (e_postings x) -> one_line (get_account p)
     /\ forall a s, get_amount p = Some a -> symbol a = Some s -> one_line s.
(** The columns before the amounts have ASCII characters only. *)
Definition ascii_row (fmt : str) (r : row) : Prop :=
  ascii (format_date fmt (e_date (fst r))) /\ ascii (e_desc (fst r))
  /\ (forall s, group_name (losing (snd r)) s -> ascii s) /\ (forall s, group_name (gaining (snd r)) s -> ascii s).
(** All lines have the same number of characters. *)
Definition aligned (t : str) : Prop :=
  exists n ls, Forall (fun l => one_line l /\ List.length l = n) ls /\ t = flat_map (fun l => l ++ [10%N]) ls.
