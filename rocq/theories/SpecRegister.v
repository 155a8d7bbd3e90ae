(** Specifications for the register. *)
From Coq Require Import ZArith NArith List Bool String.
From Verif Require Import Base Str F64 Date Amount Posting Entry SpecAmount SpecDate SpecEntry SpecEnvelope SpecLedger.
Import ListNotations.

(** [m] occurs in [s]. *)
Definition occurs (m s : str) : bool :=
  existsb (fun i => if str_dec (firstn (List.length m) (skipn i s)) m then true else false)
    (seq 0 (S (List.length s))).
(** The accounts in focus: those with the given text in their names, or those
    whose names start with [asset]. *)
Definition in_focus (m : option str) (name : str) : bool :=
  match m with
  | Some t => occurs t name
  | None => if str_dec (firstn 5 name) (lit "asset") then true else false
  end.
(** The days from [b] to [e], both included. *)
Definition within (b e : option date) (d : date) : Prop :=
  opt_holds (fun b => not_later b d) b /\ opt_holds (fun e => not_later d e) e.
Definition selected (b e : option date) (m : option str) (x : entry) : Prop :=
  within b e (e_date x) /\ exists p, In p (e_postings x) /\ in_focus m (get_account p) = true.

(** [ws] are the account names of an entry with the amounts of the postings,
    inferred where blank. *)
Definition weighed (x : entry) (ws : list (str * amount)) : Prop :=
  Forall2 (fun p w => fst w = get_account p /\ worth x p (snd w)) (e_postings x) ws.
(** The amounts in focus, per currency. *)
Definition focus (m : option str) (ws : list (str * amount)) : pool :=
  sum_up (map snd (filter (fun w => in_focus m (fst w)) ws)).
Definition all_zero (p : pool) : Prop := Forall (fun a => feqb (mag a) fzero = true) p.

(** What is shown of which entries. *)
Definition row : Type := entry * list (str * amount).
Inductive listed (b e : option date) (m : option str) : list entry -> list row -> Prop :=
  | listed_nil : listed b e m [] []
  | listed_other x xs rs : ~ selected b e m x -> listed b e m xs rs -> listed b e m (x :: xs) rs
  | listed_zero x xs rs ws : selected b e m x -> weighed x ws -> all_zero (focus m ws) ->
      listed b e m xs rs -> listed b e m (x :: xs) rs
  | listed_row x xs rs ws : selected b e m x -> weighed x ws -> ~ all_zero (focus m ws) ->
      listed b e m xs rs -> listed b e m (x :: xs) ((x, ws) :: rs).

(** The name for a group of accounts. *)
Definition group_name (ns : list str) (s : str) : Prop :=
  (ns = [] /\ s = lit "(none)")
  \/ (ns <> [] /\ Forall (eq s) ns)
  \/ (s = lit "(multiple)" /\ exists n n', In n ns /\ In n' ns /\ n <> n').
Definition gaining (ws : list (str * amount)) : list str :=
  map fst (filter (fun w => fltb fzero (mag (snd w))) ws).
Definition losing (ws : list (str * amount)) : list str :=
  map fst (filter (fun w => fltb (mag (snd w)) fzero) ws).

(** The sum of the amounts of one currency. *)
Definition total_in (sym : option str) (xs : list amount) : amount :=
  mkAmount (left_sum (contributions sym (map PAdd xs))) sym.

(** A cell of a column. *)
Definition left_cell (n : nat) (s c : str) : Prop :=
  c = s ++ repeat 32%N (n - List.length s) /\ (List.length s <= n)%nat.
Definition right_cell (n : nat) (s c : str) : Prop :=
  c = repeat 32%N (n - List.length s) ++ s /\ (List.length s <= n)%nat.
Record widths : Set := mkWidths { w_date : nat; w_desc : nat; w_from : nat; w_to : nat; w_amount : nat; w_total : nat }.

(** An amount and the running total of its currency; [seen] are the amounts of
    all rows up to this one. *)
Definition amount_line (wd : widths) (seen : list amount) (a : amount) (t : str) : Prop :=
  exists c c', right_cell (w_amount wd) (show_amount a) c
  /\ right_cell (w_total wd) (show_amount (total_in (symbol a) seen)) c'
  /\ t = c ++ lit "  " ++ c' ++ [10%N].
(** The columns before the amounts. *)
Definition head_line (wd : widths) (fmt : str) (x : entry) (ws : list (str * amount)) (t : str) : Prop :=
  exists cd ce from cf to ct,
    left_cell (w_date wd) (format_date fmt (e_date x)) cd /\ left_cell (w_desc wd) (e_desc x) ce
    /\ group_name (losing ws) from /\ right_cell (w_from wd) from cf
    /\ group_name (gaining ws) to /\ left_cell (w_to wd) to ct
    /\ exists sign, sign_of (e_status x) sign
    /\ t = cd ++ lit " " ++ sign ++ lit " " ++ ce ++ lit "  " ++ cf ++ lit " -> " ++ ct ++ lit "  ".
Inductive page (wd : widths) (fmt : str) (m : option str) : list amount -> list row -> str -> Prop :=
  | page_nil seen : page wd fmt m seen [] []
  | page_row seen x ws rs a more h t ts text :
      focus m ws = a :: more ->
      head_line wd fmt x ws h ->
      amount_line wd (seen ++ a :: more) a t ->
      Forall2 (amount_line wd (seen ++ a :: more)) more ts ->
      page wd fmt m (seen ++ a :: more) rs text ->
      page wd fmt m seen ((x, ws) :: rs)
        (h ++ t ++ List.concat (map (fun u => repeat 32%N (byte_len h) ++ u) ts) ++ text).
