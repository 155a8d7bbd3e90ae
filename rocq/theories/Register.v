(** src/ledger/register.rs.  The width of the terminal is not used by the code;
    only whether there is one matters. *)
From Coq Require Import ZArith NArith List Bool String.
From Verif Require Import Base Str F64 Date Amount Posting Entry.
Import ListNotations.

(** src/ledger/register.rs 37-61 *)
Definition in_range (b e : option date) (d : date) : bool :=
  match b, e with
  | Some b, Some e => date_leb d e && date_leb b d
  | Some b, None => date_leb b d
  | None, Some e => date_leb d e
  | None, None => true
  end.
Definition register_filter (b e : option date) (m : option str) (x : entry) : bool :=
  existsb (fun p => is_focused m (get_account p)) (e_postings x) && in_range b e (e_date x).

(** src/ledger/register.rs 78-89: the lengths that are used for printing. *)
Record max_lens : Set := mkMaxLens {
  m_date : nat; m_desc : nat; m_from : nat; m_to : nat; m_amount : nat; m_total : nat }.

(** [iter().map(|a| format!("{a}").len()).max().unwrap()] *)
Definition max_len (p : pool) : res nat :=
  match p with
  | [] => Panic
  | _ => Ok (fold_left (fun n a => Nat.max n (byte_len (show_amount a))) p 0%nat)
  end.

(** src/ledger/register.rs 91-152.  [register_data_vec] is [acc], reversed at
    the end; errors are wrapped as [Basic]. *)
Definition lens_step (fmt : str) (m : option str)
  (st : max_lens * pool * list register_data) (x : entry)
  : res (max_lens * pool * list register_data) :=
  let '(ml, total, acc) := st in
  let! o := match as_register_data x fmt m with
            | Err _ => Err (EBasic NoRegister)
            | r => r
            end in
  match o with
  | None => Ok st
  | Some rd =>
      if pool_is_empty (rd_amounts rd) then Ok st
      else
        let! la := max_len (rd_amounts rd) in
        let total' := pool_add_pool total (rd_amounts rd) in
        let! lt := max_len total' in
        Ok (mkMaxLens (Nat.max (m_date ml) (byte_len (rd_date rd)))
                      (Nat.max (m_desc ml) (byte_len (rd_description rd)))
                      (Nat.max (m_from ml) (byte_len (fst (rd_flow rd))))
                      (Nat.max (m_to ml) (byte_len (snd (rd_flow rd))))
                      (Nat.max (m_amount ml) la)
                      (Nat.max (m_total ml) lt),
            total', acc ++ [rd])
  end.
Definition maximum_lengths (fmt : str) (m : option str) (es : list entry)
  : res (max_lens * list register_data) :=
  let! (ml, _, rds) := fold_res (lens_step fmt m) es (mkMaxLens 0 0 0 0 0 0, [], []) in
  Ok (ml, rds).

(** src/ledger/register.rs 178-196: amount and running total of one row. *)
Definition show_row (ml : max_lens) (total : pool) (a : amount) : str :=
  pad_left (m_amount ml) (show_amount a) ++ lit "  "
  ++ pad_left (m_total ml) (show_amount (pool_only total (symbol a))) ++ [10%N].

(** src/ledger/register.rs 157-198: the rows of one entry. *)
Definition show_rows (ml : max_lens) (total : pool) (rd : register_data) : str :=
  match rd_amounts rd with
  | [] => []
  | a :: rest =>
      let prelude :=
        pad_right (m_date ml) (rd_date rd) ++ lit " " ++ [rd_status rd] ++ lit " "
        ++ pad_right (m_desc ml) (rd_description rd) ++ lit "  "
        ++ pad_left (m_from ml) (fst (rd_flow rd)) ++ lit " -> "
        ++ pad_right (m_to ml) (snd (rd_flow rd)) ++ lit "  " in
      prelude ++ show_row ml total a
      ++ List.concat (map (fun b => spaces (byte_len prelude) ++ show_row ml total b) rest)
  end.

(** src/ledger/register.rs 154-199 *)
Fixpoint print_lines (ml : max_lens) (total : pool) (rds : list register_data) : str :=
  match rds with
  | [] => []
  | rd :: rds' =>
      let total' := pool_add_pool total (rd_amounts rd) in
      show_rows ml total' rd ++ print_lines ml total' rds'
  end.

(** src/ledger/register.rs 7-75 *)
Definition register_display (tty : bool) (es : list entry) (fmt : str)
  (b e : option date) (m : option str) : res str :=
  if tty then
    let! (ml, rds) := maximum_lengths fmt m (filter (register_filter b e m) es) in
    Ok (print_lines ml [] rds)
  else Err (EBasic NoTerminal).
