(** The csv reader that src/importer.rs 48-50 builds: csv 1.3.1 on top of
    csv-core 0.1.12, without headers, otherwise with its default settings
    (fields separated by commas, quotes doubled inside quoted fields, records
    ended by a carriage return, a line feed or both).  The sources of these
    libraries are not part of the repository. *)
From Coq Require Import NArith List Bool.
From Verif Require Import Base Str.
Import ListNotations.

Definition comma : char := 44%N.
Definition quote : char := 34%N.
Definition ends_record (c : char) : bool := N.eqb c 13%N || N.eqb c 10%N.

(** The states of csv-core's automaton where input is read.  After a carriage
    return a line feed is dropped, but so it is at the start of any record. *)
Inductive csv_state : Set := StartRecord | StartField | InField | InQuoted | AfterQuote.

(** [f] and [rec] are the field and the record read so far, backwards. *)
Fixpoint csv_scan (st : csv_state) (f : str) (rec : list str) (s : str) : list (list str) :=
  let in_field c s' :=
    if N.eqb c comma then csv_scan StartField [] (rev f :: rec) s'
    else if ends_record c then rev (rev f :: rec) :: csv_scan StartRecord [] [] s'
    else csv_scan InField (c :: f) rec s' in
  match s with
  | [] => match st with StartRecord => [] | _ => [rev (rev f :: rec)] end
  | c :: s' =>
      match st with
      | StartRecord =>
          if ends_record c then csv_scan StartRecord [] [] s'
          else if N.eqb c quote then csv_scan InQuoted [] [] s'
          else in_field c s'
      | StartField => if N.eqb c quote then csv_scan InQuoted f rec s' else in_field c s'
      | InField => in_field c s'
      | InQuoted =>
          if N.eqb c quote then csv_scan AfterQuote f rec s' else csv_scan InQuoted (c :: f) rec s'
      | AfterQuote =>
          if N.eqb c quote then csv_scan InQuoted (c :: f) rec s' else in_field c s'
      end
  end.

(** A byte order mark at the start is dropped. *)
Definition drop_mark (s : str) : str :=
  match s with c :: s' => if N.eqb c 65279%N then s' else s | [] => [] end.

(** A record with another number of fields than the first is an error. *)
Definition csv_reader (s : str) : list (option (list str)) :=
  match csv_scan StartRecord [] [] (drop_mark s) with
  | [] => []
  | r :: rs =>
      Some r :: map (fun r' => if Nat.eqb (List.length r') (List.length r) then Some r' else None) rs
  end.
