(** Specifications for decimals as they are printed, and for sums of decimals.
    Amounts are counted in units of 10^-8, the last place that is printed. *)
From Coq Require Import ZArith NArith List Bool Reals.
From Flocq Require Import Core.
From Verif Require Import Str F64 Amount Posting Entry SpecAmount SpecEntry SpecEnvelope SpecFunding.
Import ListNotations.
Local Open Scope Z_scope.

(** [x] is the float nearest to [z] units. *)
Definition units (x : f64) (z : Z) : Prop := f64_is x (nearest (IZR z / 100000000)).

(** [t] is the decimal of value [v] written out: no superfluous zeros, a minus
    sign only for values below zero. *)
Definition plain_decimal (t : str) (v : R) : Prop :=
  exists neg ip fp,
    t = (if neg : bool then [45%N] else []) ++ ip ++ match fp with [] => [] | _ => 46%N :: fp end
    /\ Forall digit_char ip /\ Forall digit_char fp
    /\ (ip = [48%N] \/ exists c r, ip = c :: r /\ c <> 48%N)
    /\ (fp = [] \/ last fp 48%N <> 48%N)
    /\ (neg = true -> v < 0)%R
    /\ decimal_value neg ip fp = v.

(** [t] is the number [m] with the currency symbol [sym]: short symbols stand
    before it. *)
Definition with_symbol (sym : option str) (m : str) : str :=
  match sym with
  | None => m
  | Some s => if (byte_len s <=? 2)%nat then s ++ m else m ++ 32%N :: s
  end.
(** [t] shows [z] units; numbers that are not negative have a blank for their
    sign. *)
Definition amount_shown (t : str) (z : Z) (sym : option str) : Prop :=
  exists n, plain_decimal n (IZR z / 100000000)
  /\ t = with_symbol sym (if z <? 0 then n else 32%N :: n).
(** The same, except that zero may have a minus sign or lack the blank. *)
Definition total_shown (t : str) (z : Z) (sym : option str) : Prop :=
  amount_shown t z sym
  \/ z = 0 /\ exists n, (n = [48%N] \/ n = [45%N; 48%N])
     /\ (t = with_symbol sym n \/ t = with_symbol sym (32%N :: n)).

(** Every sum of [zs] from the start stays within [m]. *)
Definition sums_within (m : Z) (zs : list Z) : Prop := Forall (fun s => Z.abs s <= m) (partial_sums 0 zs).

(** The posting [p] of [e] is worth exactly [z] units of [sym], a sum of [k]
    written amounts within [m]: its own amount, or what the other postings
    leave. *)
Inductive exact_worth (m : Z) (e : entry) (p : posting) : option str -> Z -> nat -> Prop :=
  | exact_written a z : get_amount p = Some a -> units (mag a) z -> exact_worth m e p (symbol a) z 1
  | exact_inferred sym zs : blank p -> In p (e_postings e) -> written (e_postings e) <> [] ->
      Forall (fun a => symbol a = sym) (written (e_postings e)) ->
      Forall2 (fun a z => units (mag a) z) (written (e_postings e)) zs -> sums_within m zs ->
      exact_worth m e p sym (- Zsum zs) (List.length zs).

(** [zs] are the exact worths in [sym] of the postings [ps], sums of [k] written
    amounts altogether. *)
Inductive exact_worths (m : Z) (sym : option str) : list (entry * posting) -> list Z -> nat -> Prop :=
  | no_worths : exact_worths m sym [] [] 0
  | worths_in e p ps z zs n k : exact_worth m e p sym z n -> exact_worths m sym ps zs k ->
      exact_worths m sym ((e, p) :: ps) (z :: zs) (n + k)
  | worths_out e p ps a zs k : worth e p a -> symbol a <> sym -> exact_worths m sym ps zs k ->
      exact_worths m sym ((e, p) :: ps) zs k.
