(** Rust's [f64]: IEEE-754 binary64, on top of the executable specification of
    floats in Coq's standard library ([SpecFloat], plain Gallina, no axioms).

    Simplifications: there is a single NaN (sign and payload are not
    modelled). *)
From Coq Require Import ZArith NArith List Bool String.
From Coq Require Import Floats.SpecFloat.
From Verif Require Import Str.
Import ListNotations.
Local Open Scope Z_scope.

Definition prec : Z := 53.
Definition emax : Z := 1024.

Record f64 : Set := mkF64 {
  sf : spec_float;
  sf_ok : valid_binary prec emax sf = true }.

Definition fnan : f64 := mkF64 S754_nan eq_refl.
Definition fzero : f64 := mkF64 (S754_zero false) eq_refl.

(** All operations below produce canonical floats (lemma [fmk_sf] in
    F64Facts.v); the check only makes that evident to the type checker. *)
Definition fmk (s : spec_float) : f64 :=
  match bool_dec (valid_binary prec emax s) true with
  | left H => mkF64 s H
  | right _ => fnan
  end.

(** [+], [-], [*], [/], unary [-], [abs]. *)
Definition fadd (x y : f64) : f64 := fmk (SFadd prec emax (sf x) (sf y)).
Definition fsub (x y : f64) : f64 := fmk (SFsub prec emax (sf x) (sf y)).
Definition fmul (x y : f64) : f64 := fmk (SFmul prec emax (sf x) (sf y)).
Definition fdiv (x y : f64) : f64 := fmk (SFdiv prec emax (sf x) (sf y)).
Definition fneg (x : f64) : f64 := fmk (SFopp (sf x)).
Definition fabs (x : f64) : f64 := fmk (SFabs (sf x)).

(** [partial_cmp], [==], [<], [<=], [is_nan]. *)
Definition fcompare (x y : f64) : option comparison := SFcompare (sf x) (sf y).
Definition feqb (x y : f64) : bool := SFeqb (sf x) (sf y).
Definition fltb (x y : f64) : bool := SFltb (sf x) (sf y).
Definition fleb (x y : f64) : bool := SFleb (sf x) (sf y).
Definition fis_nan (x : f64) : bool :=
  match sf x with S754_nan => true | _ => false end.

(** [f64::max], [f64::min]: a NaN argument is ignored.  Rust leaves the sign
    of the result open when the arguments are zeros of different sign; the
    model returns the first argument then. *)
Definition fmax (x y : f64) : f64 :=
  if fis_nan x then y else if fis_nan y then x else if fltb x y then y else x.
Definition fmin (x y : f64) : f64 :=
  if fis_nan x then y else if fis_nan y then x else if fltb y x then y else x.

(** [n as f64] for an integer [n]. *)
Definition fofZ (n : Z) : f64 := fmk (binary_normalize prec emax n 0 false).

(** The integer nearest to [m * 2^e], halves rounded up. *)
Definition round_half_up (m e : Z) : Z :=
  if 0 <=? e then m * 2 ^ e else (2 * m + 2 ^ (- e)) / (2 * 2 ^ (- e)).

(** [f64::round]: to the nearest integer, halves away from zero. *)
Definition fround (x : f64) : f64 :=
  match sf x with
  | S754_finite s m e =>
      let n := round_half_up (Zpos m) e in
      fmk (binary_normalize prec emax (if s then - n else n) 0 s)
  | _ => x
  end.

(** [x as usize] (64 bit): truncation towards zero, saturating, NaN to 0. *)
Definition fto_usize (x : f64) : Z :=
  match sf x with
  | S754_finite false m e =>
      Z.min (2 ^ 64 - 1) (if 0 <=? e then Zpos m * 2 ^ e else Zpos m / 2 ^ (- e))
  | S754_infinity false => 2 ^ 64 - 1
  | _ => 0
  end.

(** ** Reading decimals: [str::parse::<f64>]

    Rust guarantees the correctly rounded result (nearest, ties to even,
    overflow to infinity).  The value [n / 10^k] is computed by the float
    division of the standard library on unbounded integers, which rounds
    once. *)
Definition fofdec (neg : bool) (n : Z) (k : nat) : f64 :=
  match n with
  | Zpos _ =>
      let '(q, e, l) := SFdiv_core_binary prec emax n 0 (10 ^ Z.of_nat k) 0 in
      fmk (binary_round_aux prec emax neg q e l)
  | _ => fmk (S754_zero neg)
  end.

Definition digit_val (c : char) : Z := Z.of_N c - 48.
Definition digits_val (s : str) : Z :=
  fold_left (fun n c => 10 * n + digit_val c) s 0.

(** The longest prefix of digits, and the rest. *)
Fixpoint span_digits (s : str) : str * str :=
  match s with
  | c :: s' => if is_digit c then let '(a, b) := span_digits s' in (c :: a, b)
               else ([], s)
  | [] => ([], [])
  end.

(** Grammar of [f64::from_str] restricted to texts made of digits, ['-'] and
    ['.'], the only ones the code passes to it (src/amount.rs 32-41):
    an optional ['-'], then [D+], [D+.D*] or [.D+]. *)
Definition parse_unsigned (neg : bool) (s : str) : option f64 :=
  let '(ip, r) := span_digits s in
  match r with
  | [] => match ip with
          | [] => None
          | _ => Some (fofdec neg (digits_val ip) 0)
          end
  | c :: r' =>
      if N.eqb c (chr ".") then
        let '(fp, r'') := span_digits r' in
        match r'' with
        | [] => match ip ++ fp with
                | [] => None
                | ds => Some (fofdec neg (digits_val ds) (List.length fp))
                end
        | _ => None
        end
      else None
  end.
Definition parse_f64 (s : str) : option f64 :=
  match s with
  | c :: s' => if N.eqb c (chr "-") then parse_unsigned true s' else parse_unsigned false s
  | [] => None
  end.

(** ** Printing: [format!("{}", x)]

    Rust prints the shortest decimal that reads back as [x] (the closest one
    among the shortest), without exponent. *)
Fixpoint digits_aux (fuel : nat) (n : Z) (acc : str) : str :=
  match fuel with
  | O => acc
  | S f => let acc' := Z.to_N (48 + n mod 10) :: acc in
           if n <? 10 then acc' else digits_aux f (n / 10) acc'
  end.
(** Decimal digits of a non-negative integer, no leading zero. *)
Definition digits (n : Z) : str := digits_aux (S (Z.to_nat (Z.log2 n))) n [].

Fixpoint strip_zeros (s : str) : str :=
  match s with
  | [] => []
  | c :: s' => match strip_zeros s' with
               | [] => if N.eqb c 48 then [] else [c]
               | t => c :: t
               end
  end.

(** The decimal [n / 10^k] written out, without superfluous zeros. *)
Definition show_dec (n : Z) (k : nat) : str :=
  let ds := digits n in
  let ds := repeat 48%N (S k - List.length ds) ++ ds in
  let i := (List.length ds - k)%nat in
  match strip_zeros (skipn i ds) with
  | [] => firstn i ds
  | fp => firstn i ds ++ chr "." :: fp
  end.

(** [q * 10^p] written out. *)
Definition show_scaled (q p : Z) : str :=
  if 0 <=? p then show_dec (q * 10 ^ p) 0 else show_dec q (Z.to_nat (- p)).

(** Candidates with [n] significant digits for the value [d / 10^k], where [d]
    has [l] digits: the nearest one (halves up), then the other neighbour. *)
Definition candidates (d : Z) (k l n : Z) : list str :=
  let u := 10 ^ (l - n) in
  let q := d / u in
  let r := d - q * u in
  let p := l - n - k in
  if 2 * r <? u then [show_scaled q p; show_scaled (q + 1) p]
  else [show_scaled (q + 1) p; show_scaled q p].

Definition reads_as (x : spec_float) (s : str) : bool :=
  match parse_unsigned false s with
  | Some y => SFeqb (sf y) x
  | None => false
  end.

Fixpoint shortest (x : spec_float) (d k l : Z) (fuel : nat) (n : Z) : str :=
  match fuel with
  | O => show_dec d (Z.to_nat k)
  | S f =>
      if l <=? n then show_dec d (Z.to_nat k)
      else match List.find (reads_as x) (candidates d k l n) with
           | Some s => s
           | None => shortest x d k l f (n + 1)
           end
  end.

Definition show_pos (m : positive) (e : Z) : str :=
  let '(d, k) := if 0 <=? e then (Zpos m * 2 ^ e, 0) else (Zpos m * 5 ^ (- e), - e) in
  shortest (S754_finite false m e) d k (Z.of_nat (List.length (digits d))) 17 1.

Definition show_f64 (x : f64) : str :=
  match sf x with
  | S754_zero false => lit "0"
  | S754_zero true => lit "-0"
  | S754_infinity false => lit "inf"
  | S754_infinity true => lit "-inf"
  | S754_nan => lit "NaN"
  | S754_finite false m e => show_pos m e
  | S754_finite true m e => chr "-" :: show_pos m e
  end.

(** Numeric literal of the code. *)
Definition f1e8 : f64 := fofZ 100000000.
