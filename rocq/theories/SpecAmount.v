(** Specifications for amounts, pools, decimal texts and comments, written
    without the functions of the model (only its data types and the float
    operations [+] and [-x]). *)
From Coq Require Import ZArith NArith List Bool Reals String.
From Coq Require Import Floats.SpecFloat.
From Flocq Require Import Core IEEE754.BinarySingleNaN.
From Verif Require Import Str F64 Amount.
Import ListNotations.
Local Open Scope Z_scope.

(** ** Floats as numbers *)

Definition finite (x : f64) : Prop := is_finite_SF (sf x) = true.
Definition real_of (x : f64) : R := SF2R radix2 (sf x).

(** [x] is the finite float of value [v]. *)
Definition f64_is (x : f64) (v : R) : Prop :=
  is_finite_SF (sf x) = true /\ SF2R radix2 (sf x) = v.

(** [x] is [v] rounded to the nearest binary64 number, ties to even; a zero
    result has sign [neg]; overflow gives the infinity of sign [neg]. *)
Definition nearest_f64 (x : f64) (neg : bool) (v : R) : Prop :=
  let r := round radix2 (FLT_exp (-1074) 53) ZnearestE v in
  ((Rabs r < bpow radix2 1024)%R -> f64_is x r /\ sign_SF (sf x) = neg)
  /\ ((bpow radix2 1024 <= Rabs r)%R -> sf x = S754_infinity neg).

(** ** Decimal texts *)

Definition digit_char (c : char) : Prop := (48 <= c <= 57)%N.

(** The number written by a string of digits. *)
Fixpoint number_of (s : str) : Z :=
  match s with
  | [] => 0
  | c :: s' => (Z.of_N c - 48) * 10 ^ Z.of_nat (List.length s') + number_of s'
  end.

(** The value of [ip.fp]. *)
Definition decimal_value (neg : bool) (ip fp : str) : R :=
  ((if neg then -1 else 1)
   * (IZR (number_of (ip ++ fp)) / IZR (10 ^ Z.of_nat (List.length fp))))%R.

(** [t] is [-]ip, [-]ip.fp with the given decimal symbol. *)
Definition spells (dsym : char) (t : str) (neg : bool) (ip fp : str) : Prop :=
  Forall digit_char ip /\ Forall digit_char fp /\ ip ++ fp <> []
  /\ exists body, t = (if neg then 45%N :: body else body)
     /\ ((body = ip /\ fp = []) \/ body = ip ++ dsym :: fp).

(** ** Amount texts *)

(** The text without its pairs of dashes, taken from the left. *)
Fixpoint without_double_dash (s : str) : str :=
  match s with
  | 45%N :: (45%N :: s'') => without_double_dash s''
  | c :: s' => c :: without_double_dash s'
  | [] => []
  end.

Definition blank_char (c : char) : Prop := is_ws c = true.
Definition token (s : str) : Prop := s <> [] /\ Forall (fun c => ~ blank_char c) s.

(** [s] consists of white space and one token [a], or two tokens [a], [b]. *)
Definition one_token (s a : str) : Prop :=
  token a /\ exists w1 w2, Forall blank_char w1 /\ Forall blank_char w2
  /\ s = w1 ++ a ++ w2.
Definition two_tokens (s a b : str) : Prop :=
  token a /\ token b
  /\ exists w1 w2 w3, Forall blank_char w1 /\ Forall blank_char w2 /\ Forall blank_char w3
     /\ w2 <> [] /\ s = w1 ++ a ++ w2 ++ b ++ w3.

(** Characters of a magnitude: digits, dashes and the decimal symbol. *)
Definition mag_char (dsym c : char) : bool :=
  ((48 <=? c) && (c <=? 57) || (c =? dsym) || (c =? 45))%N.
(** Characters of a symbol: the others, except dot and comma. *)
Definition sym_char (dsym c : char) : bool :=
  negb (mag_char dsym c) && negb (c =? 46)%N && negb (c =? 44)%N.

(** The symbol left over from one or two tokens. *)
Definition symbol_of (a b : str) : option str :=
  match a, b with
  | [], [] => None
  | [], _ => Some b
  | _, [] => Some a
  | _, _ => Some (a ++ 32%N :: b)
  end.

(** A decimal symbol that cannot be confused with the rest of a number. *)
Definition proper_dsym (d : char) : Prop := ~ digit_char d /\ d <> 45%N /\ ~ blank_char d.

(** What [Amount::parse] is meant to accept, and with which result. *)
Definition amount_text (s : str) (dsym : char) (m : f64) (sym : option str) : Prop :=
  let s' := without_double_dash s in
  exists neg ip fp,
    nearest_f64 m neg (decimal_value neg ip fp)
    /\ ((exists a, one_token s' a
           /\ spells dsym (filter (mag_char dsym) a) neg ip fp
           /\ sym = symbol_of (filter (sym_char dsym) a) [])
        \/ (exists a b, two_tokens s' a b
           /\ spells dsym (filter (mag_char dsym) a ++ filter (mag_char dsym) b) neg ip fp
           /\ sym = symbol_of (filter (sym_char dsym) a) (filter (sym_char dsym) b))).

(** The same for any decimal symbol, even one that is a digit, a dash or a
    blank: the text is one token, or two with a space between, and every
    decimal symbol in it stands for a dot. *)
Definition clump (s c : str) : Prop :=
  one_token (without_double_dash s) c \/ exists a b, two_tokens (without_double_dash s) a b /\ c = a ++ 32%N :: b.
Definition with_dots (dsym : char) (s : str) : str := map (fun c => if (c =? dsym)%N then 46%N else c) s.
Definition amount_text_any (s : str) (dsym : char) (m : f64) (sym : option str) : Prop :=
  exists c neg ip fp, clump s c
    /\ nearest_f64 m neg (decimal_value neg ip fp)
    /\ spells 46%N (with_dots dsym (filter (mag_char dsym) c)) neg ip fp
    /\ sym = match trim (filter (sym_char dsym) c) with [] => None | t => Some t end.

(** A plain currency symbol: none, or a token without digits, dashes, dots and
    commas. *)
Definition plain_symbol (o : option str) : Prop :=
  match o with
  | None => True
  | Some s => token s
      /\ Forall (fun c => ~ digit_char c /\ c <> 45%N /\ c <> 46%N /\ c <> 44%N) s
  end.

(** [r] is what [m] looks like with 8 decimals: the float nearest to a multiple
    [n / 10^8], where [n] is the integer nearest to [m * 10^8] up to the
    rounding error of one float multiplication. *)
Definition eight_decimals (r m : f64) : Prop :=
  exists n : Z,
    (Rabs (IZR n - SF2R radix2 (sf m) * 100000000)
       <= / 2 + bpow radix2 (-53) * Rabs (SF2R radix2 (sf m) * 100000000) + bpow radix2 (-1022))%R
    /\ f64_is r (round radix2 (FLT_exp (-1074) 53) ZnearestE (IZR n / 100000000)).

(** ** Pools *)

Inductive pool_op : Set := PAdd (a : amount) | PSub (a : amount).

Definition sym_dec (a b : option str) : {a = b} + {a <> b}.
Proof. decide equality. apply (list_eq_dec N.eq_dec). Defined.

(** What an operation contributes to the currency [sym]. *)
Definition contribution (sym : option str) (o : pool_op) : list f64 :=
  match o with
  | PAdd a => if sym_dec (symbol a) sym then [mag a] else []
  | PSub a => if sym_dec (symbol a) sym then [fneg (mag a)] else []
  end.
Definition contributions (sym : option str) (ops : list pool_op) : list f64 :=
  flat_map (contribution sym) ops.

(** The f64 sum from left to right. *)
Definition left_sum (l : list f64) : f64 :=
  match l with [] => fzero | x :: l' => fold_left fadd l' x end.

(** The client program: an empty pool and a sequence of [+=] and [-=]. *)
Definition run_op (p : pool) (o : pool_op) : pool :=
  match o with PAdd a => pool_add p a | PSub a => pool_sub p a end.
Definition run_ops (ops : list pool_op) : pool := fold_left run_op ops [].

Definition op_symbol (o : pool_op) : option str :=
  match o with PAdd a => symbol a | PSub a => symbol a end.

(** The elements of a list in the order of their first occurrence. *)
Fixpoint first_uses (l : list (option str)) : list (option str) :=
  match l with
  | [] => []
  | x :: l' => x :: remove sym_dec x (first_uses l')
  end.

(** Partial sums [x1], [x1+x2], ... *)
Fixpoint partial_sums (acc : Z) (l : list Z) : list Z :=
  match l with [] => [] | x :: l' => (acc + x) :: partial_sums (acc + x) l' end.
Definition Zsum (l : list Z) : Z := fold_right Z.add 0 l.

(** ** Comments *)

(** A comment mark stands at the start of [s]. *)
Definition mark_at (s : str) : Prop :=
  (exists r, s = 59%N :: r) \/ (exists r, s = 47%N :: 47%N :: r).

(** No comment mark stands anywhere in [s]. *)
Definition unmarked (s : str) : Prop := forall a b, s = a ++ b -> ~ mark_at b.
