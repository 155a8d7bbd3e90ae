(** src/amount.rs *)
From Coq Require Import ZArith NArith List Bool String.
From Verif Require Import Base Str F64.
Import ListNotations.

(** src/amount.rs 6-10 *)
Record amount : Set := mkAmount { mag : f64; symbol : option str }.

(** src/amount.rs 408-411 *)
Definition is_mag_char (dsym c : char) : bool :=
  is_digit c || N.eqb c dsym || N.eqb c (chr "-").

(** src/amount.rs 73-76 *)
Definition is_symbol_char (dsym c : char) : bool :=
  negb (is_mag_char dsym c) && negb (N.eqb c (chr ".")) && negb (N.eqb c (chr ",")).

(** src/amount.rs 13-63.  [str::parse::<f64>] on the filtered text is
    [parse_f64]: the text contains only digits, ['-'] and ['.'] then. *)
Definition parse_amount (s : str) (dsym : char) : res amount :=
  let s := replace (lit "--") [] s in
  let finish (clump : str) :=
    let raw_mag := filter (is_mag_char dsym) clump in
    let raw_mag := if N.eqb dsym (chr ".") then raw_mag
                   else replace_char dsym (chr ".") raw_mag in
    match parse_f64 raw_mag with
    | None => Err (EParse (AmountMag s))
    | Some m =>
        let sym := trim (filter (is_symbol_char dsym) clump) in
        Ok (mkAmount m (match sym with [] => None | _ => Some sym end))
    end in
  match split_ws s with
  | [a; b] => finish (join (lit " ") [a; b])
  | [a] => finish a
  | _ => Err (EParse (AmountTokens s))
  end.

(** src/amount.rs 65-71 *)
Definition amount_zero : amount := mkAmount fzero None.

(** src/amount.rs 78-80 *)
Definition rounded_mag (a : amount) : f64 := fdiv (fround (fmul (mag a) f1e8)) f1e8.

(** src/amount.rs 83-103; the [sign_plus] form is not used by silverfox. *)
Definition show_amount (a : amount) : str :=
  let m := if fltb (mag a) fzero then show_f64 (rounded_mag a)
           else chr " " :: show_f64 (rounded_mag a) in
  match symbol a with
  | Some sym => if Nat.leb (byte_len sym) 2 then sym ++ m else m ++ chr " " :: sym
  | None => m
  end.

(** src/amount.rs 105-116 *)
Definition amount_cmp (a b : amount) : res comparison :=
  if ostr_eqb (symbol a) (symbol b) then
    Ok (match fcompare (mag a) (mag b) with Some c => c | None => Eq end)
  else Panic.

(** src/amount.rs 124-128 *)
Definition amount_eqb (a b : amount) : bool :=
  feqb (mag a) (mag b) && ostr_eqb (symbol a) (symbol b).

(** src/amount.rs 181-191 *)
Definition amount_neg (a : amount) : amount := mkAmount (fneg (mag a)) (symbol a).

(** src/amount.rs 132-158, 193-219: [+] and [+=] in their four forms. *)
Definition amount_add (a b : amount) : res amount :=
  if ostr_eqb (symbol a) (symbol b) then
    Ok (mkAmount (fadd (mag a) (mag b)) (symbol a))
  else Panic.

(** src/amount.rs 160-167: [Amount - Amount] negates and adds. *)
Definition amount_sub (a b : amount) : res amount := amount_add a (amount_neg b).

(** src/amount.rs 169-179, 221-247: [-=], and [Amount - &Amount]. *)
Definition amount_sub_assign (a b : amount) : res amount :=
  if ostr_eqb (symbol a) (symbol b) then
    Ok (mkAmount (fsub (mag a) (mag b)) (symbol a))
  else Panic.

(** src/amount.rs 249-254 *)
Definition pool := list amount.

(** The pattern of 285-294 and 304-313: update the first amount with the given
    symbol, or push a new one.  The assertion inside [+=] cannot fail there
    because the symbols were just compared. *)
Fixpoint pool_update (sym : option str) (f : f64 -> f64) (new : amount) (p : pool) : pool :=
  match p with
  | [] => [new]
  | a :: p' =>
      if ostr_eqb (symbol a) sym then mkAmount (f (mag a)) (symbol a) :: p'
      else a :: pool_update sym f new p'
  end.

(** src/amount.rs 256-275, 285-294 *)
Definition pool_add (p : pool) (a : amount) : pool :=
  pool_update (symbol a) (fun m => fadd m (mag a)) a p.

(** src/amount.rs 277-283, 296-302: [pool - amount] adds the negated amount. *)
Definition pool_minus (p : pool) (a : amount) : pool := pool_add p (amount_neg a).

(** src/amount.rs 304-313: [-=] *)
Definition pool_sub (p : pool) (a : amount) : pool :=
  pool_update (symbol a) (fun m => fsub m (mag a)) (amount_neg a) p.

(** src/amount.rs 315-327 *)
Definition pool_add_pool (p q : pool) : pool := fold_left pool_add q p.

(** src/amount.rs 357-363 *)
Definition pool_only (p : pool) (sym : option str) : amount :=
  match List.find (fun a => ostr_eqb (symbol a) sym) p with
  | Some a => a
  | None => amount_zero
  end.

(** src/amount.rs 344-351, 369-383 *)
Definition pool_is_empty (p : pool) : bool := match p with [] => true | _ => false end.
Definition pool_is_zero (p : pool) : bool := forallb (fun a => feqb (mag a) fzero) p.

(** src/amount.rs 392-406 *)
Definition show_pool (p : pool) : str :=
  match p with
  | [] => []
  | [a] => show_amount a
  | _ => List.concat (map (fun a => 10%N :: 9%N :: show_amount a) p)
  end.
