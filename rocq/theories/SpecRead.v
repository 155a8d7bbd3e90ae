(** Which texts are read as a date (C111). *)
From Coq Require Import ZArith NArith List Bool String.
From Verif Require Import Base Str Date SpecDate SpecTime.
Import ListNotations.
Local Open Scope Z_scope.

Definition white (w : str) : Prop := forall c, In c w -> is_ws c = true.
Definition caseless (a b : str) : Prop := map ascii_lower a = map ascii_lower b.

(** The number [v] of at most [w] digits, before the text [r]: white space,
    digits; with a sign, any number of digits. As many digits as there are
    belong to the number. *)
Inductive number_said (signed : bool) (w : nat) (v : Z) (r : str) : str -> Prop :=
  | said_plain b k : white b -> (1 <= k <= w)%nat -> 0 <= v < 10 ^ Z.of_nat k -> k = w \/ ~ starts_digit r ->
      number_said signed w v r (b ++ fixed k v)
  | said_plus b k : signed = true -> white b -> (1 <= k)%nat -> 0 <= v < 10 ^ Z.of_nat k -> ~ starts_digit r ->
      number_said signed w v r (b ++ 43%N :: fixed k v)
  | said_minus b k : signed = true -> white b -> (1 <= k)%nat -> 0 <= - v < 10 ^ Z.of_nat k -> ~ starts_digit r ->
      number_said signed w v r (b ++ 45%N :: fixed k (- v)).
(** A name, or its first three letters; the whole name if it is there. *)
Inductive name_said (long : bool) (name : string) (r : str) : str -> Prop :=
  | said_whole t : long = true -> caseless t (lit name) -> name_said long name r t
  | said_short t : caseless t (firstn 3 (lit name)) ->
      (long = true -> forall t' r', caseless t' (skipn 3 (lit name)) -> r <> t' ++ r') -> name_said long name r t.

Definition with_sign (n : numeric) : bool := match n with NYear | NIsoYear => true | _ => false end.
(** Parts of negative years are not read. *)
Definition positive (x : date) (n : numeric) : Prop :=
  match n with NCentury | NShortYear => 0 <= year x | NIsoShort => 0 <= week_year x | _ => True end.
(** Least and greatest numbers of the clock. *)
Definition clock_range (k : clock) (v : Z) : Prop :=
  match k with
  | KHour => v < 24 | KHour12 => 1 <= v <= 12 | KMinute => v < 60 | KSecond => v <= 60 | KNano | KStamp => True
  end.
Inductive offset_said (z : zone) : str -> Prop :=
  | offset_utc t : z_utc z = true -> caseless t (lit "utc") -> offset_said z t
  | offset_zulu t : z_zulu z = true -> caseless t (lit "z") -> offset_said z t
  | offset_hours c h sep : z_short z = true -> In c [43; 45; 8722]%N -> 0 <= h < 100 ->
      (forall c, In c sep -> c = 58%N \/ is_ws c = true) -> offset_said z (c :: fixed 2 h ++ sep)
  | offset_minutes c h sep m : In c [43; 45; 8722]%N -> 0 <= h < 100 -> 0 <= m < 60 ->
      (forall c, In c sep -> c = 58%N \/ is_ws c = true) -> offset_said z (c :: fixed 2 h ++ sep ++ fixed 2 m).

(** The text [t], before [r], is a piece of the date [x]. *)
Definition part (x : date) (q : tpiece) (r t : str) : Prop :=
  match q with
  | TDate (PNum n _) => number_said (with_sign n) (number_width n) (number_of x n) r t /\ positive x n
  | TDate (PMonthName b) => name_said b (nth (Z.to_nat (month x - 1)) names_of_months ""%string) r t
  | TDate (PDayName b) => name_said b (nth (Z.to_nat (dayn x mod 7)) names_of_days ""%string) r t
  | TDate (PText c) => if is_ws c then white t else t = [c]
  | TClock k => exists v w, number_said false w v r t /\ clock_range k v
                  /\ (k = KStamp /\ ~ starts_digit r \/ k <> KStamp /\ w = clock_places k)
  | THalf => caseless t (lit "am") \/ caseless t (lit "pm")
  | TFraction => t = [] \/ exists k v, (1 <= k)%nat /\ 0 <= v < 10 ^ Z.of_nat k /\ t = 46%N :: fixed k v /\ ~ starts_digit r
  | TDigits n => exists v, 0 <= v < 10 ^ Z.of_nat n /\ t = fixed n v
  | TZoneName => (forall c, In c t -> is_ws c = false) /\ match r with c :: _ => is_ws c = true | [] => True end
  | TOffset z => exists b o, white b /\ t = b ++ o /\ offset_said z o
  | TBreak => t = [84%N] \/ t = [116%N] \/ t = [32%N]
  end.
(** The text is made of the pieces, and nothing else. *)
Inductive says (x : date) : list tpiece -> str -> Prop :=
  | says_nil : says x [] []
  | says_part q ps t s : part x q s t -> says x ps s -> says x (q :: ps) (t ++ s).
