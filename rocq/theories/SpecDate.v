(** Specifications for dates and date formats. *)
From Coq Require Import ZArith NArith List Bool String.
From Verif Require Import Base Str Date Envelope.
Import ListNotations.
Local Open Scope Z_scope.

(** ** Formats *)

(** A date format is made of numbers, names of months and weekdays, and literal
    characters. *)
Inductive piece : Set :=
  | PNum (n : numeric) (p : padding)
  | PMonthName (long : bool) | PDayName (long : bool)
  | PText (c : char).

(** How pieces are written in a format. *)
Definition numbers : list (string * numeric) :=
  [("Y", NYear); ("C", NCentury); ("y", NShortYear); ("m", NMonth); ("d", NDay); ("e", NDay); ("j", NOrdinal);
   ("w", NFromSunday); ("u", NFromMonday); ("G", NIsoYear); ("g", NIsoShort); ("V", NIsoWeek);
   ("U", NWeekSunday); ("W", NWeekMonday); ("q", NQuarter)]%string.
Definition paddings : list (string * padding) := [("-", NoPad); ("_", SpacePad); ("0", ZeroPad)]%string.
Definition others : list (string * list piece) :=
  [("Y", [PNum NYear ZeroPad]); ("C", [PNum NCentury ZeroPad]); ("y", [PNum NShortYear ZeroPad]);
   ("m", [PNum NMonth ZeroPad]); ("d", [PNum NDay ZeroPad]); ("e", [PNum NDay SpacePad]);
   ("j", [PNum NOrdinal ZeroPad]); ("w", [PNum NFromSunday NoPad]); ("u", [PNum NFromMonday NoPad]);
   ("G", [PNum NIsoYear ZeroPad]); ("g", [PNum NIsoShort ZeroPad]); ("V", [PNum NIsoWeek ZeroPad]);
   ("U", [PNum NWeekSunday ZeroPad]); ("W", [PNum NWeekMonday ZeroPad]); ("q", [PNum NQuarter NoPad]);
   ("b", [PMonthName false]); ("h", [PMonthName false]); ("B", [PMonthName true]);
   ("a", [PDayName false]); ("A", [PDayName true]);
   ("D", [PNum NMonth ZeroPad; PText 47%N; PNum NDay ZeroPad; PText 47%N; PNum NShortYear ZeroPad]);
   ("x", [PNum NMonth ZeroPad; PText 47%N; PNum NDay ZeroPad; PText 47%N; PNum NShortYear ZeroPad]);
   ("F", [PNum NYear ZeroPad; PText 45%N; PNum NMonth ZeroPad; PText 45%N; PNum NDay ZeroPad]);
   ("v", [PNum NDay SpacePad; PText 45%N; PMonthName false; PText 45%N; PNum NYear ZeroPad]);
   ("n", [PText 10%N]); ("t", [PText 9%N]); ("%", [PText 37%N])]%string.
Inductive written : str -> list piece -> Prop :=
  | written_nil : written [] []
  | written_text c s ps : c <> 37%N -> written s ps -> written (c :: s) (PText c :: ps)
  | written_spec k qs s ps : In (k, qs) others -> written s ps -> written (lit "%" ++ lit k ++ s) (qs ++ ps)
  | written_pad f p k n s ps : In (f, p) paddings -> In (k, n) numbers -> written s ps ->
      written (lit "%" ++ lit f ++ lit k ++ s) (PNum n p :: ps).

Definition valid_format (fmt : str) : Prop := exists ps, written fmt ps.

(** Decimal digits of fixed number; leading zeros replaced. *)
Definition dig (n : Z) : char := Z.to_N (48 + n mod 10).
Fixpoint fixed (k : nat) (n : Z) : str :=
  match k with O => [] | S k' => fixed k' (n / 10) ++ [dig n] end.
Fixpoint unzero (by_ : str) (s : str) : str :=
  match s with
  | c :: (_ :: _) as r => if N.eqb c 48 then by_ ++ unzero by_ r else s
  | _ => s
  end.
Definition number_text (w : nat) (p : padding) (v : Z) : str :=
  if v <? 0 then
    let s := fixed w (- v) in
    let t := unzero [] s in
    match p with
    | ZeroPad => 45%N :: s
    | SpacePad => repeat 32%N (w - List.length t) ++ 45%N :: t
    | NoPad => 45%N :: t
    end
  else match p with
       | ZeroPad => fixed w v
       | SpacePad => unzero [32%N] (fixed w v)
       | NoPad => unzero [] (fixed w v)
       end.
(** The number of days since the last day of the year before. *)
Definition day_of_year (x : date) : Z := dayn x - dayn_ymd (year x) 1 1 + 1.
(** The Thursday of the week of [x], from Monday to Sunday. The year of the
    Thursday is the year of the week. *)
Definition thursday (x : date) : Z := dayn x - (dayn x - 1) mod 7 + 3.
Definition week_year (x : date) : Z :=
  if thursday x <? dayn_ymd (year x) 1 1 then year x - 1
  else if thursday x <? dayn_ymd (year x + 1) 1 1 then year x
  else year x + 1.
Definition number_width (n : numeric) : nat :=
  match n with NYear | NIsoYear => 4 | NOrdinal => 3 | NFromSunday | NFromMonday | NQuarter => 1 | _ => 2 end.
Definition number_of (x : date) (n : numeric) : Z :=
  match n with
  | NYear => year x
  | NCentury => year x / 100
  | NShortYear => year x mod 100
  | NMonth => month x
  | NDay => day x
  | NOrdinal => day_of_year x
  | NFromSunday => dayn x mod 7
  | NFromMonday => (dayn x - 1) mod 7 + 1
  | NIsoYear => week_year x
  | NIsoShort => week_year x mod 100
  | NIsoWeek => (thursday x - dayn_ymd (week_year x) 1 1) / 7 + 1  (* the Thursdays of the year so far *)
  | NWeekSunday => dayn x / 7 - (dayn_ymd (year x) 1 1 - 1) / 7     (* the Sundays of the year so far *)
  | NWeekMonday => (dayn x - 1) / 7 - (dayn_ymd (year x) 1 1 - 2) / 7   (* the Mondays of the year so far *)
  | NQuarter => (month x + 2) / 3
  end.
Definition names_of_months : list string :=
  ["January"; "February"; "March"; "April"; "May"; "June"; "July"; "August";
   "September"; "October"; "November"; "December"]%string.
Definition names_of_days : list string :=
  ["Sunday"; "Monday"; "Tuesday"; "Wednesday"; "Thursday"; "Friday"; "Saturday"]%string.
Definition name_text (long : bool) (s : string) : str :=
  let l := lit s in if long then l else firstn 3 l.
Definition piece_shown (x : date) (p : piece) : str :=
  match p with
  | PNum n f => number_text (number_width n) f (number_of x n)
  | PMonthName b => name_text b (nth (Z.to_nat (month x - 1)) names_of_months ""%string)
  | PDayName b => name_text b (nth (Z.to_nat (dayn x mod 7)) names_of_days ""%string)
  | PText c => [c]
  end.
Definition date_text (ps : list piece) (x : date) : str := flat_map (piece_shown x) ps.

(** A number without leading zeros is not followed by a digit, and the year of
    a week is not negative. *)
Definition starts_digit (s : str) : Prop := match s with c :: _ => (48 <= c <= 57)%N | [] => False end.
Fixpoint apart (ps : list piece) (x : date) : Prop :=
  match ps with
  | [] => True
  | PNum n p :: ps' =>
      (p = ZeroPad \/ ~ starts_digit (date_text ps' x))
      /\ match n with NIsoYear | NIsoShort => 0 <= week_year x | _ => True end
      /\ apart ps' x
  | _ :: ps' => apart ps' x
  end.
(** The pieces tell the month and the day, or the day of the year, or the week
    and the weekday. *)
Definition has (ps : list piece) (n : numeric) : Prop := exists p, In (PNum n p) ps.
Definition tells_weekday (ps : list piece) : Prop :=
  has ps NFromSunday \/ has ps NFromMonday \/ exists b, In (PDayName b) ps.
Definition tells_day (ps : list piece) : Prop :=
  ((has ps NMonth \/ exists b, In (PMonthName b) ps) /\ has ps NDay)
  \/ has ps NOrdinal
  \/ ((has ps NWeekSunday \/ has ps NWeekMonday) /\ tells_weekday ps).
(** The pieces tell the year; two digits alone mean a year from 1970 to 2069. *)
Definition tells_year (ps : list piece) (x : date) : Prop :=
  has ps NYear \/ (has ps NShortYear /\ (has ps NCentury \/ 1970 <= year x < 2070)).
(** The pieces tell the week of the ISO calendar and the weekday, and nothing
    wrong about the year. *)
Definition tells_week (ps : list piece) (x : date) : Prop :=
  (has ps NIsoYear \/ (has ps NIsoShort /\ 1970 <= week_year x < 2070))
  /\ has ps NIsoWeek /\ tells_weekday ps
  /\ (has ps NCentury \/ has ps NShortYear -> tells_year ps x).
(** The year is told by two digits alone, and nothing else but month, quarter
    and day is told. *)
Definition only_short (ps : list piece) : Prop :=
  forall q, In q ps -> match q with
    | PNum NShortYear _ | PNum NMonth _ | PNum NDay _ | PNum NQuarter _ | PMonthName _ | PText _ => True
    | _ => False
    end.
Definition pattern (fmt : str) (ps : list piece) (x : date) : Prop :=
  written fmt ps /\ apart ps x /\ ((tells_day ps /\ tells_year ps x) \/ tells_week ps x).

(** ** The calendar *)

(** The order of dates. *)
Definition earlier (x y : date) : Prop :=
  year x < year y
  \/ (year x = year y /\ (month x < month y \/ (month x = month y /\ day x < day y))).
Definition not_later (x y : date) : Prop := x = y \/ earlier x y.

(** The Gregorian rule. *)
Definition leap_year (y : Z) : Prop := ((4 | y) /\ ~ (100 | y)) \/ (400 | y).

(** [y] is the day after [x]. *)
Definition tomorrow (x y : date) : Prop :=
  (year y = year x /\ month y = month x /\ day y = day x + 1)
  \/ (year y = year x /\ month y = month x + 1 /\ day y = 1 /\ day x = month_len (year x) (month x))
  \/ (year y = year x + 1 /\ month y = 1 /\ day y = 1 /\ month x = 12 /\ day x = 31).
(** [y] is [n] days after [x]. *)
Fixpoint days_later (n : nat) (x y : date) : Prop :=
  match n with
  | O => x = y
  | S k => exists z, days_later k x z /\ tomorrow z y
  end.

(** ** Due dates *)

(** The earliest date satisfying [P]. *)
Definition earliest (P : date -> Prop) (d : date) : Prop :=
  P d /\ forall d', P d' -> not_later d d'.
Definition latest (P : date -> Prop) (d : date) : Prop :=
  P d /\ forall d', P d' -> not_later d' d.

(** Due day of a month for [every <n>th]. *)
Definition due_day (n y m : Z) : Z :=
  if (1 <=? n) && (n <=? month_len y m) then n else month_len y m.

(** [x] is one of D, D + 14 days, D + 28 days, ... *)
Definition fortnight (start x : date) : Prop := exists k, days_later (14 * k) start x.

(** [x] is the [k]-th date of the two-month sequence from D. *)
Definition every_other_month (start x : date) : Prop :=
  exists k : nat,
    12 * year x + month x = 12 * year start + month start + 2 * Z.of_nat k
    /\ day x = Z.min (day start) (month_len (year x) (month x)).

(** [x] is D or an anniversary of it. *)
Definition anniversary (start x : date) : Prop :=
  year start <= year x /\ month x = month start /\ day x = day start.

(** [y] is the same day, [k] months after [x]. *)
Definition months_later (k : Z) (x y : date) : Prop :=
  12 * year y + month y = 12 * year x + month x + k /\ day y = day x.

(** [l] is one period of [f] before [n]. *)
Definition one_period (f : frequency) (l n : date) : Prop :=
  match f with
  | Weekly _ => days_later 7 l n
  | Biweekly _ => days_later 14 l n
  | Monthly _ => months_later 1 l n
  | Bimonthly _ => months_later 2 l n
  | Annually _ => months_later 12 l n
  | _ => False
  end.
Definition started (today : date) (f : frequency) : Prop :=
  match f with
  | Biweekly d | Bimonthly d | Annually d => not_later d today
  | _ => True
  end.
