(** chrono's [NaiveDate] (chrono 0.4.41, Cargo.lock), as far as silverfox uses
    it: validity, order, day arithmetic, weekdays, and formats. *)
From Coq Require Import ZArith NArith List Bool String.
From Verif Require Import Str F64.
Import ListNotations.
Local Open Scope Z_scope.

Definition leap (y : Z) : bool :=
  (y mod 4 =? 0) && (negb (y mod 100 =? 0) || (y mod 400 =? 0)).

Definition month_len (y m : Z) : Z :=
  match m with
  | 1 => 31 | 2 => if leap y then 29 else 28 | 3 => 31 | 4 => 30
  | 5 => 31 | 6 => 30 | 7 => 31 | 8 => 31
  | 9 => 30 | 10 => 31 | 11 => 30 | 12 => 31
  | _ => 0
  end.

(** chrono's range of years: [NaiveDate::MIN], [NaiveDate::MAX]. *)
Definition min_year : Z := -262143.
Definition max_year : Z := 262142.

Definition valid_ymd (y m d : Z) : bool :=
  (min_year <=? y) && (y <=? max_year) && (1 <=? m) && (m <=? 12)
  && (1 <=? d) && (d <=? month_len y m).

Record date : Set := mkDate {
  year : Z; month : Z; day : Z;
  date_ok : valid_ymd year month day = true }.

(** [NaiveDate::from_ymd_opt], [with_year], [with_day]. *)
Definition from_ymd (y m d : Z) : option date :=
  match bool_dec (valid_ymd y m d) true with
  | left H => Some (mkDate y m d H)
  | right _ => None
  end.
Definition with_year (x : date) (y : Z) : option date := from_ymd y (month x) (day x).
Definition with_day (x : date) (d : Z) : option date := from_ymd (year x) (month x) d.

(** [NaiveDate]'s order. *)
Definition date_compare (x y : date) : comparison :=
  match Z.compare (year x) (year y) with
  | Eq => match Z.compare (month x) (month y) with
          | Eq => Z.compare (day x) (day y)
          | c => c
          end
  | c => c
  end.
Definition date_eqb (x y : date) : bool :=
  match date_compare x y with Eq => true | _ => false end.
Definition date_ltb (x y : date) : bool :=
  match date_compare x y with Lt => true | _ => false end.
Definition date_leb (x y : date) : bool :=
  match date_compare x y with Gt => false | _ => true end.
Definition date_max (x y : date) : date := if date_ltb y x then x else y.

(** Days since 0000-12-31 in the proleptic Gregorian calendar
    ([num_days_from_ce]). *)
Definition days_before_year (y : Z) : Z :=
  let p := y - 1 in 365 * p + p / 4 - p / 100 + p / 400.
Definition days_before_month (y m : Z) : Z :=
  match m with
  | 1 => 0 | 2 => 31 | 3 => 59 | 4 => 90 | 5 => 120 | 6 => 151
  | 7 => 181 | 8 => 212 | 9 => 243 | 10 => 273 | 11 => 304 | 12 => 334
  | _ => 0
  end + (if (2 <? m) && leap y then 1 else 0).
Definition dayn_ymd (y m d : Z) : Z := days_before_year y + days_before_month y m + d.
Definition dayn (x : date) : Z := dayn_ymd (year x) (month x) (day x).

(** The date with a given day number: year by 400/100/4/1-year cycles, month by
    search. *)
Definition year_of_dayn (n : Z) : Z :=
  let n0 := n - 1 in
  let c400 := n0 / 146097 in let r := n0 mod 146097 in
  let c100 := Z.min 3 (r / 36524) in let r := r - c100 * 36524 in
  let c4 := r / 1461 in let r := r mod 1461 in
  let c1 := Z.min 3 (r / 365) in
  400 * c400 + 100 * c100 + 4 * c4 + c1 + 1.
Fixpoint month_of (y r : Z) (ms : list Z) (m : Z) : Z :=
  match ms with
  | [] => m
  | k :: ms' => if days_before_month y k <? r then month_of y r ms' k else m
  end.
Definition of_dayn (n : Z) : option date :=
  let y := year_of_dayn n in
  let r := n - days_before_year y in
  let m := month_of y r [2; 3; 4; 5; 6; 7; 8; 9; 10; 11; 12] 1 in
  from_ymd y m (r - days_before_month y m).

(** [date + Duration::days(n)] ([None]: chrono panics on overflow),
    [pred_opt], [signed_duration_since(..).num_days()]. *)
Definition add_days (x : date) (n : Z) : option date := of_dayn (dayn x + n).
Definition pred_date (x : date) : option date := add_days x (-1).
Definition days_since (x y : date) : Z := dayn x - dayn y.

(** [weekday()], Monday = 0. *)
Inductive weekday : Set := Mon | Tue | Wed | Thu | Fri | Sat | Sun.
Definition weekday_num (w : weekday) : Z :=
  match w with Mon => 0 | Tue => 1 | Wed => 2 | Thu => 3 | Fri => 4 | Sat => 5 | Sun => 6 end.
Definition weekday_of (x : date) : Z := (dayn x - 1) mod 7.

(** [Weekday::from_str]: short or long English name, ASCII case ignored. *)
Definition ascii_lower (c : char) : char :=
  if (65 <=? c)%N && (c <=? 90)%N then (c + 32)%N else c.
Definition weekday_names : list (weekday * (str * str)) :=
  [ (Mon, (lit "mon", lit "monday")); (Tue, (lit "tue", lit "tuesday"));
    (Wed, (lit "wed", lit "wednesday")); (Thu, (lit "thu", lit "thursday"));
    (Fri, (lit "fri", lit "friday")); (Sat, (lit "sat", lit "saturday"));
    (Sun, (lit "sun", lit "sunday")) ].
Definition parse_weekday (s : str) : option weekday :=
  let l := map ascii_lower s in
  option_map fst
    (List.find (fun p => str_eqb l (fst (snd p)) || str_eqb l (snd (snd p))) weekday_names).

(** ** Formats *)
Inductive padding : Set := NoPad | ZeroPad | SpacePad.
Inductive numeric : Set :=
  | NYear | NCentury | NShortYear | NMonth | NDay | NOrdinal | NFromSunday | NFromMonday
  | NIsoYear | NIsoShort | NIsoWeek | NWeekSunday | NWeekMonday | NQuarter.
(** Numbers of the time of day; [KStamp] are seconds since 1970. *)
Inductive clock : Set := KHour | KHour12 | KMinute | KSecond | KNano | KStamp.
(** How an offset from UTC may be written: ["Z"] for none, no minutes, ["UTC"]
    for none. *)
Record zone : Set := mkZone { z_zulu : bool; z_short : bool; z_utc : bool }.
(** The items of a date can be read and written. The items of the time of day
    are read and then not used; a date cannot be written with them. *)
Inductive fitem : Set :=
  | FNum (n : numeric) (p : padding)
  | FMonthName (long : bool) | FWeekdayName (long : bool)
  | FSpace (c : char) | FLit (c : char)
  | FClock (k : clock) | FHalf | FFraction | FDigits (n : nat)
  | FZoneName | FOffset (z : zone) | FBreak
  | FBad.

Definition time_items : list fitem :=
  [FClock KHour; FLit (chr ":"); FClock KMinute; FLit (chr ":"); FClock KSecond].
(** The items of one specifier [%k] ([StrftimeItems::parse_next_item]). *)
Definition spec_items (k : char) : list fitem :=
  let z n := FNum n ZeroPad in
  if N.eqb k (chr "Y") then [z NYear]
  else if N.eqb k (chr "C") then [z NCentury]
  else if N.eqb k (chr "y") then [z NShortYear]
  else if N.eqb k (chr "m") then [z NMonth]
  else if N.eqb k (chr "d") then [z NDay]
  else if N.eqb k (chr "e") then [FNum NDay SpacePad]
  else if N.eqb k (chr "j") then [z NOrdinal]
  else if N.eqb k (chr "w") then [FNum NFromSunday NoPad]
  else if N.eqb k (chr "u") then [FNum NFromMonday NoPad]
  else if N.eqb k (chr "G") then [z NIsoYear]
  else if N.eqb k (chr "g") then [z NIsoShort]
  else if N.eqb k (chr "V") then [z NIsoWeek]
  else if N.eqb k (chr "U") then [z NWeekSunday]
  else if N.eqb k (chr "W") then [z NWeekMonday]
  else if N.eqb k (chr "q") then [FNum NQuarter NoPad]
  else if N.eqb k (chr "b") || N.eqb k (chr "h") then [FMonthName false]
  else if N.eqb k (chr "B") then [FMonthName true]
  else if N.eqb k (chr "a") then [FWeekdayName false]
  else if N.eqb k (chr "A") then [FWeekdayName true]
  else if N.eqb k (chr "D") || N.eqb k (chr "x") then
    [z NMonth; FLit (chr "/"); z NDay; FLit (chr "/"); z NShortYear]
  else if N.eqb k (chr "F") then [z NYear; FLit (chr "-"); z NMonth; FLit (chr "-"); z NDay]
  else if N.eqb k (chr "v") then
    [FNum NDay SpacePad; FLit (chr "-"); FMonthName false; FLit (chr "-"); z NYear]
  else if N.eqb k (chr "n") then [FSpace 10%N]
  else if N.eqb k (chr "t") then [FSpace 9%N]
  else if N.eqb k (chr "%") then [FLit k]
  else if N.eqb k (chr "H") || N.eqb k (chr "k") then [FClock KHour]
  else if N.eqb k (chr "I") || N.eqb k (chr "l") then [FClock KHour12]
  else if N.eqb k (chr "M") then [FClock KMinute]
  else if N.eqb k (chr "S") then [FClock KSecond]
  else if N.eqb k (chr "f") then [FClock KNano]
  else if N.eqb k (chr "s") then [FClock KStamp]
  else if N.eqb k (chr "p") || N.eqb k (chr "P") then [FHalf]
  else if N.eqb k (chr "R") then [FClock KHour; FLit (chr ":"); FClock KMinute]
  else if N.eqb k (chr "T") || N.eqb k (chr "X") then time_items
  else if N.eqb k (chr "r") then
    [FClock KHour12; FLit (chr ":"); FClock KMinute; FLit (chr ":"); FClock KSecond; FSpace 32%N; FHalf]
  else if N.eqb k (chr "c") then
    [FWeekdayName false; FSpace 32%N; FMonthName false; FSpace 32%N; FNum NDay SpacePad; FSpace 32%N]
    ++ time_items ++ [FSpace 32%N; z NYear]
  else if N.eqb k (chr "Z") then [FZoneName]
  else if N.eqb k (chr "z") then [FOffset (mkZone false false false)]
  else if N.eqb k (chr "+") then
    [z NYear; FLit (chr "-"); z NMonth; FLit (chr "-"); z NDay; FBreak] ++ time_items
    ++ [FFraction; FSpace 32%N; FOffset (mkZone true false true)]
  else [FBad].
(** Specifiers of several characters: the first, what follows it; the items and
    how many of the following characters belong to it. *)
Definition wide_spec (k : char) (s : str) : option (list fitem * nat) :=
  if N.eqb k (chr ".") then
    if starts_with (lit "f") s then Some ([FFraction], 1%nat)
    else if starts_with (lit "3f") s || starts_with (lit "6f") s || starts_with (lit "9f") s then Some ([FFraction], 2%nat)
    else None
  else if N.eqb k (chr "3") && starts_with (lit "f") s then Some ([FDigits 3], 1%nat)
  else if N.eqb k (chr "6") && starts_with (lit "f") s then Some ([FDigits 6], 1%nat)
  else if N.eqb k (chr "9") && starts_with (lit "f") s then Some ([FDigits 9], 1%nat)
  else if N.eqb k (chr ":") then
    if starts_with (lit "z") s then Some ([FOffset (mkZone false false false)], 1%nat)
    else if starts_with (lit ":z") s then Some ([FOffset (mkZone false false false)], 2%nat)
    else if starts_with (lit "::z") s then Some ([FOffset (mkZone false false false)], 3%nat)
    else None
  else if N.eqb k (chr "#") && starts_with (lit "z") s then Some ([FOffset (mkZone true true false)], 1%nat)
  else None.
Fixpoint drop (n : nat) (s : str) {struct s} : str :=
  match n with S k => match s with _ :: r => drop k r | [] => s end | O => s end.
(** A padding modifier is allowed for a single number only. *)
Definition pad_of (k : char) : option padding :=
  if N.eqb k (chr "-") then Some NoPad
  else if N.eqb k (chr "0") then Some ZeroPad
  else if N.eqb k (chr "_") then Some SpacePad
  else None.
Definition repad (p : padding) (is : list fitem) : list fitem :=
  match is with [FNum n _] => [FNum n p] | [FClock k] => [FClock k] | _ => [FBad] end.

(** [StrftimeItems::new]; literals and white space are kept one character at a
    time. *)
Fixpoint format_items (s : str) : list fitem :=
  match s with
  | [] => []
  | c :: s' =>
      if N.eqb c (chr "%") then
        match s' with
        | [] => [FBad]
        | k :: s'' =>
            match pad_of k with
            | None =>
                match wide_spec k s'' with
                | Some (is, n) => is ++ format_items (drop n s'')
                | None => spec_items k ++ format_items s''
                end
            | Some p =>
                match s'' with
                | [] => [FBad]
                | k' :: s3 => repad p (spec_items k') ++ format_items s3
                end
            end
        end
      else (if is_ws c then FSpace c else FLit c) :: format_items s'
  end.

(** Left-padding to a width. *)
Definition lpad (c : char) (n : nat) (s : str) : str := repeat c (n - List.length s) ++ s.
Definition zpad (n : nat) (s : str) : str := lpad 48%N n s.

(** [write_n]: a number with padding; with a sign, one more place. *)
Definition write_n (n : nat) (v : Z) (p : padding) (sign : bool) : str :=
  if sign then
    let c := if v <? 0 then chr "-" else chr "+" in
    match p with
    | NoPad => c :: digits (Z.abs v)
    | ZeroPad => c :: zpad n (digits (Z.abs v))
    | SpacePad => lpad 32%N (S n) (c :: digits (Z.abs v))
    end
  else match p with
       | NoPad => digits v
       | ZeroPad => zpad n (digits v)
       | SpacePad => lpad 32%N n (digits v)
       end.
(** [write_two], for a [u8]. *)
Definition write_two (v : Z) (p : padding) : str :=
  (if v / 10 =? 0 then match p with NoPad => [] | ZeroPad => [48%N] | SpacePad => [32%N] end
   else [Z.to_N (48 + v / 10)]) ++ [Z.to_N (48 + v mod 10)].
(** The year: four digits from 0 to 9999, with explicit sign otherwise. *)
Definition show_year (y : Z) (p : padding) : str :=
  if (1000 <=? y) && (y <? 10000) then digits y
  else write_n 4 y p (negb ((0 <=? y) && (y <? 10000))).
(** [ordinal()]: the day of the year. *)
Definition ordinal (x : date) : Z := days_before_month (year x) (month x) + day x.
(** The weekday of the first day of a year, the number of weeks of a year, the
    distance of the day of the year to the ISO week, the ISO week
    ([YearFlags], [IsoWeek::from_yof]). *)
Definition first_weekday (y : Z) : Z := days_before_year y mod 7.
Definition iso_weeks (y : Z) : Z :=
  if (first_weekday y =? 3) || (leap y && (first_weekday y =? 2)) then 53 else 52.
Definition iso_delta (y : Z) : Z := let w := first_weekday y in if w <=? 3 then w + 6 else w - 1.
Definition iso_raw (x : date) : Z := (ordinal x + iso_delta (year x)) / 7.
Definition iso_year (x : date) : Z :=
  if iso_raw x <? 1 then year x - 1
  else if iso_weeks (year x) <? iso_raw x then year x + 1
  else year x.
Definition iso_week (x : date) : Z :=
  if iso_raw x <? 1 then iso_weeks (year x - 1)
  else if iso_weeks (year x) <? iso_raw x then 1
  else iso_raw x.
(** [weeks_from]: weeks begin with the weekday [w]. *)
Definition weeks_from (w : Z) (x : date) : Z := (ordinal x - (weekday_of x - w) mod 7 + 6) / 7.
Definition quarter (x : date) : Z := (month x - 1) / 3 + 1.
Definition show_num (x : date) (n : numeric) (p : padding) : str :=
  match n with
  | NYear => show_year (year x) p
  | NCentury => write_two (year x / 100 mod 256) p
  | NShortYear => write_two (year x mod 100) p
  | NMonth => write_two (month x) p
  | NDay => write_two (day x) p
  | NOrdinal => write_n 3 (ordinal x) p false
  | NFromSunday => [Z.to_N (48 + (weekday_of x + 1) mod 7)]
  | NFromMonday => [Z.to_N (48 + weekday_of x + 1)]
  | NIsoYear => show_year (iso_year x) p
  | NIsoShort => write_two (iso_year x mod 100) p
  | NIsoWeek => write_two (iso_week x) p
  | NWeekSunday => write_two (weeks_from 6 x) p
  | NWeekMonday => write_two (weeks_from 0 x) p
  | NQuarter => [Z.to_N (48 + quarter x)]
  end.

Definition month_names : list str :=
  map lit ["January"; "February"; "March"; "April"; "May"; "June"; "July"; "August";
           "September"; "October"; "November"; "December"]%string.
Definition day_names : list str :=
  map lit ["Monday"; "Tuesday"; "Wednesday"; "Thursday"; "Friday"; "Saturday"; "Sunday"]%string.
Definition show_name (long : bool) (names : list str) (i : Z) : str :=
  let s := nth (Z.to_nat i) names [] in if long then s else firstn 3 s.

Definition show_item (x : date) (i : fitem) : str :=
  match i with
  | FNum n p => show_num x n p
  | FMonthName b => show_name b month_names (month x - 1)
  | FWeekdayName b => show_name b day_names (weekday_of x)
  | FSpace c => [c]
  | FLit c => [c]
  | _ => []
  end.
(** [date.format(fmt).to_string()] where [printable fmt]; it panics otherwise. *)
Definition format_date (fmt : str) (x : date) : str :=
  List.concat (map (show_item x) (format_items fmt)).
Definition date_item (i : fitem) : bool :=
  match i with FNum _ _ | FMonthName _ | FWeekdayName _ | FSpace _ | FLit _ => true | _ => false end.
Definition printable (fmt : str) : bool := forallb date_item (format_items fmt).

(** Up to [max] digits ([scan::number]). *)
Fixpoint take_digits (max : nat) (s : str) : str * str :=
  match max, s with
  | S k, c :: s' => if is_digit c then let '(a, b) := take_digits k s' in (c :: a, b)
                    else ([], s)
  | _, _ => ([], s)
  end.
(** One numeric item: skip white space, then (for the year) an optional sign
    with any number of digits, or at most [width] digits. *)
Definition scan_num (signed : bool) (width : nat) (s : str) : option (Z * str) :=
  let s := trim_start s in
  let go (max : nat) (r : str) :=
    match take_digits max r with
    | ([], _) => None
    | (ds, rest) => if digits_val ds <? 2 ^ 63 then Some (digits_val ds, rest) else None
    end in
  match s with
  | c :: r =>
      if signed && N.eqb c (chr "-") then
        option_map (fun p => (- fst p, snd p)) (go (List.length r) r)
      else if signed && N.eqb c (chr "+") then go (List.length r) r
      else go width s
  | [] => None
  end.
(** [scan::short_month0], [scan::short_or_long_month0] and the same for
    weekdays: the first three letters of a name, and for the long form its
    other letters if they are there; ASCII case ignored. *)
Fixpoint scan_name (long : bool) (names : list str) (i : Z) (s : str) : option (Z * str) :=
  match names with
  | [] => None
  | n :: ns =>
      let l := map ascii_lower in
      if starts_with (l (firstn 3 n)) (l s) then
        let r := skipn 3 s in
        let rest := skipn 3 n in
        Some (i, if long && starts_with (l rest) (l r) then skipn (List.length rest) r else r)
      else scan_name long ns (i + 1) s
  end.

(** [Parsed]: the fields read so far. *)
Inductive field : Set :=
  | AYear | ACentury | AShortYear | AMonth | ADay | AOrdinal | AWeekday
  | AIsoYear | AIsoShort | AIsoWeek | AWeekSunday | AWeekMonday | AQuarter
  | AHalf | AHour | AMinute | ASecond | ANano | AStamp | AOffset.
Definition field_eqb (a b : field) : bool :=
  match a, b with
  | AYear, AYear | ACentury, ACentury | AShortYear, AShortYear | AMonth, AMonth | ADay, ADay
  | AOrdinal, AOrdinal | AWeekday, AWeekday
  | AIsoYear, AIsoYear | AIsoShort, AIsoShort | AIsoWeek, AIsoWeek
  | AWeekSunday, AWeekSunday | AWeekMonday, AWeekMonday | AQuarter, AQuarter
  | AHalf, AHalf | AHour, AHour | AMinute, AMinute | ASecond, ASecond | ANano, ANano
  | AStamp, AStamp | AOffset, AOffset => true
  | _, _ => false
  end.
Definition parsed := field -> option Z.
(** [set_if_consistent]. *)
Definition set_field (p : parsed) (a : field) (v : Z) : option parsed :=
  match p a with
  | None => Some (fun b => if field_eqb a b then Some v else p b)
  | Some w => if v =? w then Some p else None
  end.

(** How a number is read: width, sign, least and greatest value, field, value
    of the field. *)
Record reading : Type := mkReading {
  n_width : nat; n_signed : bool; n_least : Z; n_most : Z; n_field : field; n_value : Z -> Z }.
Definition read_num (n : numeric) : reading :=
  match n with
  | NYear => mkReading 4 true (- 2 ^ 31) (2 ^ 31 - 1) AYear (fun v => v)
  | NCentury => mkReading 2 false 0 (2 ^ 31 - 1) ACentury (fun v => v)
  | NShortYear => mkReading 2 false 0 99 AShortYear (fun v => v)
  | NMonth => mkReading 2 false 1 12 AMonth (fun v => v)
  | NDay => mkReading 2 false 1 31 ADay (fun v => v)
  | NOrdinal => mkReading 3 false 1 366 AOrdinal (fun v => v)
  | NFromSunday => mkReading 1 false 0 6 AWeekday (fun v => (v + 6) mod 7)
  | NFromMonday => mkReading 1 false 1 7 AWeekday (fun v => v - 1)
  | NIsoYear => mkReading 4 true (- 2 ^ 31) (2 ^ 31 - 1) AIsoYear (fun v => v)
  | NIsoShort => mkReading 2 false 0 99 AIsoShort (fun v => v)
  | NIsoWeek => mkReading 2 false 1 53 AIsoWeek (fun v => v)
  | NWeekSunday => mkReading 2 false 0 53 AWeekSunday (fun v => v)
  | NWeekMonday => mkReading 2 false 0 53 AWeekMonday (fun v => v)
  | NQuarter => mkReading 1 false 1 4 AQuarter (fun v => v)
  end.
(** Numbers of the time of day: the fields they set. The seconds since 1970
    have any number of digits. *)
Definition clock_width (k : clock) (s : str) : nat :=
  match k with KNano => 9 | KStamp => List.length s | _ => 2 end.
Definition clock_fields (k : clock) (v : Z) : option (list (field * Z)) :=
  let upto (least most : Z) (l : list (field * Z)) := if (least <=? v) && (v <=? most) then Some l else None in
  match k with
  | KHour => upto 0 23 [(AHalf, v / 12); (AHour, v mod 12)]
  | KHour12 => upto 1 12 [(AHour, v mod 12)]
  | KMinute => upto 0 59 [(AMinute, v)]
  | KSecond => upto 0 60 [(ASecond, v)]
  | KNano => upto 0 999999999 [(ANano, v)]
  | KStamp => Some [(AStamp, v)]
  end.
Fixpoint set_fields (p : parsed) (l : list (field * Z)) : option parsed :=
  match l with
  | [] => Some p
  | (a, v) :: l' => match set_field p a v with Some q => set_fields q l' | None => None end
  end.
Fixpoint skip_while (f : char -> bool) (s : str) : str :=
  match s with c :: r => if f c then skip_while f r else s | [] => [] end.
(** [scan::nanosecond]: at most nine digits are used. *)
Definition scan_fraction (s : str) : option (Z * str) :=
  match take_digits 9 s with
  | ([], _) => None
  | (ds, r) => Some (digits_val ds * 10 ^ Z.of_nat (9 - List.length ds), skip_while is_digit r)
  end.
Definition scan_digits (n : nat) (s : str) : option (Z * str) :=
  let '(ds, r) := take_digits n s in
  if Nat.eqb (List.length ds) n then Some (digits_val ds * 10 ^ Z.of_nat (9 - n), r) else None.
(** [scan::timezone_offset] *)
Definition two_digits (s : str) : option (Z * str) :=
  match s with
  | a :: b :: r => if is_digit a && is_digit b then Some (digits_val [a; b], r) else None
  | _ => None
  end.
Definition offset_sign (s : str) : option (Z * str) :=
  match s with
  | c :: r => if N.eqb c (chr "+") then Some (1, r)
              else if N.eqb c (chr "-") || N.eqb c 8722 then Some (-1, r) else None
  | [] => None
  end.
Definition scan_offset (z : zone) (s : str) : option (Z * str) :=
  let s := trim_start s in
  let first (c : char) (r : str) := match r with a :: _ => N.eqb (ascii_lower a) c | [] => false end in
  if z_utc z && starts_with (lit "utc") (map ascii_lower (firstn 3 s)) then Some (0, skipn 3 s)
  else if z_zulu z && first (chr "z") s then Some (0, skipn 1 s)
  else
    match offset_sign s with
    | None => None
    | Some (sg, s1) =>
        match two_digits s1 with
        | None => None
        | Some (h, s2) =>
            let s3 := skip_while (fun c => N.eqb c (chr ":") || is_ws c) s2 in
            match s3 with
            | [] => if z_short z then Some (sg * (h * 3600), []) else None
            | _ => match two_digits s3 with
                   | Some (m, r) => if m <=? 59 then Some (sg * (h * 3600 + m * 60), r) else None
                   | None => None
                   end
            end
        end
    end.

(** One item ([parse_internal]). *)
Definition parse_item (i : fitem) (s : str) (p : parsed) : option (str * parsed) :=
  let set (a : field) (v : Z) (r : str) := option_map (fun q => (r, q)) (set_field p a v) in
  match i with
  | FNum n _ =>
      let k := read_num n in
      match scan_num (n_signed k) (n_width k) s with
      | Some (v, r) =>
          if (n_least k <=? v) && (v <=? n_most k) then set (n_field k) (n_value k v) r else None
      | None => None
      end
  | FMonthName b => match scan_name b month_names 1 s with Some (v, r) => set AMonth v r | None => None end
  | FWeekdayName b => match scan_name b day_names 0 s with Some (v, r) => set AWeekday v r | None => None end
  | FSpace _ => Some (trim_start s, p)
  | FLit c =>
      match s with
      | a :: r => if N.eqb a c then Some (r, p) else None
      | [] => None
      end
  | FClock k =>
      match scan_num false (clock_width k s) s with
      | Some (v, r) =>
          match clock_fields k v with
          | Some l => option_map (fun q => (r, q)) (set_fields p l)
          | None => None
          end
      | None => None
      end
  | FHalf =>
      match s with
      | a :: b :: r =>
          if N.eqb (ascii_lower b) (chr "m") then
            if N.eqb (ascii_lower a) (chr "a") then set AHalf 0 r
            else if N.eqb (ascii_lower a) (chr "p") then set AHalf 1 r else None
          else None
      | _ => None
      end
  | FFraction =>
      match s with
      | c :: s1 => if N.eqb c (chr ".") then match scan_fraction s1 with Some (v, r) => set ANano v r | None => None end
                   else Some (s, p)
      | [] => Some (s, p)
      end
  | FDigits n => match scan_digits n s with Some (v, r) => set ANano v r | None => None end
  | FZoneName => Some (skip_while (fun c => negb (is_ws c)) s, p)
  | FOffset z => match scan_offset z s with Some (v, r) => set AOffset v r | None => None end
  | FBreak =>
      match s with
      | c :: r => if N.eqb c (chr "T") || N.eqb c (chr "t") || N.eqb c 32 then Some (r, p) else None
      | [] => None
      end
  | FBad => None
  end.
Fixpoint parse_items (is : list fitem) (s : str) (p : parsed) : option parsed :=
  match is with
  | [] => match s with [] => Some p | _ => None end
  | i :: is' => match parse_item i s p with Some (r, q) => parse_items is' r q | None => None end
  end.

(** [Parsed::to_naive_date]: the year from its parts; year, month and day, or
    year and day of the year, or year, week and weekday; the other fields must
    agree. The time of day is not used. *)
Definition agree (o : option Z) (v : Z) : bool := match o with Some w => w =? v | None => true end.
Definition resolve_year (y q r : option Z) : option (option Z) :=
  match y, q, r with
  | y, None, None => Some y
  | Some y, q, r => if (0 <=? y) && agree q (y / 100) && agree r (y mod 100) then Some (Some y) else None
  | None, Some q, Some r => if q * 100 + r <? 2 ^ 31 then Some (Some (q * 100 + r)) else None
  | None, None, Some r => Some (Some (r + (if r <? 70 then 2000 else 1900)))
  | None, Some _, None => None
  end.
Definition year_days (y : Z) : Z := if leap y then 366 else 365.
Definition from_yo (y o : Z) : option date :=
  if (1 <=? o) && (o <=? year_days y) then
    let m := month_of y o [2; 3; 4; 5; 6; 7; 8; 9; 10; 11; 12] 1 in
    from_ymd y m (o - days_before_month y m)
  else None.
(** [resolve_week_date]: the week [n] of the weeks that begin with the weekday
    [w], the weekday [d]. *)
Definition from_week (w y n d : Z) : option date :=
  from_yo y (1 + (w - first_weekday y) mod 7 + (n - 1) * 7 + (d - w) mod 7).
(** [from_isoywd_opt] *)
Definition from_iso (y n d : Z) : option date :=
  if (1 <=? n) && (n <=? iso_weeks y) then
    let o := n * 7 + d - iso_delta y in
    if o <=? 0 then from_yo (y - 1) (o + year_days (y - 1))
    else if o <=? year_days y then from_yo y o
    else from_yo (y + 1) (o - year_days y)
  else None.
(** The parts of years are for positive years only. *)
Definition agree_part (o : option Z) (y v : Z) : bool :=
  match o with Some w => (0 <=? y) && (w =? v) | None => true end.
Definition to_date (p : parsed) : option date :=
  match resolve_year (p AYear) (p ACentury) (p AShortYear), resolve_year (p AIsoYear) None (p AIsoShort) with
  | Some y, Some iy =>
      let iso := match iy, p AIsoWeek, p AWeekday with Some iy, Some n, Some d => from_iso iy n d | _, _, _ => None end in
      let found :=
        match y with
        | None => iso
        | Some y =>
            match p AMonth, p ADay, p AOrdinal, p AWeekSunday, p AWeekMonday, p AWeekday with
            | Some m, Some d, _, _, _, _ => from_ymd y m d
            | _, _, Some o, _, _, _ => from_yo y o
            | _, _, _, Some n, _, Some d => from_week 6 y n d
            | _, _, _, _, Some n, Some d => from_week 0 y n d
            | _, _, _, _, _, _ => iso
            end
        end in
      match found with
      | Some x =>
          if agree (p AYear) (year x) && agree_part (p ACentury) (year x) (year x / 100)
             && agree_part (p AShortYear) (year x) (year x mod 100)
             && agree (p AMonth) (month x) && agree (p ADay) (day x) && agree (p AOrdinal) (ordinal x)
             && agree (p AWeekday) (weekday_of x)
             && agree (p AIsoYear) (iso_year x) && agree_part (p AIsoShort) (iso_year x) (iso_year x mod 100)
             && agree (p AIsoWeek) (iso_week x) && agree (p AWeekSunday) (weeks_from 6 x)
             && agree (p AWeekMonday) (weeks_from 0 x) && agree (p AQuarter) (quarter x)
          then Some x else None
      | None => None
      end
  | _, _ => None
  end.

(** [NaiveDate::parse_from_str(s, fmt).ok()] *)
Definition parse_date (s fmt : str) : option date :=
  match parse_items (format_items fmt) s (fun _ => None) with
  | Some p => to_date p
  | None => None
  end.

(** src/ledger/mod.rs 33: the default date format. *)
Definition default_format : str := lit "%Y/%m/%d".
(** [Display] of [NaiveDate] is the ISO form. *)
Definition iso_format : str := lit "%Y-%m-%d".
