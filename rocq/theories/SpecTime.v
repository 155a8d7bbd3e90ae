(** Specifications for times of day in dates (C109). *)
From Coq Require Import ZArith NArith List Bool String.
From Verif Require Import Base Str Date SpecDate.
Import ListNotations.
Local Open Scope Z_scope.

(** A time of day; the offset from UTC is in minutes. *)
Record time : Set := mkTime {
  t_hour : Z; t_minute : Z; t_second : Z; t_nano : Z; t_stamp : Z; t_offset : Z }.
Definition time_of_day (t : time) : Prop :=
  0 <= t_hour t < 24 /\ 0 <= t_minute t < 60 /\ 0 <= t_second t <= 60 /\ 0 <= t_nano t < 10 ^ 9
  /\ 0 <= t_stamp t < 2 ^ 63 /\ Z.abs (t_offset t) < 6000.

(** A format for reading has pieces of a date and of a time. *)
Inductive tpiece : Set :=
  | TDate (p : piece)
  | TClock (k : clock) | THalf | TFraction | TDigits (n : nat)
  | TZoneName | TOffset (z : zone) | TBreak.
Definition clocks : list (string * clock) :=
  [("H", KHour); ("k", KHour); ("I", KHour12); ("l", KHour12); ("M", KMinute); ("S", KSecond); ("f", KNano);
   ("s", KStamp)]%string.
Definition colon : tpiece := TDate (PText 58%N).
Definition blank : tpiece := TDate (PText 32%N).
Definition hms : list tpiece := [TClock KHour; colon; TClock KMinute; colon; TClock KSecond].
Definition plain_zone : zone := mkZone false false false.
Local Notation "a +++ b" := (@app tpiece a b) (right associativity, at level 60).
Definition time_specs : list (string * list tpiece) :=
  (map (fun p => (fst p, [TClock (snd p)])) clocks ++
   [("p", [THalf]); ("P", [THalf]);
    ("R", [TClock KHour; colon; TClock KMinute]); ("T", hms); ("X", hms);
    ("r", [TClock KHour12; colon; TClock KMinute; colon; TClock KSecond; blank; THalf]);
    ("c", [TDate (PDayName false); blank; TDate (PMonthName false); blank; TDate (PNum NDay SpacePad); blank]
          +++ hms +++ [blank; TDate (PNum NYear ZeroPad)]);
    (".f", [TFraction]); (".3f", [TFraction]); (".6f", [TFraction]); (".9f", [TFraction]);
    ("3f", [TDigits 3]); ("6f", [TDigits 6]); ("9f", [TDigits 9]);
    ("Z", [TZoneName]); ("z", [TOffset plain_zone]); (":z", [TOffset plain_zone]); ("::z", [TOffset plain_zone]);
    (":::z", [TOffset plain_zone]); ("#z", [TOffset (mkZone true true false)]);
    ("+", [TDate (PNum NYear ZeroPad); TDate (PText 45%N); TDate (PNum NMonth ZeroPad); TDate (PText 45%N);
           TDate (PNum NDay ZeroPad); TBreak] +++ hms +++ [TFraction; blank; TOffset (mkZone true false true)])]%string)%list.
Inductive timed : str -> list tpiece -> Prop :=
  | timed_nil : timed [] []
  | timed_text c s ps : c <> 37%N -> timed s ps -> timed (c :: s) (TDate (PText c) :: ps)
  | timed_date k qs s ps : In (k, qs) others -> timed s ps -> timed (lit "%" ++ lit k ++ s) (map TDate qs ++ ps)
  | timed_time k qs s ps : In (k, qs) time_specs -> timed s ps -> timed (lit "%" ++ lit k ++ s) (qs ++ ps)
  | timed_pad f p k n s ps : In (f, p) paddings -> In (k, n) numbers -> timed s ps ->
      timed (lit "%" ++ lit f ++ lit k ++ s) (TDate (PNum n p) :: ps)
  | timed_pad_time f p k n s ps : In (f, p) paddings -> In (k, n) clocks -> timed s ps ->
      timed (lit "%" ++ lit f ++ lit k ++ s) (TClock n :: ps).
Definition dates (ps : list tpiece) : list piece :=
  flat_map (fun q => match q with TDate p => [p] | _ => [] end) ps.

(** How the date [x] and the time [t] may be written. *)
Definition clock_value (t : time) (k : clock) : Z :=
  match k with
  | KHour => t_hour t
  | KHour12 => if t_hour t mod 12 =? 0 then 12 else t_hour t mod 12
  | KMinute => t_minute t
  | KSecond => t_second t
  | KNano => t_nano t
  | KStamp => t_stamp t
  end.
Definition clock_places (k : clock) : nat := match k with KNano => 9 | KStamp => 19 | _ => 2 end.
Definition halves (t : time) : list string :=
  if t_hour t <? 12 then ["am"; "AM"; "Am"; "aM"]%string else ["pm"; "PM"; "Pm"; "pM"]%string.
Definition sign_of (t : time) (c : char) : Prop :=
  (c = 43%N /\ 0 <= t_offset t) \/ (c = 45%N /\ t_offset t <= 0) \/ (c = 8722%N /\ t_offset t <= 0).
Inductive said (x : date) (t : time) : list tpiece -> str -> Prop :=
  | said_nil : said x t [] []
  | said_date p ps s : said x t ps s ->
      match p with
      | PNum n f => (f = ZeroPad \/ ~ starts_digit s)
          /\ match n with NIsoYear | NIsoShort => 0 <= week_year x | _ => True end
      | _ => True
      end ->
      said x t (TDate p :: ps) (piece_shown x p ++ s)
  | said_clock k f ps s : said x t ps s -> (f = ZeroPad /\ k <> KStamp) \/ ~ starts_digit s ->
      said x t (TClock k :: ps) (number_text (clock_places k) f (clock_value t k) ++ s)
  | said_half h ps s : said x t ps s -> In h (halves t) -> said x t (THalf :: ps) (lit h ++ s)
  | said_no_fraction ps s : said x t ps s -> (forall w r, (forall c, In c w -> is_ws c = true) -> s <> w ++ 46%N :: r) ->
      said x t (TFraction :: ps) s
  | said_fraction n ps s : said x t ps s -> (1 <= n <= 9)%nat -> t_nano t mod 10 ^ Z.of_nat (9 - n) = 0 -> ~ starts_digit s ->
      said x t (TFraction :: ps) (46%N :: fixed n (t_nano t / 10 ^ Z.of_nat (9 - n)) ++ s)
  | said_digits n ps s : said x t ps s -> (1 <= n <= 9)%nat -> t_nano t mod 10 ^ Z.of_nat (9 - n) = 0 ->
      said x t (TDigits n :: ps) (fixed n (t_nano t / 10 ^ Z.of_nat (9 - n)) ++ s)
  | said_zone_name name ps s : said x t ps s -> name <> [] -> (forall c, In c name -> is_ws c = false) ->
      match s with c :: _ => is_ws c = true | [] => True end ->
      said x t (TZoneName :: ps) (name ++ s)
  | said_offset z c sep ps s : said x t ps s -> sign_of t c -> sep = [] \/ sep = [58%N] \/ sep = [32%N] ->
      said x t (TOffset z :: ps)
        (c :: fixed 2 (Z.abs (t_offset t) / 60) ++ sep ++ fixed 2 (Z.abs (t_offset t) mod 60) ++ s)
  | said_hours z c : z_short z = true -> sign_of t c -> Z.abs (t_offset t) mod 60 = 0 ->
      said x t [TOffset z] (c :: fixed 2 (Z.abs (t_offset t) / 60))
  | said_zulu z c ps s : said x t ps s -> z_zulu z = true -> c = 90%N \/ c = 122%N -> t_offset t = 0 ->
      said x t (TOffset z :: ps) (c :: s)
  | said_utc z ps s : said x t ps s -> z_utc z = true -> t_offset t = 0 ->
      said x t (TOffset z :: ps) (lit "UTC" ++ s)
  | said_break c ps s : said x t ps s -> c = 84%N \/ c = 116%N -> said x t (TBreak :: ps) (c :: s).
