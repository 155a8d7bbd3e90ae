(** src/envelope.rs.  [Local::now().date_naive()] is the parameter [today];
    the model assumes that it does not change during one run. *)
From Coq Require Import ZArith NArith List Bool String.
From Verif Require Import Base Str F64 Date Amount Posting Entry.
Import ListNotations.
Local Open Scope Z_scope.

(** src/envelope.rs 71-75, 93-98, 114-126 *)
Inductive envtype : Set := Expense | Goal.
Inductive funding : Set := Manual | Conservative | Aggressive.
Inductive frequency : Set :=
  | Never
  | Once (d : date)
  | Weekly (w : weekday)
  | Biweekly (d : date)
  | Monthly (n : Z)
  | Bimonthly (d : date)
  | Annually (d : date).

(** src/envelope.rs 14-35 *)
Record envelope : Set := mkEnvelope {
  v_name : str;
  v_amount : amount;
  v_type : envtype;
  v_auto : list str;
  v_freq : frequency;
  v_funding : funding;
  v_starting : option date;
  v_next : amount;
  v_now : amount;
  v_account : str;
  v_last : date }.

(** src/envelope.rs 78-90 *)
Definition parse_envtype (s : str) : res envtype :=
  if str_eqb s (lit "expense") then Ok Expense
  else if str_eqb s (lit "goal") then Ok Goal
  else Err (EParse (UnknownType s)).

(** src/envelope.rs 101-111 *)
Definition parse_funding (s : str) : res funding :=
  let t := trim s in
  if str_eqb t (lit "manual") then Ok Manual
  else if str_eqb t (lit "aggressive") then Ok Aggressive
  else if str_eqb t (lit "conservative") then Ok Conservative
  else Err (EParse (UnknownFunding s)).

(** src/envelope.rs 200-205: all digits of the text, as a [u32]. *)
Definition parse_day_of_month (s : str) : option Z :=
  match filter is_digit s with
  | [] => None
  | ds => if digits_val ds <? 2 ^ 32 then Some (digits_val ds) else None
  end.

(** src/envelope.rs 129-190 *)
Definition parse_frequency (s fmt : str) (starting : option date) : res frequency :=
  match strip_prefix (lit "every other ") s with
  | Some what =>
      match starting with
      | None => Err (EParse (OtherNoStarting s))
      | Some d =>
          match parse_weekday what with
          | Some _ => Ok (Biweekly d)
          | None =>
              match parse_day_of_month what with
              | Some _ => Ok (Bimonthly d)
              | None => Err (EParse (UnknownFrequency s))
              end
          end
      end
  | None =>
      match strip_prefix (lit "every ") s with
      | Some what =>
          match parse_weekday what with
          | Some w => Ok (Weekly w)
          | None =>
              match parse_day_of_month what with
              | Some n => Ok (Monthly n)
              | None =>
                  if str_eqb what (lit "year") then
                    match starting with
                    | Some d => Ok (Annually d)
                    | None => Err (EParse (YearNoStarting s))
                    end
                  else Err (EParse (UnknownFrequency s))
              end
          end
      | None =>
          match parse_date s fmt with
          | Some d => Ok (Once d)
          | None => Err (EParse (DueDate s fmt))
          end
      end
  end.

(** src/envelope.rs 315-321 *)
Definition last_date_of_month (d : date) : res date :=
  let! x := match from_ymd (year d) (month d + 1) 1 with
            | Some x => Ok x
            | None => unwrap (from_ymd (year d + 1) 1 1)
            end in
  unwrap (pred_date x).

(** src/envelope.rs 323-354 *)
Definition next_by_day_of_month (today : date) (n : Z) : res date :=
  let! last_this := last_date_of_month today in
  let due := match with_day today n with Some d => d | None => last_this end in
  if date_ltb today due then Ok due
  else
    let next_month := ((month today - 1 + 2) mod 12) + 1 in
    let! x := match from_ymd (year today) (month today + 2) 1 with
              | Some x => Ok x
              | None => unwrap (from_ymd (year today + 1) next_month 1)
              end in
    let! last_next := unwrap (pred_date x) in
    Ok (match with_day last_next n with Some d => d | None => last_next end).

(** src/envelope.rs 285-300: one round of the loop. *)
Definition bimonthly_step (day_of_month : Z) (d : date) : res date :=
  let m2 := month d - 1 + 2 in
  let new_year := year d + m2 / 12 in
  let new_month := m2 mod 12 + 1 in
  match from_ymd new_year new_month day_of_month with
  | Some x => Ok x
  | None => let! x := unwrap (from_ymd new_year new_month 1) in last_date_of_month x
  end.
Fixpoint bimonthly_loop (fuel : nat) (today : date) (day_of_month : Z) (d : date) : res date :=
  if date_ltb d today then
    match fuel with
    | O => Loop
    | S f => let! d' := bimonthly_step day_of_month d in
             bimonthly_loop f today day_of_month d'
    end
  else Ok d.

(** src/envelope.rs 255-264: the loop over weekdays, at most six steps. *)
Fixpoint weekly_loop (fuel : nat) (w : weekday) (d : date) : res date :=
  if weekday_of d =? weekday_num w then Ok d
  else match fuel with
       | O => Loop
       | S f => let! d' := unwrap (add_days d 1) in weekly_loop f w d'
       end.

(** src/envelope.rs 244-313 (get_next_due_date).  [None] is "no due date".
    The fuel of the bimonthly loop is the number of two-month steps that fit
    between the years; lemma: it never runs out. *)
Definition freq_next (today : date) (f : frequency) : res (option date) :=
  match f with
  | Never => Ok None
  | Once d => Ok (if date_leb d today then None else Some d)
  | Weekly w =>
      let! t := unwrap (add_days today 1) in
      let! d := weekly_loop 6 w t in Ok (Some d)
  | Biweekly start =>
      let passed := days_since today start in
      let periods := Z.quot (Z.quot passed 7) 2 in
      let! d := unwrap (add_days start (7 * ((periods + 1) * 2))) in Ok (Some d)
  | Monthly n => let! d := next_by_day_of_month today n in Ok (Some d)
  | Bimonthly start =>
      if date_ltb today start then Ok (Some start)
      else
        let! d := bimonthly_loop (Z.to_nat (6 * (year today - year start) + 7))
                    today (day start) start in
        Ok (Some d)
  | Annually start =>
      if date_ltb today start then Ok (Some start)
      else Ok (with_year start (year start + 1))
  end.

(** src/envelope.rs 228-240: the [while] adds twelve months at a time. *)
Definition subtract_months (d : date) (num : Z) : res date :=
  let m0 := month d - 1 - num in
  let new_year := year d + m0 / 12 in
  unwrap (from_ymd new_year (m0 mod 12 + 1) (day d)).

(** src/envelope.rs 207-226 *)
Definition freq_last (today : date) (f : frequency) : res (option date) :=
  let! next := freq_next today f in
  match next with
  | Some n =>
      match f with
      | Weekly _ => let! d := unwrap (add_days n (-7)) in Ok (Some d)
      | Biweekly _ => let! d := unwrap (add_days n (-14)) in Ok (Some d)
      | Monthly _ => let! d := subtract_months n 1 in Ok (Some d)
      | Bimonthly _ => let! d := subtract_months n 2 in Ok (Some d)
      | Annually start => let! d := unwrap (with_year start (year start - 1)) in Ok (Some d)
      | _ => Ok None
      end
  | None =>
      match f with
      | Once d => Ok (Some d)
      | Never => Ok None
      | _ => Panic
      end
  end.

(** src/envelope.rs 862-876 (Envelope::get_next_due_date) *)
Definition env_next_due (today : date) (v : envelope) : res (option date) :=
  let! n := freq_next today (v_freq v) in
  match v_starting v with
  | None => Ok n
  | Some s => Ok (match n with None => Some s | Some d => Some (date_max s d) end)
  end.

(** src/envelope.rs 37-55 *)
Definition env_cmp (today : date) (v w : envelope) : res comparison :=
  let! a := env_next_due today v in
  let! b := env_next_due today w in
  Ok (match a, b with
      | None, Some _ => Gt
      | None, None => Eq
      | Some _, None => Lt
      | Some x, Some y => date_compare x y
      end).

(** ** Parsing *)

(** The text after the last occurrence of [p] ([rfind], then a slice). *)
Fixpoint after_last (p s : str) : option str :=
  match s with
  | [] => None
  | _ :: s' => match after_last p s' with
               | Some r => Some r
               | None => strip_prefix p s
               end
  end.
(** The text before and after the first occurrence of [p] ([find]). *)
Fixpoint split_first (p s : str) : option (str * str) :=
  match strip_prefix p s with
  | Some r => Some ([], r)
  | None => match s with
            | [] => None
            | c :: s' => match split_first p s' with
                         | Some (a, b) => Some (c :: a, b)
                         | None => None
                         end
            end
  end.

(** src/envelope.rs 539-564 *)
Definition extract_frequency (header fmt : str) (starting : option date) : res frequency :=
  let h := remove_comments header in
  if contains (lit "no date") h then Ok Never
  else match after_last (lit " by ") h with
       | Some r => parse_frequency r fmt starting
       | None =>
           match after_last (lit " due ") h with
           | Some r => parse_frequency r fmt starting
           | None => Err (EParse (NoDueDate h))
           end
       end.

(** src/envelope.rs 568-593: the date, and the text before the clause. *)
Definition extract_starting (s fmt : str) : res (option (date * str)) :=
  match split_first (lit " starting ") s with
  | None => Ok None
  | Some (before, rest) =>
      match parse_date rest fmt with
      | Some d => Ok (Some (d, before))
      | None => Err (EParse (StartingDate s fmt))
      end
  end.

(** src/envelope.rs 441 *)
Definition epoch : date := mkDate 0 1 1 eq_refl.

(** src/envelope.rs 395-444 *)
Definition envelope_header (header fmt account : str) : res envelope :=
  match split_ws (remove_comments header) with
  | t0 :: t1 :: _ =>
      let! ty := parse_envtype t0 in
      let! st := extract_starting header fmt in
      let starting := option_map fst st in
      let header := match st with Some (_, before) => before | None => header end in
      let! fr := extract_frequency header fmt starting in
      Ok (mkEnvelope t1 amount_zero ty [] fr Manual starting amount_zero amount_zero
            account epoch)
  | _ => Err (EParse (EnvelopeBlank header))
  end.

Definition set_env_amount (v : envelope) (a : amount) : envelope :=
  mkEnvelope (v_name v) a (v_type v) (v_auto v) (v_freq v) (v_funding v) (v_starting v)
    (mkAmount (mag (v_next v)) (symbol a)) (mkAmount (mag (v_now v)) (symbol a))
    (v_account v) (v_last v).
Definition set_env_funding (v : envelope) (f : funding) : envelope :=
  mkEnvelope (v_name v) (v_amount v) (v_type v) (v_auto v) (v_freq v) f (v_starting v)
    (v_next v) (v_now v) (v_account v) (v_last v).
Definition add_env_auto (v : envelope) (s : str) : envelope :=
  mkEnvelope (v_name v) (v_amount v) (v_type v) (set_insert s (v_auto v)) (v_freq v)
    (v_funding v) (v_starting v) (v_next v) (v_now v) (v_account v) (v_last v).

(** src/envelope.rs 446-511 and 513-537: one line of the body.  [line_split[0]]
    panics on a blank line. *)
Definition add_body_line (dsym : char) (v : envelope) (line : str) : res envelope :=
  let t := trim (remove_comments line) in
  match split_ws t with
  | [] => Panic
  | key :: more =>
      match find_char (chr " ") t with
      | None => Err (EParse (PropertyBlank key (v_name v) (v_account v)))
      | Some idx =>
          let value := skipn idx t in
          match more with
          | [] => Ok v
          | _ =>
              if str_eqb key (lit "for") then
                match split_ws value with
                | [_] => Ok (add_env_auto v (trim value))
                | [] => Err (EParse (ForBlank value))
                | _ => Err (EParse (ForSpaces value))
                end
              else if str_eqb key (lit "amount") then
                let! a := parse_amount value dsym in Ok (set_env_amount v a)
              else if str_eqb key (lit "funding") then
                let! f := parse_funding value in Ok (set_env_funding v f)
              else Err (EParse (UnknownProperty key))
          end
      end
  end.

(** src/envelope.rs 358-387.  The body is joined and split into lines again. *)
Definition parse_envelope (chunk account : str) (dsym : char) (fmt : str) : res envelope :=
  match lines (trim chunk) with
  | [] => Err (EParse (EnvelopeNoHeader (trim chunk)))
  | h :: body =>
      let! v := envelope_header h fmt account in
      fold_res (add_body_line dsym) (lines (join [10%N] body)) v
  end.

(** ** Money *)

Definition set_now (v : envelope) (a : amount) : envelope :=
  mkEnvelope (v_name v) (v_amount v) (v_type v) (v_auto v) (v_freq v) (v_funding v)
    (v_starting v) (v_next v) a (v_account v) (v_last v).
Definition set_next (v : envelope) (a : amount) : envelope :=
  mkEnvelope (v_name v) (v_amount v) (v_type v) (v_auto v) (v_freq v) (v_funding v)
    (v_starting v) a (v_now v) (v_account v) (v_last v).
Definition set_last (v : envelope) (d : date) : envelope :=
  mkEnvelope (v_name v) (v_amount v) (v_type v) (v_auto v) (v_freq v) (v_funding v)
    (v_starting v) (v_next v) (v_now v) (v_account v) d.

(** src/envelope.rs 749-771 *)
Definition apply_amount (today : date) (v : envelope) (a : amount) (d : date) : res envelope :=
  let! v' :=
    if fltb (mag a) fzero then
      let! n := amount_add (v_now v) a in Ok (set_now v n)
    else if fltb fzero (mag a) then
      let! last := freq_last today (v_freq v) in
      match last with
      | Some l =>
          if date_ltb d l then let! n := amount_add (v_now v) a in Ok (set_now v n)
          else let! n := amount_add (v_next v) a in Ok (set_next v n)
      | None => let! n := amount_add (v_next v) a in Ok (set_next v n)
      end
    else Ok v in
  Ok (set_last v' d).

(** src/envelope.rs 617-635 *)
Definition manual_step (today : date) (d : date) (v : envelope) (p : posting) : res envelope :=
  match p with
  | EnvPosting ep =>
      if str_eqb (ep_account ep) (v_account v) && str_eqb (v_name v) (ep_envelope ep) then
        apply_amount today v (ep_amount ep) d
      else Ok v
  | Classic _ => Ok v
  end.
Definition process_manual (today : date) (v : envelope) (e : entry) : res envelope :=
  fold_res (manual_step today (e_date e)) (envelope_postings e) v.

(** src/envelope.rs 645-661: does the entry have a posting to the account and
    one to a [for] account? *)
Definition count_self (v : envelope) (ps : list posting) : nat :=
  List.length (filter (fun p => str_eqb (get_account p) (v_account v)) ps).
Definition count_auto (v : envelope) (ps : list posting) : nat :=
  List.length (filter (fun p => negb (str_eqb (get_account p) (v_account v))
                                && mem (get_account p) (v_auto v)) ps).

(** src/envelope.rs 675-712: the amount to add for a posting. *)
Definition infer_amount (v : envelope) (e : entry) (p : posting) : res amount :=
  let! a := match get_amount p with
            | Some a => Ok a
            | None => let! o := get_blank_amount e in unwrap o
            end in
  if ostr_eqb (symbol a) (symbol (v_amount v)) then Ok a
  else match symbol (v_amount v) with
       | Some _ => Err (EProcessing (ForeignEnvelope (v_name v) (v_account v) (full_string e)))
       | None => match native_value p with
                 | Some m => Ok (mkAmount m (symbol a))
                 | None => Err (EProcessing (NoEnvelopeValue (full_string e)))
                 end
       end.

(** src/envelope.rs 674-719, the loop over postings; sums of [for] accounts and
    of the own account. *)
Definition infer_step (v : envelope) (e : entry) (sums : amount * amount) (p : posting)
  : res (amount * amount) :=
  let! a := infer_amount v e p in
  let (auto, self) := sums in
  if str_eqb (get_account p) (v_account v) then
    let! s := amount_add self a in Ok (auto, s)
  else if mem (get_account p) (v_auto v) then
    let! s := amount_add auto a in Ok (s, self)
  else Ok (auto, self).

(** src/envelope.rs 637-747 *)
Definition infer (today : date) (v : envelope) (e : entry) : res envelope :=
  if Nat.ltb (count_self v (e_postings e)) 1 || Nat.ltb (count_auto v (e_postings e)) 1 then Ok v
  else
    let zero := mkAmount fzero (symbol (v_amount v)) in
    let! (auto, self) := fold_res (infer_step v e) (e_postings e) (zero, zero) in
    let m := fmin (mag auto) (fabs (mag self)) in
    if negb (feqb m fzero) then
      apply_amount today v
        (mkAmount (if fltb (mag self) fzero then fneg m else m) (symbol (v_amount v)))
        (e_date e)
    else Ok v.

(** src/envelope.rs 608-615 *)
Definition env_process (today : date) (v : envelope) (e : entry) : res envelope :=
  if has_envelope_posting e then process_manual today v e else infer today v e.

(** src/envelope.rs 777-779 *)
Definition total_mag (v : envelope) : f64 := fadd (mag (v_now v)) (mag (v_next v)).

(** src/envelope.rs 850-852 *)
Definition remaining_next (v : envelope) : res amount := amount_sub (v_amount v) (v_next v).

(** src/envelope.rs 781-840 *)
Definition filling_amount (today : date) (v : envelope) (available : amount) : res amount :=
  if negb (ostr_eqb (symbol available) (symbol (v_amount v))) then Panic
  else
    let sym := symbol (v_amount v) in
    let zero := mkAmount fzero sym in
    let! next := env_next_due today v in
    match next with
    | None => Ok zero
    | Some due =>
        let! rem := remaining_next v in
        if date_eqb (v_last v) today then Ok zero
        else
          let limit (m : f64) :=
            fmax (fmax (fmin (fmin m (mag available)) (mag rem)) (fneg (total_mag v))) fzero in
          match v_funding v with
          | Manual => Ok zero
          | Aggressive => Ok (mkAmount (limit (mag (v_amount v))) sym)
          | Conservative =>
              Ok (mkAmount (limit (fdiv (mag rem) (fofZ (days_since due today)))) sym)
          end
    end.

(** src/envelope.rs 842-848 *)
Definition filling_posting (today : date) (v : envelope) (available : pool) : res envposting :=
  let! a := filling_amount today v (pool_only available (symbol (v_amount v))) in
  Ok (mkEnvPosting (v_account v) (v_name v) a).

(** ** Display *)

(** src/envelope.rs 595-600: the number of filled cells and the rest.
    [width - progress] is unsigned subtraction: underflow panics. *)
Definition bar_char : char := 0x2550%N.
Definition make_bar (v : envelope) (m : f64) (width : nat) : res str :=
  let wf := fofZ (Z.of_nat width) in
  let progress := fto_usize (fmax (fmin (fdiv (fmul m wf) (mag (v_amount v))) wf) fzero) in
  if Z.of_nat width <? progress then Panic
  else
    let p := Z.to_nat progress in
    Ok (chr "|" :: repeat bar_char p ++ spaces (width - p) ++ [chr "|"]).

(** src/envelope.rs 602-604 *)
Definition text_progress (v : envelope) (a : amount) : str :=
  show_amount a ++ lit " / " ++ show_amount (v_amount v).

(** src/envelope.rs 883-912 *)
Definition show_envelope (today : date) (v : envelope) : res str :=
  let next_display := mkAmount (fadd (mag (v_next v)) (fmin (mag (v_now v)) fzero))
                               (symbol (v_next v)) in
  let! due := env_next_due today v in
  let next_prelude := match due with
                      | Some d => lit "next (on " ++ format_date iso_format d ++ lit ")"
                      | None => lit "next"
                      end in
  let next_text := text_progress v next_display in
  let! next_bar := make_bar v (mag next_display) 40 in
  let now_display := mkAmount (fmax (mag (v_now v)) fzero) (symbol (v_now v)) in
  let now_text := text_progress v now_display in
  let! now_bar := make_bar v (mag now_display) 40 in
  Ok (lit "    " ++ v_name v ++ 10%N
      :: lit "      " ++ pad_right 20 (lit "now") ++ chr " " :: pad_left 30 now_text
      ++ chr " " :: now_bar ++ 10%N
      :: lit "      " ++ pad_right 20 next_prelude ++ chr " " :: pad_left 30 next_text
      ++ chr " " :: next_bar).
