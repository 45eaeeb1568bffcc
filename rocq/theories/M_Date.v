(** Model of date.go and of the Go calendar functions it uses. Instants are identified with day
    numbers (days since 0001-01-01): every date the program makes is at 12:00 UTC (date.go:114,
    totals.go:688-713). Simplification: no int64 overflow for years beyond the range of time.Time. *)
From Verif Require Import Base M_Regex.

(** time.go isLeap, daysBefore *)
Definition is_leap (y : Z) : bool := (y mod 4 =? 0) && (negb (y mod 100 =? 0) || (y mod 400 =? 0)).
Definition days_before_tbl : list Z := [0; 31; 59; 90; 120; 151; 181; 212; 243; 273; 304; 334; 365].
Definition days_before (i : Z) : Z := nth (Z.to_nat i) days_before_tbl 0.

(** time.go daysSinceEpoch; absoluteZeroYear is 1 modulo 400, so floor division from year 1 agrees *)
Definition days_since_epoch (year : Z) : Z :=
  let y := year - 1 in
  let n := y / 400 in let y := y - 400 * n in let d := 146097 * n in
  let n := y / 100 in let y := y - 100 * n in let d := d + 36524 * n in
  let n := y / 4 in let y := y - 4 * n in let d := d + 1461 * n in
  d + 365 * y.

(** time.go Date(year, month, day, 12, 0, 0, 0, UTC): month overflow is carried into the year *)
Definition go_date (year month day : Z) : Z :=
  let m := month - 1 in
  let year := year + m / 12 in
  let month := m mod 12 + 1 in
  days_since_epoch year + days_before (month - 1)
  + (if is_leap year && (3 <=? month) then 1 else 0) + (day - 1).

(** time.go absDate: Time.Date() *)
Definition civil (n : Z) : Z * Z * Z :=
  let c := n / 146097 in let y := 400 * c in let d := n - 146097 * c in
  let c := d / 36524 in let c := c - c / 4 in let y := y + 100 * c in let d := d - 36524 * c in
  let c := d / 1461 in let y := y + 4 * c in let d := d - 1461 * c in
  let c := d / 365 in let c := c - c / 4 in let y := y + c in let d := d - 365 * c in
  let year := y + 1 in
  if is_leap year && (d =? 59) then (year, 2, 29)
  else
    let day := if is_leap year && (59 <? d) then d - 1 else d in
    let month := day / 31 in
    let fin := days_before (month + 1) in
    let '(month, begin) := if fin <=? day then (month + 1, fin) else (month, days_before month) in
    (year, month + 1, day - begin + 1).
Definition year_of (n : Z) : Z := fst (fst (civil n)).
Definition month_of (n : Z) : Z := snd (fst (civil n)).
Definition day_of (n : Z) : Z := snd (civil n).

(** time.go AddDate *)
Definition add_date (n years months days : Z) : Z :=
  go_date (year_of n + years) (month_of n + months) (day_of n + days).
(** time.go Weekday, Sunday = 0 (0001-01-01 was a Monday) *)
Definition weekday (n : Z) : Z := (n + 1) mod 7.

(** time.go Format with "2006/01/02" (date.go:50), "2006/01", "2006" *)
Definition pad_zero (w : nat) (s : bytes) : bytes := rep "0"%char (w - List.length s) ++ s.
Definition format_year (y : Z) : bytes :=
  if y <? 0 then "-"%char :: pad_zero 4 (print_nat (- y)) else pad_zero 4 (print_nat y).
Definition format_date (n : Z) : bytes :=
  format_year (year_of n) ++ B "/" ++ pad_zero 2 (print_nat (month_of n)) ++ B "/" ++ pad_zero 2 (print_nat (day_of n)).
Definition format_month (n : Z) : bytes := format_year (year_of n) ++ B "/" ++ pad_zero 2 (print_nat (month_of n)).

(** date.go:54-56 ymd *)
Definition d12 : rx := RSeq d_ (ROpt d_).                        (* \d{1,2} *)
Definition rx_ymd : rx :=
  RAlt
    (RGrp "ymd" (rseq [ROpt (RSeq (RGrp "ymdy" (RSeq d_ (RSeq d_ (ROpt (RSeq d_ d_))))) (rchar "/"%char));
                       RGrp "ymdm" d12; rchar "/"%char; RGrp "ymdd" d12]))
    (RGrp "ym" (RSeq (RGrp "ymy" (rseq [d_; d_; d_; d_]))
                     (ROpt (RSeq (rchar "/"%char) (RGrp "ymm" d12))))).
(** date.go:57 offset [+-]\d+[d|w|m|y]; the last class also contains '|' *)
Definition is_unit (c : ascii) : bool := existsb (eqc c) (B "d|wmy").
Definition rx_offset : rx :=
  RGrp "offset" (rseq [RSet (fun c => eqc c "+"%char || eqc c "-"%char); rplus d_; RSet is_unit]).
(** date.go:58 DateREX *)
Definition rx_date : rx := RGrp "date" (RSeq (ROpt rx_ymd) (ROpt rx_offset)).
Definition DateREX : rx := rex_compile rx_date.

(** strconv.Atoi with the error ignored: 0 on a syntax error, clamped on a range error *)
Definition atoi (s : bytes) : Z :=
  let neg := fst (split_sign s) in
  let ds := snd (split_sign s) in
  if negb (forallb is_digit ds) || (List.length ds =? 0)%nat then 0
  else let v := digits_val ds in
       if neg then Z.max int64_min (- v) else Z.min int64_max v.

Definition today := (Z * Z * Z)%type.   (* date.go:16-17 Year, Month, Day *)

(** date.go:73-130 parseDate (idx = 0) *)
Definition parse_date (td : today) (cs : caps) : res Z :=
  let '(y, m, d) := td in
  let offset := cap "offset" cs in
  let base : res (Z * Z * Z) :=
    match cap "ymd" cs with
    | _ :: _ =>
        let d := atoi (cap "ymdd" cs) in
        let mm := atoi (cap "ymdm" cs) in
        let y := match cap "ymdy" cs with
                 | _ :: _ =>
                     let yyy := atoi (cap "ymdy" cs) in
                     if yyy <? 100 then
                       let yyy := Z.quot y 1000 * 1000 + yyy in
                       if (yyy <? y) && (50 <? y - yyy) then yyy + 100
                       else if (y <? yyy) && (50 <? yyy - y) then yyy - 100
                       else yyy
                     else yyy
                 | [] =>
                     if (mm <? m) && (6 <? m - mm) then y + 1
                     else if (m <? mm) && (6 <? mm - m) then y - 1
                     else y
                 end in
        Ok (y, mm, d)
    | [] =>
        match cap "ym" cs with
        | _ :: _ => Ok (atoi (cap "ymy" cs), match cap "ymm" cs with _ :: _ => atoi (cap "ymm" cs) | [] => 1 end, 1)
        | [] => match offset with [] => Fail | _ => Ok (y, m, d) end
        end
    end in
  do b <- base;
  let '(y, m, d) := b in
  let t := go_date y m d in
  match offset with
  | [] => Ok t
  | _ =>
      let o := atoi (removelast offset) in
      let u := last offset "d"%char in
      Ok (if eqc u "d"%char then add_date t 0 0 o
          else if eqc u "w"%char then add_date t 0 0 (o * 7)
          else if eqc u "m"%char then add_date t 0 o 0
          else if eqc u "y"%char then add_date t o 0 0
          else t)
  end.
(** date.go:60-66 mustParseDate *)
Definition must_parse_date (td : today) (cs : caps) : res Z :=
  match parse_date td cs with Fail => Panic | r => r end.
(** date.go:41-48 Date.Set (the -b/-e options) *)
Definition set_date (td : today) (s : bytes) : res Z :=
  match rsearch DateREX s with None => Fail | Some (_, cs) => parse_date td cs end.

(** cmd/coin/totals.go:683-716 *)
Definition reduce_week (t : Z) : Z :=
  let t := add_date t 0 0 (- weekday t) in go_date (year_of t) (month_of t) (day_of t).
Definition reduce_month (t : Z) : Z := go_date (year_of t) (month_of t) 1.
Definition reduce_quarter (t : Z) : Z := go_date (year_of t) ((month_of t - 1) / 3 * 3 + 1) 1.
Definition reduce_year (t : Z) : Z := go_date (year_of t) 1 1.
