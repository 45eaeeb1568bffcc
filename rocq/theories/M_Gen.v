(** Model of cmd/gen2coin: dates.go, rule.go, main.go. *)
From Verif Require Import Base M_Amount M_Regex M_Date M_Parser M_Names M_Ledger.

(** ** Times
    time.Time values as seconds since 0001-01-01 00:00. Simplification: all times are in UTC (the default for -e is
    time.Now() in the local zone, where a day may have 23 or 25 hours). Nanoseconds are left out. *)
Definition day_secs : Z := 86400.
Definition day_no (t : Z) : Z := t / day_secs.
Definition clock (t : Z) : Z := t mod day_secs.
(** time.go AddDate: the clock is kept *)
Definition t_add (t y m d : Z) : Z := day_secs * add_date (day_no t) y m d + clock t.

(** ** Random choices
    rnd.Intn(n) is some number below n: the k-th choice is [rnd k mod n]. The two sources used (rnd and the package
    functions of math/rand) are one sequence of choices here. *)
Definition intn (rnd : nat -> nat) (k n : nat) : nat := (rnd k mod n)%nat.

(** dates.go:42-50 and 84-92 the random picks: [left] more picks, result: the picks and the next choice *)
Fixpoint random_picks (rnd : nat -> nat) (k : nat) (left : nat) (candidates : list Z) : list Z * nat :=
  match left with
  | O => ([], k)
  | S f =>
      match candidates with
      | [] => ([], k)
      | _ =>
          let o := intn rnd k (List.length candidates) in
          let '(ps, k') := random_picks rnd (S k) f (firstn o candidates ++ skipn (S o) candidates) in
          (nth o candidates 0 :: ps, k')
      end
  end.
(** dates.go:39-41, 81-83: count < len(picks) *)
Definition picks_of (rnd : nat -> nat) (k : nat) (count : Z) (days : list Z) : list Z * nat :=
  if count <? Z.of_nat (List.length days) then random_picks rnd k (Z.to_nat count) days else (days, k).
Definition sort_ints : list Z -> list Z := stable_sort Z.ltb.
Definition anyday : list Z := [0; 1; 2; 3; 4; 5; 6].
Definition in_range (begin end_ t : Z) : bool := negb ((end_ <? t) || (t <? begin)).

(** dates.go:36-60 the loop of weekly; every round moves on by at least a week, [fuel] bounds the number of rounds *)
Fixpoint weekly_loop (fuel : nat) (rnd : nat -> nat) (k : nat) (count interval : Z) (days : list Z) (begin end_ current : Z) : list Z :=
  match fuel with
  | O => []
  | S f =>
      if current <? end_ then
        let '(picks, k) := picks_of rnd k count days in
        let picks := if count <? Z.of_nat (List.length days) then sort_ints picks else picks in
        filter (in_range begin end_) (map (fun p => t_add current 0 0 p) picks)
        ++ weekly_loop f rnd k count interval days begin end_ (t_add current 0 0 (7 * interval))
      else []
  end.
(** dates.go:27-62 weekly; [days]: 0 is Sunday *)
Definition weekly (rnd : nat -> nat) (k : nat) (count interval : Z) (days : list Z) (begin end_ : Z) : list Z :=
  let current := t_add begin 0 0 (- weekday (day_no begin)) in
  let days := match days with [] => anyday | _ => days end in
  let interval := if interval <? 1 then 1 else interval in
  weekly_loop (S (Z.to_nat (end_ - current))) rnd k count interval days begin end_ current.

(** dates.go:64 mDays[:nDays] *)
Definition month_days_list (n : Z) : list Z := map (fun i => Z.of_nat i + 1) (seq 0 (Z.to_nat n)).
(** dates.go:97-104 the date of one pick: 0 and below are counted from the end of the month *)
Definition month_pick (current p : Z) : Z := if p <=? 0 then t_add current 0 1 p else t_add current 0 0 (p - 1).
Definition same_month (a b : Z) : bool :=
  (year_of (day_no a) =? year_of (day_no b)) && (month_of (day_no a) =? month_of (day_no b)).
(** dates.go:75-112 the loop of monthly *)
Fixpoint monthly_loop (fuel : nat) (rnd : nat -> nat) (k : nat) (count interval : Z) (days : list Z) (begin end_ current : Z) : list Z :=
  match fuel with
  | O => []
  | S f =>
      if current <? end_ then
        let picks := match days with [] => month_days_list (day_of (day_no (t_add current 0 1 (-1)))) | _ => days end in
        let '(picks, k) := picks_of rnd k count picks in
        let dates := filter (fun d => same_month current d && in_range begin end_ d) (map (month_pick current) picks) in
        sort_ints dates ++ monthly_loop f rnd k count interval days begin end_ (t_add current 0 interval 0)
      else []
  end.
(** dates.go:66-116 monthly *)
Definition monthly (rnd : nat -> nat) (k : nat) (count interval : Z) (days : list Z) (begin end_ : Z) : list Z :=
  let current := t_add begin 0 0 (1 - day_of (day_no begin)) in
  let interval := if interval <? 1 then 1 else interval in
  monthly_loop (S (Z.to_nat (end_ - current))) rnd k count interval days begin end_ current.

(** ** rule.go *)
(** int64 arithmetic wraps around *)
Definition wrap64 (z : Z) : Z := (z + 2 ^ 63) mod 2 ^ 64 - 2 ^ 63.
(** rule.go:143-156 pow; None: still running after [fuel] rounds *)
Fixpoint pow_loop (fuel : nat) (mask pow res exp : Z) : option Z :=
  match fuel with
  | O => None
  | S f =>
      if mask <=? exp then
        pow_loop f (wrap64 (2 * mask)) (wrap64 (pow * pow)) (if Z.land mask exp =? 0 then res else wrap64 (res * pow)) exp
      else Some res
  end.
Definition go_pow (fuel : nat) (base exp : Z) : option Z := pow_loop fuel 1 base 1 exp.

(** rule.go:39-41 the special minimum values *)
Definition constants : Z := 2 ^ 31.
Definition from_balance : Z := 2 ^ 31 + 1.
Definition to_balance : Z := 2 ^ 31 + 2.
(** big.Int.Div: Euclidean division, panics for zero *)
Definition euclid_div (a b : Z) : res Z :=
  if b =? 0 then Panic else Ok (if 0 <? b then a / b else - (a / (- b))).
(** rule.go:43-48 without the date generator *)
Record rule := mkRule { ru_payees : list bytes; ru_from : list bytes; ru_to : list bytes; ru_min : Z; ru_max : Z }.

Section Gen.
Variable comm : bytes -> commodity.
Variable conv : conversion.
Variable rnd : nat -> nat.

(** rule.go:121-133 amtFromBalance *)
Definition amt_from_balance (L : ledger) (account divisor : Z) (from to : bytes) : res amount :=
  do b <- (if account =? from_balance then Ok (negated (balance_of comm L from))
           else if account =? to_balance then Ok (negated (balance_of comm L to))
           else Panic);
  do i <- euclid_div (a_int b) divisor;
  Ok (mkAmount i (a_com b)).
(** rule.go:101-119 amtBetween. Decimals are small, pow needs one round per bit. *)
Definition amt_between (L : ledger) (k : nat) (a b : Z) (from to : bytes) : res amount :=
  if constants <? a then amt_from_balance L a b from to
  else
    let lo := Z.min a b in
    let hi := Z.max a b in
    let amt := if lo =? hi then lo else lo + Z.of_nat (intn rnd k (Z.to_nat (hi - lo))) in
    match go_pow 64 10 (Z.of_nat (c_dec (comm from))) with
    | None => Panic                                     (* does not end *)
    | Some p => Ok (mkAmount (wrap64 (amt * p)) (comm from))
    end.
(** rule.go:91-98 generatePostings: three choices are made *)
Definition generate_postings (L : ledger) (k : nat) (r : rule) (x : rtx) : res (ledger * rtx) :=
  let from := nth (intn rnd k (List.length (ru_from r))) (ru_from r) [] in
  let to := nth (intn rnd (S k) (List.length (ru_to r))) (ru_to r) [] in
  do amt <- amt_between L (S (S k)) (ru_min r) (ru_max r) from to;
  let '(L, x) := post L x to from amt None in
  do b <- add_in conv (balance_of comm L to) amt;
  let L := set_bal L to b in
  do b <- add_in conv (balance_of comm L from) (negated amt);
  Ok (set_bal L from b, x).
(** rule.go:77-88 generateTransactions, [dates] being the generated dates *)
Fixpoint generate_transactions (k : nat) (r : rule) (dates : list Z) : list (rule * rtx) :=
  match dates with
  | [] => []
  | d :: ds => (r, mkTx d [] (nth (intn rnd k (List.length (ru_payees r))) (ru_payees r) []) [] [] O) :: generate_transactions (S k) r ds
  end.
(** main.go:70-73 *)
Fixpoint generate_all_postings (L : ledger) (k : nat) (ss : list (rule * rtx)) : res (ledger * list rtx) :=
  match ss with
  | [] => Ok (L, [])
  | (r, x) :: rest =>
      do Lx <- generate_postings L k r x;
      do y <- generate_all_postings (fst Lx) (3 + k) rest;
      Ok (fst y, snd Lx :: snd y)
  end.
(** main.go:75-79 with -wb, [accounts] in the order of the map *)
Fixpoint check_all (L : ledger) (accounts : list bytes) : res ledger :=
  match accounts with
  | [] => Ok L
  | a :: r => do Lw <- check_postings comm conv L a; check_all (fst Lw) r
  end.
(** main.go:65-79: [gens] are the rules with their generated dates and the number of the first choice of a payee *)
Definition sample_less (s t : rule * rtx) : bool := x_posted (snd s) <? x_posted (snd t).
Definition generate_samples (gens : list (nat * rule * list Z)) : list (rule * rtx) :=
  stable_sort sample_less (flat_map (fun g => generate_transactions (fst (fst g)) (snd (fst g)) (snd g)) gens).
Definition generate (L : ledger) (k : nat) (with_balances : bool) (accounts : list bytes) (gens : list (nat * rule * list Z))
  : res (ledger * list rtx) :=
  do y <- generate_all_postings L k (generate_samples gens);
  do L <- (if with_balances then check_all (fst y) accounts else Ok (fst y));
  Ok (L, snd y).
End Gen.

(** ** main.go:130-149 batchesByLabel; the result maps labels to batches, a later batch replaces an earlier one *)
Section Batches.
Context {A : Type}.
Variable label : A -> bytes.
Fixpoint put_batch (l : bytes) (b : list A) (m : list (bytes * list A)) : list (bytes * list A) :=
  match m with [] => [(l, b)] | (k, c) :: r => if eqb_bytes l k then (k, b) :: r else (k, c) :: put_batch l b r end.
Fixpoint batch_loop (ts : list A) (previous : bytes) (batch : list A) (m : list (bytes * list A)) : list (bytes * list A) :=
  match ts with
  | [] => put_batch previous batch m
  | t :: r => if eqb_bytes previous (label t) then batch_loop r previous (batch ++ [t]) m
              else batch_loop r (label t) [t] (put_batch previous batch m)
  end.
Definition batches_by_label (ts : list A) : list (bytes * list A) :=
  match ts with [] => [] | t :: _ => batch_loop ts (label t) [] [] end.
Fixpoint batch_of (l : bytes) (m : list (bytes * list A)) : option (list A) :=
  match m with [] => None | (k, b) :: r => if eqb_bytes l k then Some b else batch_of l r end.
End Batches.
(** main.go:108-114 the labels: "transactions", -y, -m (which wins over -y) *)
Definition label_of (by_year by_month : bool) (t : Z) : bytes :=
  if by_month then format_year (year_of (day_no t)) ++ B "-" ++ pad_zero 2 (print_nat (month_of (day_no t)))
  else if by_year then format_year (year_of (day_no t))
  else B "transactions".
