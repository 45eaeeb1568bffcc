(** Model of the views of the coin2html page: cmd/coin2html/js/src/account.ts (balances, postings of subaccounts), utils.ts (grouping),
    viewsRegister.ts and viewsBalances.ts (what the tables show). *)
From Verif Require Import Base M_Amount M_Date M_Names M_Ledger M_Web M_Page.
Local Open Scope Z_scope.

(** ** Time *)
(** Instants are minutes since midnight UTC of day 0. [mid d] is the local midnight of day [d], a function of the time zone of the browser.
    js/src/account.ts:241: new Date("yyyy/mm/dd") is [mid d]; js/src/ui.ts:48,58: new Date("yyyy-mm-dd"), the value of a date input, is UTC midnight. *)
Definition utc_midnight (d : Z) : Z := 1440 * d.
(** utils.ts:5-7 dateToString: the UTC day of an instant, as a text. Simplification: years 0 to 9999. *)
Definition utc_day (t : Z) : Z := t / 1440.
Definition iso_text (n : Z) : bytes :=
  pad_zero 4 (print_nat (year_of n)) ++ B "-" ++ pad_zero 2 (print_nat (month_of n)) ++ B "-" ++ pad_zero 2 (print_nat (day_of n)).
Definition date_to_string (t : Z) : bytes := iso_text (utc_day t).

Section Views.
Variable mid : Z -> Z.
(** this.commodity.convert(amount, date) at an instant *)
Variable conv : Z -> conversion.
Definition posted (p : pposting) : Z := mid (pp_date p).

(** ** Balances *)
Definition find_last {A} (f : A -> bool) (l : list A) : option A := List.find f (rev l).
(** account.ts:45-50 balanceAt *)
Definition balance_at (reg : list pposting) (c : commodity) (t : Z) : amount :=
  match find_last (fun p => posted p <=? t) reg with Some p => pp_bal p | None => mkAmount 0 c end.
(** account.ts:117-123 isClosed; parents are looked up by name, [fuel] bounds the depth *)
Fixpoint closed_at (fuel : nat) (accs : list pacct) (a : bytes) (t : Z) : bool :=
  match fuel with
  | O => false
  | S f => match find_account accs a with
           | None => false
           | Some pa => match pa_closed pa with Some d => mid d <=? t | None => false end
                        || match pa_parent pa with Some p => closed_at f accs p t | None => false end
           end
  end.
Record row := mkRow { r_acc : bytes; r_bal : amount; r_total : amount }.
(** account.ts:88-104 withAllChildBalances without exclusions; [show] is State.ShowClosedAccounts *)
Section Balances.
Variable pg : page.
Variable show : bool.
Variable t : Z.
Variable depth : nat.
Definition com_of (a : bytes) : commodity := match find_account (pg_accounts pg) a with Some pa => pa_com pa | None => mkCommodity 0 [] 0 end.
Definition hidden (a : bytes) : bool := negb show && closed_at depth (pg_accounts pg) a t.
Fixpoint child_loop (go : bytes -> res (list row)) (l : list bytes) (rows : list row) (total : amount) : res (list row * amount) :=
  match l with
  | [] => Ok (rows, total)
  | c :: r =>
      if hidden c then child_loop go r rows total else
      do cb <- go c;
      match cb with
      | [] => Panic
      | first :: _ => do total <- web_add (conv t) total (r_total first); child_loop go r (rows ++ cb) total
      end
  end.
Fixpoint all_balances (fuel : nat) (a : bytes) : res (list row) :=
  match fuel with
  | O => Fail
  | S f =>
      let balance := balance_at (pg_register pg a) (com_of a) t in
      do rt <- child_loop (all_balances f) (pg_children pg a) [] balance;
      Ok (mkRow a balance (snd rt) :: fst rt)
  end.
End Balances.

(** ** Postings in a range *)
Fixpoint find_index {A} (f : A -> bool) (l : list A) : option nat :=
  match l with [] => None | x :: r => if f x then Some O else match find_index f r with Some i => Some (S i) | None => None end end.
(** utils.ts:9-15 trimToDateRange; slice(from, to) *)
Definition trim_range (ps : list pposting) (start stop : Z) : list pposting :=
  match find_index (fun p => start <=? posted p) ps with
  | None => []
  | Some from => match find_index (fun p => stop <? posted p) ps with
                 | None => skipn from ps
                 | Some to => skipn from (firstn to ps)
                 end
  end.
(** account.ts:215-216, 244-245, 271-272 and ui.ts:33-34: the range at the start, from January 1 of the first year to December 31 of the last.
    [today] is the local day of now, [epoch] the local day of new Date(0) (0 or -1). *)
Definition min_date (today : Z) (txs : list ptx) : Z := fold_left (fun m x => if pt_posted x <? m then pt_posted x else m) txs today.
Definition max_date (epoch : Z) (txs : list ptx) : Z := fold_left (fun m x => if m <? pt_posted x then pt_posted x else m) txs epoch.
Definition start_range (today epoch : Z) (txs : list ptx) : Z * Z :=
  (mid (go_date (year_of (min_date today txs)) 1 1), mid (go_date (year_of (max_date epoch txs)) 12 31)).
(** viewsRegister.ts:241-252 renderPostings: the column Cum.Total *)
Fixpoint running (total : amount) (ps : list pposting) : res (list (pposting * amount)) :=
  match ps with
  | [] => Ok []
  | p :: r => do total <- web_add (conv (posted p)) total (pp_qty p); do l <- running total r; Ok ((p, total) :: l)
  end.
(** account.ts:58-71 withAllChildPostings for the accounts [accs] it takes; Array.sort is stable *)
Definition all_postings (regs : list (list pposting)) (start stop : Z) : list pposting :=
  stable_sort (fun p q => posted p <? posted q) (concat (map (fun ps => trim_range ps start stop) regs)).

(** account.ts:177-184 other: the first posting that isn't [p] (here the one at place [i]) and has another sign; throws if there is none *)
Definition sign (p : pposting) : Z := Z.sgn (a_int (pp_qty p)).
Fixpoint other_from (j i : nat) (s : Z) (l : list pposting) : res pposting :=
  match l with
  | [] => Fail
  | q :: r => if negb (j =? i)%nat && (negb (sign q =? s) || (s =? 0)) then Ok q else other_from (S j) i s r
  end.
Definition other_posting (l : list pposting) (i : nat) : res pposting :=
  match nth_error l i with None => Panic | Some p => other_from 0 i (sign p) l end.

(** ** Periods *)
(** views.ts:14-20 Aggregation, the d3 intervals in the local time zone: the first day of the period of day [d] *)
Inductive interval := Weekly | Monthly | Quarterly | Yearly.
Definition floor_day (k : interval) (d : Z) : Z :=
  match k with
  | Weekly => d - weekday d
  | Monthly => go_date (year_of d) (month_of d) 1
  | Quarterly => go_date (year_of d) (3 * ((month_of d - 1) / 3) + 1) 1
  | Yearly => go_date (year_of d) 1 1
  end.
(** d3 interval.range(start, stop): the beginnings of periods from [start] on and before [stop] *)
Fixpoint days_from (n : nat) (d : Z) : list Z := match n with O => [] | S k => d :: days_from k (d + 1) end.
Definition ticks (k : interval) (start stop : Z) : list Z :=
  filter (fun d => (floor_day k d =? d) && (start <=? mid d) && (mid d <? stop))
         (days_from (Z.to_nat (stop / 1440 - start / 1440 + 3)) (start / 1440 - 1)).
Record group := mkGroup { g_date : Z; g_posts : list pposting; g_sum : amount; g_total : amount; g_bal : amount }.
Fixpoint sum_posts (t : Z) (total : amount) (ps : list pposting) : res amount :=
  match ps with [] => Ok total | p :: r => do total <- web_add (conv t) total (pp_qty p); sum_posts t total r end.
(** utils.ts:43-69 groupBy; the map of groups is keyed by the text of a day, here by the day *)
Definition posts_of (k : interval) (ps : list pposting) (tick : Z) : list pposting :=
  filter (fun p => utc_day (mid (floor_day k (pp_date p))) =? utc_day (mid tick)) ps.
Fixpoint group_loop (k : interval) (ps : list pposting) (c : commodity) (total balance : amount) (l : list Z) : res (list group) :=
  match l with
  | [] => Ok []
  | tick :: r =>
      match posts_of k ps tick with
      | [] => do gs <- group_loop k ps c total balance r; Ok (mkGroup tick [] (mkAmount 0 c) total balance :: gs)
      | p :: q =>
          do sum <- sum_posts (mid tick) (mkAmount 0 c) (p :: q);
          do total <- web_add (conv (mid tick)) total sum;
          let balance := pp_bal (last (p :: q) p) in
          do gs <- group_loop k ps c total balance r;
          Ok (mkGroup tick (p :: q) sum total balance :: gs)
      end
  end.
Definition group_by (k : interval) (ps : list pposting) (c : commodity) (start stop : Z) : res (list group) :=
  group_loop k ps c (mkAmount 0 c) (mkAmount 0 c) (ticks k start stop).

(** ** Columns of subaccounts *)
(** utils.ts:95-121 sumAll: column [i] of the groups, totalled in commodity [c]; different dates throw *)
Fixpoint sum_column (c : commodity) (acc : group) (gs : list (option group)) : res group :=
  match gs with
  | [] => Ok acc
  | None :: _ => Panic
  | Some g2 :: r =>
      if g_date acc =? g_date g2 then
        do s <- web_add (conv (mid (g_date acc))) (g_sum acc) (g_sum g2);
        do t <- web_add (conv (mid (g_date acc))) (g_total acc) (g_total g2);
        do b <- web_add (conv (mid (g_date acc))) (g_bal acc) (g_bal g2);
        sum_column c (mkGroup (g_date acc) (g_posts acc ++ g_posts g2) s t b) r
      else Fail
  end.
Fixpoint sum_from (c : commodity) (first : list group) (i : nat) (gs : list (list group)) : res (list group) :=
  match first with
  | [] => Ok []
  | g :: r =>
      do x <- sum_column c (mkGroup (g_date g) [] (mkAmount 0 c) (mkAmount 0 c) (mkAmount 0 c)) (map (fun l => nth_error l i) gs);
      do xs <- sum_from c r (S i) gs; Ok (x :: xs)
  end.
Definition sum_all (c : commodity) (gs : list (list group)) : res (list group) :=
  match gs with [] => Panic | g :: _ => sum_from c g 0 gs end.
(** utils.ts:123-170 groupByWithSubAccounts, given the lists of groups of the accounts in the order of their averages; None is "Other".
    Simplification: the averages, which only decide the order, are not modelled; [n] = maxAccounts is at least 1. *)
Definition top_columns (c : commodity) (n : nat) (sorted : list (bytes * list group)) : res (list (option bytes * list group)) :=
  if (n <? List.length sorted)%nat then
    do o <- sum_all c (map snd (skipn (n - 1) sorted));
    Ok (map (fun x => (Some (fst x), snd x)) (firstn (n - 1) sorted) ++ [(None, o)])
  else Ok (map (fun x => (Some (fst x), snd x)) sorted).
(** viewsRegister.ts:135-160: the row of period [i]: the columns and their total; [cum] is the running total of the rows above *)
Fixpoint row_total (tick : Z) (cols : list (option group)) (sum bal : amount) : res (amount * amount) :=
  match cols with
  | [] => Ok (sum, bal)
  | None :: _ => Panic
  | Some g :: r =>
      if g_date g =? tick then
        do s <- web_add (conv (mid tick)) sum (g_sum g); do b <- web_add (conv (mid tick)) bal (g_bal g); row_total tick r s b
      else Fail
  end.
Record table_row := mkTrow { tr_date : Z; tr_cells : list amount; tr_total : amount; tr_cum : amount }.
(** viewsRegister.ts:195-207: the cells shown; the last column, headed Cum.Total, shows balanceOrSum of the total group *)
Definition choose (flows : bool) (sum bal : amount) : amount := if flows then sum else bal.
Fixpoint table (flows : bool) (c : commodity) (cols : list (list group)) (i : nat) (cum : amount) (l : list Z) : res (list table_row) :=
  match l with
  | [] => Ok []
  | tick :: r =>
      let here := map (fun gs => nth_error gs i) cols in
      do sb <- row_total tick here (mkAmount 0 c) (mkAmount 0 c);
      do cum <- web_add (conv (mid tick)) cum (fst sb);
      do rows <- table flows c cols (S i) cum r;
      Ok (mkTrow tick (map (fun g => match g with Some g => choose flows (g_sum g) (g_bal g) | None => mkAmount 0 c end) here)
                 (choose flows (fst sb) (snd sb)) (choose flows (fst sb) (snd sb)) :: rows)
  end.
End Views.
