(** Model of the columns of subaccounts of the coin2html page: account.ts withAllChildPostingGroups, utils.ts groupByWithSubAccounts as it is
    called by viewsRegister.ts and viewsAggregatedRegisterChart.ts, the bars of the chart, utils.ts topN and shortenAccountName. *)
From Coq Require Import QArith Qround.
From Verif Require Import Base M_Amount M_Date M_Names M_Ledger M_Web M_Page M_Views M_Ui.
Local Open Scope Z_scope.

(** Array.slice(0, n) and Array.slice(m); n = [None] is NaN, which counts as 0 *)
Definition slice_to {A} (n : option Z) (l : list A) : list A :=
  match n with
  | None => []
  | Some n => if 0 <=? n then firstn (Z.to_nat n) l else firstn (List.length l - Z.to_nat (- n)) l
  end.
Definition slice_from {A} (m : Z) (l : list A) : list A :=
  if 0 <=? m then skipn (Z.to_nat m) l else skipn (List.length l - Z.to_nat (- m)) l.

Section Columns.
Variable mid : Z -> Z.
Variable conv : Z -> conversion.
(** the accounts in the order of their averages: some order of the list (utils.ts:140-152) *)
Variable order : list (bytes * list group) -> list (bytes * list group).
Variable pg : page.

(** account.ts:73-93 withAllChildPostingGroups *)
Definition columns_accounts (show : bool) (stop : Z) (exclude : list bytes) (a : bytes) : list bytes :=
  filter (fun b => match pg_register pg b with [] => false | _ => true end) (a :: all_children mid pg (depth_of_page pg) show (Some stop) exclude a).
Fixpoint groups_of (k : interval) (start stop : Z) (accs : list bytes) : res (list (bytes * list group)) :=
  match accs with
  | [] => Ok []
  | a :: r => do gs <- group_by mid conv k (trim_range mid (pg_register pg a) start stop) (com_of pg a) start stop;
              do l <- groups_of k start stop r; Ok ((a, gs) :: l)
  end.
(** utils.ts:140-148: the total of the last group of each account, converted; an account without groups is a TypeError *)
Fixpoint averages_ok (c : commodity) (l : list (bytes * list group)) : res unit :=
  match l with
  | [] => Ok tt
  | (_, gs) :: r => match rev gs with
                    | [] => Panic
                    | g :: _ => do _ <- web_add (conv (mid (g_date g))) (mkAmount 0 c) (g_total g); averages_ok c r
                    end
  end.
(** utils.ts:153-169: the top accounts and Other *)
Definition top_and_other (c : commodity) (max : option Z) (sorted : list (bytes * list group)) : res (list (option bytes * list group)) :=
  let top := map (fun x => (Some (fst x), snd x)) (slice_to max sorted) in
  match max with
  | Some n => if n <? Z.of_nat (List.length sorted) then
                do other <- sum_all mid conv c (map snd (slice_from (n - 1) sorted)); Ok (removelast top ++ [(None, other)])
              else Ok top
  | None => Ok top
  end.
Definition sub_columns (show : bool) (exclude : list bytes) (max : option Z) (k : interval) (start stop : Z) (a : bytes) : res (list (option bytes * list group)) :=
  do l <- groups_of k start stop (columns_accounts show stop exclude a);
  do _ <- averages_ok (com_of pg a) l;
  top_and_other (com_of pg a) max (order l).
(** viewsRegister.ts:123-160 viewRegisterAggregatedWithSubAccounts: the rows shown *)
Definition sub_table (show flows : bool) (exclude : list bytes) (max : option Z) (k : interval) (start stop : Z) (a : bytes) : res (list table_row) :=
  do cols <- sub_columns show exclude max k start stop a;
  table mid conv flows (com_of pg a) (map snd cols) 0 (mkAmount 0 (com_of pg a)) (ticks mid k start stop).

(** ** Bars: viewsAggregatedRegisterChart.ts:52-82 *)
(** the width of a bar: the amount converted to the commodity of the account, without decimals, at least zero.
    Math.trunc(toNumber()) is computed with doubles; simplification: exactly. *)
Definition bar_width (negated flows : bool) (c : commodity) (g : group) : res Z :=
  do a <- web_add (conv (mid (g_date g))) (mkAmount 0 c) (choose flows (g_sum g) (g_bal g));
  let w := Z.quot (a_int a) (10 ^ Z.of_nat (c_dec c)) in
  let w := if negated then - w else w in
  Ok (if w <? 0 then 0 else w).
(** one row of bars: (offset, width) of each column, and where the row ends *)
Fixpoint bar_row (negated flows : bool) (c : commodity) (offset : Z) (cols : list (option group)) : res (list (Z * Z) * Z) :=
  match cols with
  | [] => Ok ([], offset)
  | None :: _ => Panic
  | Some g :: r => do w <- bar_width negated flows c g; do rest <- bar_row negated flows c (offset + w) r; Ok ((offset, w) :: fst rest, snd rest)
  end.
(** all rows and the end of the x domain *)
Fixpoint bar_rows (negated flows : bool) (c : commodity) (cols : list (list group)) (n i : nat) (max : Z) : res (list (list (Z * Z)) * Z) :=
  match n with
  | O => Ok ([], max)
  | S n => do row <- bar_row negated flows c 0 (map (fun gs => nth_error gs i) cols);
           do rest <- bar_rows negated flows c cols n (S i) (if max <? snd row then snd row else max);
           Ok (fst row :: fst rest, snd rest)
  end.
End Columns.

(** ** Details: utils.ts:71-85 topN; [size] is the absolute value of the converted quantity. Array.sort is stable. *)
Definition top_n {A} (size : A -> Z) (n : nat) (l : list A) : list A := firstn n (stable_sort (fun a b => size b <? size a) l).

(** ** Names *)
(** account.ts:54-57 relativeName *)
Definition relative_name (a child : bytes) : bytes := skipn (List.length a) child.
(** utils.ts:175-188 shortenAccountName. Lengths are in bytes; JavaScript counts UTF-16 units. *)
Fixpoint shorten_parts (over : Z) (parts : list bytes) : list bytes :=
  match parts with
  | [] => []
  | p :: r =>
      if over <=? 0 then p :: r else
      match p with
      | [] => [] :: shorten_parts over r
      | _ => let l := Z.of_nat (List.length p) in
             let drop := if over <? l - 1 then over else l - 1 in
             firstn (Z.to_nat (l - drop)) p :: shorten_parts (over - drop) r
      end
  end.
Definition shorten_name (name : bytes) (size : Z) : bytes :=
  if Z.of_nat (List.length name) <=? size then name
  else join (B ":") (shorten_parts (Z.of_nat (List.length name) - size) (split_on ":"%char name)).
