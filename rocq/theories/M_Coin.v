(** The commands balance and register as a whole: from a loaded database and the options to the text printed. *)
From Verif Require Import Base M_Amount M_Date M_Names M_Tags M_Parser M_Convert M_Ledger M_Report M_Database M_Output.
Local Open Scope Z_scope.

(** what the options look at: posting.go:20-28 and transaction.go:24-36, the fields Transaction and Tags; [tx_of] is p.Transaction *)
Definition posting_info (L : ledger) (tx_of : nat -> rtx) (p : nat) : pinfo :=
  mkInfo (x_desc (tx_of p)) (parse_tags (rp_notes (heap L p))) (parse_tags (x_notes (tx_of p))).
(** balance.go:85-108 trim and 53-56: the quantities of the postings kept; after loading every posting has one *)
Definition balance_amounts (rexm : bytes -> bytes -> bool) (L : ledger) (tx_of : nat -> rtx) (begin end_ : option Z) (tag payee a : bytes) : list amount :=
  flat_map (fun p => match rp_qty (heap L p) with Some q => [q] | None => [] end)
    (balance_trim rexm (dates L) (posting_info L tx_of) begin end_ tag payee (reg L a)).
(** balance.go:44-83 execute; [arg] is the first argument, [compile] and [rexm] the matching of account and of other patterns *)
Definition coin_balance (fuel : nat) (compile rexm : bytes -> bytes -> bool) (o : map_order) (comm : bytes -> commodity) (b : book) (tx_of : nat -> rtx)
    (arg : option bytes) (begin end_ : option Z) (tag payee : bytes) (level : Z) (zero : bool) : res bytes :=
  do account <- match arg with None => Ok root | Some a => must_find_account compile (b_names b) a end;
  balance_command fuel (book_conv (b_prices b) o) comm (commodity_id (b_db b)) (b_tree b)
    (balance_amounts rexm (b_ledger b) tx_of begin end_ tag payee) level zero account.

(** register.go:84-106, 169-192: the postings listed; with -r those of the accounts below, by date. The pattern of -p loses
    its "!" in the first trim (trim_each) *)
Definition register_selection (fuel : nat) (rexm : bytes -> bytes -> bool) (L : ledger) (tx_of : nat -> rtx) (T : tree)
    (begin end_ : option Z) (tag payee : bytes) (recurse : bool) (acc : bytes) : list nat :=
  let regs := map (reg L) (if recurse then with_children fuel (t_children T) acc else [acc]) in
  let ps := concat (trim_each rexm (dates L) (posting_info L tx_of) begin end_ tag payee regs) in
  if recurse then stable_sort (fun p q => x_posted (tx_of p) <? x_posted (tx_of q)) ps else ps.
(** register.go:73-106 execute, without aggregation and -f *)
Definition coin_register (fuel : nat) (compile rexm : bytes -> bytes -> bool) (o : map_order) (comm : bytes -> commodity) (b : book) (tx_of : nat -> rtx)
    (pattern : bytes) (begin end_ : option Z) (tag payee : bytes) (recurse : bool) (size : Z) (notes : bool) : res bytes :=
  do acc <- must_find_account compile (b_names b) pattern;
  full_register (book_conv (b_prices b) o) comm (commodity_id (b_db b)) (b_ledger b) tx_of recurse size notes None acc
    (register_selection fuel rexm (b_ledger b) tx_of (b_tree b) begin end_ tag payee recurse acc).

(** ** The aggregated register *)
(** totals.go:663-673 payees and tags *)
Inductive category := ByPayee | ByTags.
Definition posting_category (L : ledger) (tx_of : nat -> rtx) (c : category) (p : nat) : bytes :=
  match c with
  | ByPayee => x_desc (tx_of p)
  | ByTags => tag_category (parse_tags (x_notes (tx_of p))) (parse_tags (rp_notes (heap L p)))
  end.
(** totals.go:683-728 week, month, quarter, year: reduce and format *)
Inductive period := Weekly | Monthly | Quarterly | Yearly.
Definition period_reduce (p : period) : Z -> Z :=
  match p with Weekly => reduce_week | Monthly => reduce_month | Quarterly => reduce_quarter | Yearly => reduce_year end.
Definition period_format (p : period) : Z -> bytes :=
  match p with Weekly => format_date | Monthly | Quarterly => format_month | Yearly => fun t => format_year (year_of t) end.
(** register.go:108-115: what is added for the postings of account [x], the trims being made one after the other *)
Definition register_entries (fuel : nat) (rexm : bytes -> bytes -> bool) (L : ledger) (tx_of : nat -> rtx) (T : tree)
    (begin end_ : option Z) (tag payee : bytes) (cat : option category) (acc x : bytes) : list (Z * bytes * amount) :=
  let accs := with_children fuel (t_children T) acc in
  let sels := trim_each rexm (dates L) (posting_info L tx_of) begin end_ tag payee (map (reg L) accs) in
  match List.find (fun e => eqb_bytes x (fst e)) (combine accs sels) with
  | Some (_, ps) => flat_map (fun p => match rp_qty (heap L p) with
      | Some q => [(x_posted (tx_of p), match cat with Some c => posting_category L tx_of c p | None => [] end, q)]
      | None => [] end) ps
  | None => []
  end.
(** register.go:108-130: the totals before the choice of columns *)
Definition coin_totals (fuel : nat) (rexm : bytes -> bytes -> bool) (o : map_order) (b : book) (tx_of : nat -> rtx)
    (begin end_ : option Z) (tag payee : bytes) (per : option period) (cat : option category) (recurse : bool) (acc : bytes) : res atotals :=
  aggregated fuel (book_conv (b_prices b) o) (b_tree b) acc (option_map period_reduce per) (match cat with Some _ => true | None => false end) recurse
    (register_entries fuel rexm (b_ledger b) tx_of (b_tree b) begin end_ tag payee cat acc).
(** register.go:73-149 execute and aggregatedRegister; [order]: the accounts as sorted in top (see top_order) *)
Definition coin_aggregated (fuel : nat) (compile rexm : bytes -> bytes -> bool) (o : map_order) (comm : bytes -> commodity) (b : book) (tx_of : nat -> rtx)
    (pattern : bytes) (begin end_ : option Z) (tag payee : bytes) (per : option period) (cat : option category) (recurse cumulative : bool) (n size : Z)
    (f : out_format) (order : list (option bytes)) : res bytes :=
  do acc <- must_find_account compile (b_names b) pattern;
  do m <- coin_totals fuel rexm o b tx_of begin end_ tag payee per cat recurse acc;
  aggregated_register (book_conv (b_prices b) o) comm (match per with Some p => period_format p | None => format_date end) f size acc cumulative n m order.

(** coin.go LoadFile for each of the files, then ResolveAll; cmd/coin/test.go:42-45 init with the file named by the argument *)
Definition load_from (limit : nat) (w : world) (files : list bytes) (compile : bytes -> bytes -> bool) (fuel : nat) (comm : bytes -> commodity) (b : book) : Prop :=
  exists d, load_list limit w files empty_db = Some (Ok d) /\ resolve_all compile fuel d comm b.
