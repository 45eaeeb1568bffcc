(** Model of the command line of register (cmd/coin/register.go:37-177; main.go:75-81). *)
From Verif Require Import Base M_Amount M_Date M_Names M_Convert M_Ledger M_Report M_Database M_Output M_Coin M_Flags.
Local Open Scope Z_scope.

(** register.go:42-63 *)
Definition register_flags (td : today) : list flag_def :=
  let switch n := mkFlag (B n) true (fun v => is_some (parse_bool v)) in
  let date n := mkFlag (B n) false (is_date td) in
  let text n := mkFlag (B n) false (fun _ => true) in
  let number n := mkFlag (B n) false (fun v => is_some (parse_int_flag v)) in
  [switch "v"; switch "r"; date "b"; date "e"; text "p"; text "t"; switch "w"; switch "m"; switch "q"; switch "y"; switch "bp"; switch "bt";
   number "g"; switch "c"; number "l"; switch "f"; text "o"; switch "n"]%string.
(** the values after Parse, with the defaults of register.go:42-63 *)
Definition number_setting (name : bytes) (ss : list (bytes * bytes)) (default : Z) : Z :=
  match setting name ss with Some v => match parse_int_flag v with Some z => z | None => 0 end | None => default end.
(** register.go:165-177 period, 154-163 category *)
Definition period_setting (ss : list (bytes * bytes)) : option period :=
  if bool_setting (B "w") ss then Some Weekly else if bool_setting (B "m") ss then Some Monthly
  else if bool_setting (B "q") ss then Some Quarterly else if bool_setting (B "y") ss then Some Yearly else None.
Definition category_setting (ss : list (bytes * bytes)) : option category :=
  if bool_setting (B "bp") ss then Some ByPayee else if bool_setting (B "bt") ss then Some ByTags else None.
(** -o, default text; totals.go:482-495 output: any other format is text *)
Definition format_setting (ss : list (bytes * bytes)) : bytes := match setting (B "o") ss with Some v => v | None => B "text" end.
Definition out_of (s : bytes) : out_format := if eqb_bytes s (B "json") then OutJson else if eqb_bytes s (B "csv") then OutCsv else OutText.
(** register.go:76-78: the first line is printed only for the format "text" *)
Definition first_line (comm : bytes -> commodity) (f acc : bytes) : bytes := if eqb_bytes f (B "text") then acc ++ B " " ++ c_id (comm acc) ++ [chr 10] else [].
(** register.go:86-106 fullRegister, with the postings selected *)
Definition full_listing (fuel : nat) (rexm : bytes -> bytes -> bool) (o : map_order) (comm : bytes -> commodity) (b : book) (tx_of : nat -> rtx)
    (begin end_ : option Z) (tag payee : bytes) (recurse : bool) (size : Z) (notes : bool) (loc : option (rtx -> bytes)) (acc : bytes) : res bytes :=
  do is <- items (b_ledger b) tx_of comm (commodity_id (b_db b)) (mkOpts acc 0 size (Some (comm acc)) notes loc)
    (register_selection fuel rexm (b_ledger b) tx_of (b_tree b) begin end_ tag payee recurse acc);
  print_listing (book_conv (b_prices b) o) comm recurse (mkOpts acc 0 size (Some (comm acc)) notes loc) is.
(** register.go:108-149 aggregatedRegister *)
Definition aggregated_table (fuel : nat) (rexm : bytes -> bytes -> bool) (o : map_order) (comm : bytes -> commodity) (b : book) (tx_of : nat -> rtx)
    (begin end_ : option Z) (tag payee : bytes) (per : option period) (cat : option category) (recurse cumulative : bool) (n size : Z)
    (f : out_format) (order : list (option bytes)) (acc : bytes) : res bytes :=
  let conv := book_conv (b_prices b) o in
  do m <- coin_totals fuel rexm o b tx_of begin end_ tag payee per cat recurse acc;
  do x <- top conv n m order;
  do m <- merge_time conv (Some acc) (aget (Some acc) (fst x)) (fst x);
  do m <- (if cumulative then make_cumulative_all conv m else Ok m);
  output f (match per with Some p => period_format p | None => format_date end) (column_label acc size) m (snd x).
(** register.go:73-84 execute after Parse: [pattern] is Arg(0), empty if there is none; [loc] the locations of postings *)
Record request := mkRequest { rq_begin : option Z; rq_end : option Z; rq_payee : bytes; rq_tag : bytes; rq_below : bool; rq_period : option period;
  rq_category : option category; rq_top : Z; rq_cumulative : bool; rq_width : Z; rq_location : bool; rq_format : bytes; rq_notes : bool }.
Definition register_request (td : today) (ss : list (bytes * bytes)) : request :=
  mkRequest (date_setting td (B "b") ss) (date_setting td (B "e") ss) (text_setting (B "p") ss) (text_setting (B "t") ss) (bool_setting (B "r") ss)
    (period_setting ss) (category_setting ss) (number_setting (B "g") ss 5) (bool_setting (B "c") ss) (number_setting (B "l") ss 12)
    (bool_setting (B "f") ss) (format_setting ss) (bool_setting (B "n") ss).
Definition register_execute (fuel : nat) (compile rexm : bytes -> bytes -> bool) (o : map_order) (comm : bytes -> commodity) (b : book) (tx_of : nat -> rtx)
    (loc : rtx -> bytes) (order : list (option bytes)) (q : request) (pattern : bytes) : res bytes :=
  do acc <- must_find_account compile (b_names b) pattern;
  do text <- match rq_period q, rq_category q with
    | None, None => full_listing fuel rexm o comm b tx_of (rq_begin q) (rq_end q) (rq_tag q) (rq_payee q) (rq_below q) (rq_width q) (rq_notes q)
                      (if rq_location q then Some loc else None) acc
    | per, cat => aggregated_table fuel rexm o comm b tx_of (rq_begin q) (rq_end q) (rq_tag q) (rq_payee q) per cat (rq_below q) (rq_cumulative q)
                    (rq_top q) (rq_width q) (out_of (rq_format q)) order acc
    end;
  Ok (first_line comm (rq_format q) acc ++ text).
(** main.go:75-81 and register.go:67-71 init: the whole command *)
Definition register_line (td : today) (fuel : nat) (compile rexm : bytes -> bytes -> bool) (o : map_order) (comm : bytes -> commodity) (b : book) (tx_of : nat -> rtx)
    (loc : rtx -> bytes) (order : list (option bytes)) (args : list bytes) : res bytes :=
  do p <- parse_flags (register_flags td) args;
  match snd p with
  | [] => Fail
  | pattern :: _ =>
      if bool_setting (B "bp") (fst p) && bool_setting (B "bt") (fst p) then Fail
      else register_execute fuel compile rexm o comm b tx_of loc order (register_request td (fst p)) pattern
  end.
(** cmd/coin/test.go:74-89: in a test init is not called. Simplification: what a command printed before it ended the program is not kept. *)
Definition test_register (td : today) (fuel : nat) (compile rexm : bytes -> bytes -> bool) (o : map_order) (comm : bytes -> commodity) (b : book) (tx_of : nat -> rtx)
    (loc : rtx -> bytes) (order : list (option bytes)) (args : list bytes) : bytes :=
  match (do p <- parse_flags (register_flags td) args;
         register_execute fuel compile rexm o comm b tx_of loc order (register_request td (fst p)) (match snd p with a :: _ => a | [] => [] end)) with
  | Ok text => text | _ => [] end.
