(** What a command line of register asks for. *)
From Verif Require Import Base M_Amount M_Date M_Names M_Parser M_Ledger M_Report M_Database M_Output M_Coin M_RegLine S_Decimal S_Amount S_Names S_Books S_Report S_Output S_Coin S_Flags.
Local Open Scope Z_scope.

Definition a_date (td : today) (v : bytes) : Prop := exists t, set_date td v = Ok t.
(** the options of register and the values they take *)
Definition register_options (td : today) : list option_def :=
  let switch n := mkOption (B n) true (fun v => exists x, switch_text v x) in
  let date n := mkOption (B n) false (a_date td) in
  let text n := mkOption (B n) false (fun _ => True) in
  let number n := mkOption (B n) false (fun v => exists z, number_text v z) in
  [switch "v"; switch "r"; date "b"; date "e"; text "p"; text "t"; switch "w"; switch "m"; switch "q"; switch "y"; switch "bp"; switch "bt";
   number "g"; switch "c"; number "l"; switch "f"; text "o"; switch "n"]%string.
Definition date_asked (td : today) (given : list (bytes * bytes)) (n : string) (x : option Z) : Prop :=
  option_value given (B n) (fun v x => exists t, set_date td v = Ok t /\ x = Some t) None x.
Definition switched (given : list (bytes * bytes)) (n : string) (x : bool) : Prop := option_value given (B n) switch_text false x.
(** without options: the whole register as text, 5 columns, labels of 12; of several periods the shortest counts *)
Definition asks (td : today) (given : list (bytes * bytes)) (q : request) : Prop :=
  date_asked td given "b" (rq_begin q) /\ date_asked td given "e" (rq_end q) /\
  option_value given (B "p") eq [] (rq_payee q) /\ option_value given (B "t") eq [] (rq_tag q) /\
  switched given "r" (rq_below q) /\
  (exists w m qu y, switched given "w" w /\ switched given "m" m /\ switched given "q" qu /\ switched given "y" y /\
     rq_period q = if w then Some Weekly else if m then Some Monthly else if qu then Some Quarterly else if y then Some Yearly else None) /\
  (exists bp bt, switched given "bp" bp /\ switched given "bt" bt /\ rq_category q = if bp then Some ByPayee else if bt then Some ByTags else None) /\
  option_value given (B "g") number_text 5 (rq_top q) /\ switched given "c" (rq_cumulative q) /\
  option_value given (B "l") number_text 12 (rq_width q) /\ switched given "f" (rq_location q) /\
  option_value given (B "o") eq (B "text") (rq_format q) /\ switched given "n" (rq_notes q).
(** the first line *)
Definition title (q : request) (acc : bytes) (com : bytes) : bytes := if eqb_bytes (rq_format q) (B "text") then acc ++ B " " ++ com ++ [chr 10] else [].
(** the rows listed: those chosen of the accounts listed, by date; those of a day account by account (an account before those below it), in
    the order of the files *)
Definition rows_shown (parent : bytes -> option bytes) (listed : bytes -> Prop) (chosen : bytes -> row -> bool) (rows shown : list row) : Prop :=
  exists accs, NoDup accs /\ (forall x, In x accs <-> listed x) /\
    (forall x y, In x accs -> In y accs -> under parent x y -> x <> y -> comes_before accs x y) /\
    Sorted.StronglySorted (fun r r' => row_date r <= row_date r') shown /\
    (forall d, filter (fun r => row_date r =? d) shown = flat_map (fun x => filter (fun r => (row_date r =? d) && chosen x r) rows) accs).
(** a line for each, with its quantity and the sum so far *)
Definition sum_so_far (shown : list row) (i : nat) : Z := zsum (map row_value (firstn (S i) shown)).
Definition lines_of_rows (find : bytes -> res bytes) (com : commodity) (id : bytes -> bytes) (q : request) (acc : bytes) (shown : list row) (lines : list (list bytes * bytes)) : Prop :=
  List.length lines = List.length shown /\
  forall i r, nth_error shown i = Some r -> exists line, nth_error lines i = Some line /\
    file_line find com id (rq_below q) acc (if rq_width q =? 0 then 15 else rq_width q) (rq_notes q) r (sum_so_far shown i) line.
(** the accounts listed: with -r those below too *)
Definition account_listed (parent : bytes -> option bytes) (q : request) (acc x : bytes) : Prop := if rq_below q then under parent acc x else x = acc.
(** the requests whose text is covered: no aggregation, no -f, no negative width, no -p with ! together with -r (C69_selection_refuted), no
    transaction with a single posting among those chosen (C124_single_posting_refuted) *)
Definition plain_request (parent : bytes -> option bytes) (comm : bytes -> commodity) (com : commodity) (chosen : bytes -> row -> bool) (rows : list row) (q : request) (acc : bytes) : Prop :=
  rq_period q = None /\ rq_category q = None /\ rq_location q = false /\ 0 <= rq_width q /\ (rq_below q = true -> forall r, rq_payee q <> B "!" ++ r) /\
  (forall x, account_listed parent q acc x -> comm x = com) /\
  (forall x r, In r rows -> chosen x r = true -> account_listed parent q acc x -> (2 <= List.length (t_postings (fst r)))%nat).
