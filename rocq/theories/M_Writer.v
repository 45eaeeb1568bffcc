(** Model of the Write methods (ledger = false): transaction.go, posting.go, account.go, commodity.go, price.go,
    and of writeTransactions (cmd/coin/format.go:49-64). Simplification: write errors are not modelled here. *)
From Verif Require Import Base M_Amount M_Regex M_Date M_Parser.

(** transaction.go:16 *)
Definition line_max : nat := 80.

(** the note that still fits on a line: (line, remaining notes) *)
Definition fit_note (line : bytes) (notes : list bytes) : bytes * list bytes :=
  match notes with
  | n :: r => if (List.length n + List.length line <? line_max - 3)%nat then (line ++ B " ; " ++ n, r) else (line, notes)
  | [] => (line, [])
  end.
Definition put_line (l : bytes) : bytes := l ++ [nl].

(** posting.go:23-49 Write; Quantity is not nil after ResolveTransactions *)
Definition write_posting (off aw mw : nat) (s : posting) : res bytes :=
  match ps_quantity s with
  | None => Panic
  | Some q =>
      do qs <- format_amount q (a_dec q);
      let line := rep " "%char off ++ pad_right aw (ps_account s) ++ B "  " ++ pad_left mw qs ++ B " " ++ c_id (a_com q) in
      do line <- match ps_balance s with
                 | None => Ok line
                 | Some b => do bs <- format_amount b (a_dec b); Ok (line ++ B " = " ++ bs ++ B " " ++ c_id (a_com b))
                 end;
      let '(line, notes) := fit_note line (ps_notes s) in
      Ok (put_line line ++ concat (map (fun n => put_line (B "    ; " ++ n)) notes))
  end.
Fixpoint res_map {A C} (f : A -> res C) (l : list A) : res (list C) :=
  match l with [] => Ok [] | x :: r => do y <- f x; do ys <- res_map f r; Ok (y :: ys) end.
Definition list_max_nat (l : list nat) : nat := fold_right Nat.max O l.

(** transaction.go:81-117 Write; [acc_dec] gives the decimals of an account's commodity *)
Definition write_transaction (acc_dec : bytes -> nat) (t : transaction) : res bytes :=
  let line := format_date (t_posted t) ++ B " " ++ (match t_code t with [] => [] | c => B "(" ++ c ++ B ") " end) ++ t_desc t in
  let '(line, notes) := fit_note line (t_notes t) in
  let head := put_line line ++ concat (map (fun n => put_line (B "  ; " ++ n)) notes) in
  let maxn := list_max_nat (map (fun s => List.length (ps_account s)) (t_postings t)) in
  do ws <- res_map (fun s => match ps_quantity s with None => Panic | Some q => width q (acc_dec (ps_account s)) end) (t_postings t);
  do pss <- res_map (write_posting 2 maxn (list_max_nat ws)) (t_postings t);
  Ok (head ++ concat pss).
(** cmd/coin/format.go:49-64 *)
Definition write_transactions (acc_dec : bytes -> nat) (ts : list transaction) : res bytes :=
  do ls <- res_map (fun t => do x <- write_transaction acc_dec t; Ok (x ++ [nl])) ts;
  Ok (concat ls).

(** account.go:54-80 *)
Definition write_account (a : paccount) : bytes :=
  put_line (B "account " ++ pa_name a)
  ++ (match pa_desc a with [] => [] | d => put_line (B "  note " ++ d) end)
  ++ put_line (B "  commodity " ++ pa_commodity a)
  ++ (match pa_closed a with None => [] | Some d => put_line (B "  closed " ++ format_date d) end)
  ++ (match pa_bankid a with [] => [] | d => put_line (B "  ofx_bankid " ++ d) end)
  ++ (match pa_acctid a with [] => [] | d => put_line (B "  ofx_acctid " ++ d) end)
  ++ (match pa_csvid a with [] => [] | d => put_line (B "  csv_acctid " ++ d) end).

(** commodity.go:111-135: the symbol and "default" are not written *)
Definition write_commodity (c : pcommodity) : bytes :=
  put_line (B "commodity " ++ pc_id c)
  ++ (match pc_name c with [] => [] | n => put_line (B "  note " ++ n) end)
  ++ put_line (B "  format " ++ (match pc_dec c with O => B "1" | d => B "1." ++ rep "0"%char d end) ++ B " " ++ pc_id c)
  ++ (if pc_nomarket c then put_line (B "  nomarket") else []).

(** price.go:27-39; amount.go:105-108 *)
Definition write_price (p : pprice) : res bytes :=
  do v <- write_amount (pp_value p);
  Ok (B "P " ++ format_date (pp_time p) ++ B " " ++ pp_commodity p ++ B " " ++ v ++ [nl]).

(** Write of one entry (tests and includes are not written) *)
Definition write_item (acc_dec : bytes -> nat) (i : item) : res bytes :=
  match i with
  | ITransaction t => write_transaction acc_dec t
  | IAccount a => Ok (write_account a)
  | ICommodity c => Ok (write_commodity c)
  | IPrice p => write_price p
  | ITest _ | IInclude _ _ => Fail
  end.
(** cmd/gc2coin/main.go:62-138, cmd/gen2coin/main.go:94-126: entries other than prices are followed by an empty line *)
Definition item_sep (i : item) : list bytes := match i with IPrice _ => [] | _ => [[]] end.
Definition write_items (acc_dec : bytes -> nat) (is_ : list item) : res bytes :=
  do ls <- res_map (fun i => do x <- write_item acc_dec i; Ok (x ++ concat (map put_line (item_sep i)))) is_; Ok (concat ls).

(** cmd/coin/format.go:28-76 on one transaction file in which every quantity is given and the transactions are in
    order already: read, then write the transactions. The full command, with ResolveTransactions, is in M_Commands.v. *)
Definition transactions_of (is_ : list item) : list transaction :=
  flat_map (fun i => match i with ITransaction t => [t] | _ => [] end) is_.
Definition format_text (e : env) (acc_dec : bytes -> nat) (text : bytes) : res bytes :=
  do is_ <- read_text e text; write_transactions acc_dec (transactions_of is_).
