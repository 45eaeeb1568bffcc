(** Model of cmd/ofx2coin/main.go: statements into transactions, de-duplication. The decoding of OFX (ofxgo) is given: a
    statement is what it returns. Times: [x_posted] and [rp_date] are instants here, seconds counted from the origin of the
    days of M_Date; transactions read from coin files are at noon (UTC) of their day (date.go:29), see [at_noon].
    Simplification: all records of an import are in one time zone, [shown t] is the day printed for the instant t. *)
From Verif Require Import Base M_Amount M_Date M_Regex M_Parser M_Writer M_Names M_Ledger M_Rules M_Commands.

(** what is used of a transaction record and of a statement: ofxgo.Transaction DtPosted, Name, Memo, TrnAmt;
    StatementResponse AcctID, BalAmt, BankTranList *)
Record orec := mkRec { o_time : Z; o_name : bytes; o_memo : bytes; o_num : Z; o_den : Z }.
Record statement := mkStatement { st_id : bytes; st_balance : Z * Z; st_recs : list orec }.
(** responses.Bank and responses.CreditCard *)
Record ofx_file := mkOfx { of_bank : list statement; of_card : list statement }.

(** date.go:29 parsed dates are at 12:00 UTC *)
Definition noon (day : Z) : Z := day * 86400 + 43200.
Definition at_noon (t : transaction) : transaction := mkTransaction (noon (t_posted t)) (t_code t) (t_desc t) (t_notes t) (t_postings t) (t_line t).
(** time.Time{}: 1 January of the year 1, 00:00 UTC *)
Definition zero_time : Z := go_date 1 1 1 * 86400.

Section Ofx.
Variable matches : bytes -> bytes -> bool.        (* the patterns of rules, see M_Rules *)
Variable fuel : nat.                              (* depth to which rule sets are followed, see M_Rules.rule_for *)
Variable comm : bytes -> commodity.               (* Account.Commodity *)
Variable by_ofx_id : bytes -> option bytes.       (* FindAccountOfxId *)

(** main.go:169-198 newTransaction; Fail: the lookup of the rule does not end within [fuel] *)
Definition new_transaction (L : ledger) (sets : list ruleset) (ars : arules) (time : Z) (payee : bytes) (num den : Z)
    (balance : option (Z * Z)) : res (ledger * option rtx) :=
  match rule_for matches fuel sets payee (ar_rules ars) with
  | None => Fail
  | Some found =>
      match found with
      | Some (mkRule None _ _) => Ok (L, None)
      | _ =>
          let to := match found with Some (mkRule (Some a) _ _) => a | _ => unbalanced end in
          let notes := match found with Some r => r_notes r | None => [] end in
          do amt <- new_amount_frac num den (comm (ar_account ars));
          do bal <- match balance with
                    | None => Ok None
                    | Some (n, d) => do b <- new_amount_frac n d (comm (ar_account ars)); Ok (Some b)
                    end;
          let '(L, x) := post L (mkTx time [] payee notes [] O) (ar_account ars) to amt bal in
          Ok (L, Some x)
      end
  end.
Fixpoint read_recs (L : ledger) (sets : list ruleset) (ars : arules) (payee : orec -> bytes) (balance : option (Z * Z)) (rs : list orec)
    : res (ledger * list rtx) :=
  match rs with
  | [] => Ok (L, [])
  | r :: rest =>
      do Lx <- new_transaction L sets ars (o_time r) (payee r) (o_num r) (o_den r) (match rest with [] => balance | _ => None end);
      do Lxs <- read_recs (fst Lx) sets ars payee balance rest;
      Ok (fst Lxs, match snd Lx with Some x => x :: snd Lxs | None => snd Lxs end)
  end.
(** main.go:131-148 (bank: name and memo, the balance goes with the last record), 150-164 (cards: name, no balance) *)
Fixpoint read_statements (bank : bool) (L : ledger) (ri : option rindex) (sts : list statement) : res (ledger * list rtx) :=
  match sts with
  | [] => Ok (L, [])
  | st :: rest =>
      match ri with
      | None => Panic                              (* rules.go:29, a nil index *)
      | Some i =>
          do ars <- account_rules_for by_ofx_id i (st_id st);
          do Lx <- read_recs L (ri_sets i) ars (fun r => if bank then trim_ws (o_name r ++ o_memo r) else o_name r)
                     (if bank then Some (st_balance st) else None) (st_recs st);
          do Lxs <- read_statements bank (fst Lx) ri rest;
          Ok (fst Lxs, snd Lx ++ snd Lxs)
      end
  end.
(** main.go:124-167 readTransactions *)
Definition read_ofx (L : ledger) (ri : option rindex) (f : ofx_file) : res (ledger * list rtx) :=
  do Lb <- read_statements true L ri (of_bank f);
  do Lc <- read_statements false (fst Lb) ri (of_card f);
  Ok (fst Lc, snd Lb ++ snd Lc).
(** main.go:72-84 *)
Fixpoint read_files (L : ledger) (ri : option rindex) (fs : list ofx_file) : res (ledger * list rtx) :=
  match fs with
  | [] => Ok (L, [])
  | f :: rest =>
      do Lx <- read_ofx L ri f;
      do Lxs <- read_files (fst Lx) ri rest;
      Ok (fst Lxs, snd Lx ++ snd Lxs)
  end.
End Ofx.

(** main.go:88-116 the loop; [old] is coin.Transactions *)
Record dd := mkDD { d_prev : Z; d_old : list rtx; d_day : list rtx; d_filtered : list rtx }.
Fixpoint dedupe (L : ledger) (old : list rtx) (s : dd) (xs : list rtx) : res (ledger * list rtx) :=
  match xs with
  | [] => Ok (L, d_filtered s ++ d_day s)
  | t :: rest =>
      let s := if x_posted t =? d_prev s then s
               else mkDD (x_posted t) (day old (x_posted t)) [] (d_filtered s ++ d_day s) in
      do e <- find_equal L (d_old s) t;
      match e with
      | Some _ => dedupe L old s rest
      | None =>
          do e <- find_equal L (d_day s) t;
          match e with
          | Some t2 => do L <- merge_duplicate L t2 t; dedupe L old s rest
          | None => dedupe L old (mkDD (d_prev s) (d_old s) (d_day s ++ [t]) (d_filtered s)) rest
          end
      end
  end.
Definition filter_dupes (L : ledger) (old xs : list rtx) : res (ledger * list rtx) := dedupe L old (mkDD zero_time [] [] []) xs.

(** main.go:70-121: the transactions written, in order; M_Writer gives the text *)
Definition written_on (shown : Z -> Z) (L : ledger) (x : rtx) : transaction :=
  let t := as_written L x in mkTransaction (shown (t_posted t)) (t_code t) (t_desc t) (t_notes t) (t_postings t) (t_line t).
Definition ofx2coin (matches : bytes -> bytes -> bool) (fuel : nat) (comm : bytes -> commodity) (by_ofx_id : bytes -> option bytes)
    (shown : Z -> Z) (keep_dupes : bool) (L : ledger) (old : list rtx) (ri : option rindex) (fs : list ofx_file) : res (list transaction) :=
  do Lx <- read_files matches fuel comm by_ofx_id L ri fs;
  let xs := stable_sort (tx_less (fst Lx)) (snd Lx) in
  do Lk <- (if keep_dupes then Ok (fst Lx, xs) else filter_dupes (fst Lx) old xs);
  Ok (map (written_on shown (fst Lk)) (snd Lk)).
