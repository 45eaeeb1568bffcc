(** Model of the commands tags, stats, accounts and commodities as a whole: from the loaded files and the options to the text printed. *)
From Coq Require Import Permutation.
From Verif Require Import Base M_Amount M_Date M_Names M_Tags M_Parser M_Writer M_Convert M_Ledger M_Report M_Output M_Listing M_Database M_Coin.
Local Open Scope Z_scope.

(** ** tags *)
(** cmd/coin/tags.go:48-57: what the loop sees; [o_tx] gives the iteration order of the tags of the transaction at a place in
    Transactions, [o_post] of those of a posting *)
Definition tag_visits (o_tx o_post : nat -> tags -> tags) (L : ledger) (xs : list rtx) : list visit :=
  map (fun ix => mkVisit (o_tx (fst ix) (parse_tags (x_notes (snd ix))))
                         (map (fun p => (o_post p (parse_tags (rp_notes (heap L p))), rp_acc (heap L p))) (x_posts (snd ix))))
      (combine (seq 0 (List.length xs)) xs).
(** cmd/coin/tags.go:37-75; [o_keys] : the iteration order of cmd.results in sortAndClean; [rex] None = no argument *)
Definition coin_tags (rex : option (bytes -> bool)) (fv fa : bool) (o_tx o_post : nat -> tags -> tags) (o_keys : list bytes -> list bytes) (b : book) : res bytes :=
  let vs := tag_visits o_tx o_post (b_ledger b) (b_txs b) in
  tags_command rex fv fa vs (o_keys (map fst (fst (collect rex fa vs ([], []))))).

(** ** stats *)
(** transaction.go:197-201 String; the decimals are those of the commodities of the accounts *)
Definition tx_string (comm : bytes -> commodity) (L : ledger) (x : rtx) : res bytes := write_transaction (fun a => c_dec (comm a)) (as_written L x).
(** cmd/coin/stats.go:57-60, 72-80, 85-88, 93-96: what is printed; [loc] is Location (transaction.go:203-208), the record of a
    transaction having its line but not its file. Simplification: what is printed before a panic is not kept. *)
Definition item_text (comm : bytes -> commodity) (loc : rtx -> bytes) (L : ledger) (i : stat_item) : res bytes :=
  match i with
  | Duplicate t2 t =>
      do s2 <- tx_string comm L t2; do s <- tx_string comm L t;
      Ok (B "DUPLICATE TRANSACTION?" ++ [nl] ++ loc t2 ++ [nl] ++ s2 ++ [nl] ++ loc t ++ [nl] ++ s ++ [nl])
  | BadConversion t =>
      match x_posts t with
      | p1 :: p2 :: _ =>
          match rp_qty (heap L p1), rp_qty (heap L p2) with
          | Some q1, Some q2 =>
              do s1 <- format_amount q1 (a_dec q1); do s2 <- format_amount q2 (a_dec q2);
              Ok (B "BAD CONVERSION: " ++ format_date (x_posted t) ++ B " " ++ s1 ++ B " " ++ c_id (a_com q1) ++ B " => "
                  ++ s2 ++ B " " ++ c_id (a_com q2) ++ B " : " ++ loc t ++ [nl])
          | _, _ => Panic
          end
      | _ => Panic
      end
  | UnbalancedTx t => do s <- tx_string comm L t; Ok (B "UNBALANCED TRANSACTION!" ++ [nl] ++ loc t ++ [nl] ++ s ++ [nl])
  | Counts c p a t =>
      Ok (B "Commodities: " ++ print_nat (Z.of_nat c) ++ [nl] ++ B "Prices: " ++ print_nat (Z.of_nat p) ++ [nl]
          ++ B "Accounts: " ++ print_nat (Z.of_nat a) ++ [nl] ++ B "Transactions: " ++ print_nat (Z.of_nat t) ++ [nl])
  end.
(** cmd/coin/stats.go:37-97 *)
Definition coin_stats (comm : bytes -> commodity) (loc : rtx -> bytes) (fd fu fc : bool) (begin end_ : option Z) (b : book) : res bytes :=
  do items <- stats_command (b_ledger b) fd fu fc begin end_ (List.length (d_comms (b_db b))) (List.length (d_prices (b_db b))) (List.length (b_names b)) (b_txs b);
  do texts <- res_map (item_text comm loc (b_ledger b)) items;
  Ok (concat texts).

(** ** accounts *)
(** account.go:19-22, 98-104: what is printed of an account; accountFromName sets the name and the default commodity *)
Definition account_info (d : db) (n : bytes) : ainfo :=
  mkAinfo n (match account_read d n with Some a => pa_commodity a | None => d_default d end) (match account_read d n with Some a => pa_desc a | None => [] end).
(** account.go:161: the account has a closing date *)
Definition has_closed (d : db) (n : bytes) : bool :=
  match account_read d n with Some a => match pa_closed a with Some _ => true | None => false end | None => false end.
(** cmd/coin/accounts.go:31-59: the two files are loaded and the accounts resolved ([known], [o1], [o2], [order]: iteration orders
    of AccountsByName). An account whose commodity is not known makes ResolveAccounts panic (coin.go:224): [commodities_known] *)
Definition coin_accounts (limit : nat) (w : world) (DB : bytes) (fuel : nat) (comm : bytes -> commodity) (fc : bool) (rex : option (bytes -> bool)) (out : bytes) : Prop :=
  exists d known o1 o2 T names order,
    load_list limit w [in_dir DB (B "commodities.coin"); in_dir DB (B "accounts.coin")] empty_db = Some (Ok d) /\
    Permutation known (base_accounts (map fst (d_accounts d))) /\ Permutation o1 names /\ Permutation o2 names /\ Permutation order names /\
    resolve_accounts fuel (map fst (d_accounts d)) known o1 o2 = Ok (T, names) /\ commodities_known d names comm /\
    out = accounts_command fc rex (is_closed fuel T (has_closed d)) (account_info d) order.

(** ** commodities *)
Definition commodity_info (d : db) (id : bytes) : cinfo :=
  match lookup id (d_comms d) with Some (_, c) => mkCinfo (pc_symbol c) (pc_nomarket c) (pc_name c) | None => mkCinfo [] false [] end.
(** cmd/coin/commodities.go:46-52, 99-110, without argument and flags; [order]: the iteration order of Commodities *)
Definition coin_commodities (limit : nat) (w : world) (DB : bytes) (out : bytes) : Prop :=
  exists d order, load_list limit w [in_dir DB (B "commodities.coin")] empty_db = Some (Ok d) /\
    Permutation order (map fst (d_comms d)) /\ out = commodities_command (commodity_info d) order.
