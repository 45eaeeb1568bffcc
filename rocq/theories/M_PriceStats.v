(** Model of coin commodities -p: from the files to the text. *)
From Coq Require Import Permutation.
From Verif Require Import Base M_Amount M_Date M_Convert M_Names M_Parser M_Writer M_Output M_Listing M_Database M_Flags M_Main.

(** commodity.go:84-93: one currency of String; the precision is that of the currency, if it has decimals, else that of the amount (amount.go:54-57) *)
Definition stat_text (r : commodity * price * nat) : res bytes :=
  let '(cur, p, n) := r in
  do s <- format_amount (p_value p) (if (0 <? c_dec cur)%nat then c_dec cur else a_dec (p_value p));
  Ok (format_date (p_time p) ++ B " " ++ s ++ B " " ++ c_id cur ++ B " [" ++ print_nat (Z.of_nat n) ++ B "]").
(** commodity.go:78-98 String; [order]: the iteration order of Prices *)
Definition commodity_string (c : commodity) (m : pmap) (order : list commodity) : res bytes :=
  match m with
  | [] => Ok (c_id c)
  | _ => do rows <- price_stats m order; do ts <- res_map stat_text rows; Ok (c_id c ++ B ": " ++ join (B ", ") ts)
  end.
(** cmd/coin/commodities.go:99-102, coin.go:362-371 CommoditiesDo *)
Definition stats_lines (find : find_commodity) (db : pricedb) (orders : commodity -> list commodity) (ids : list bytes) : res bytes :=
  do ts <- res_map (fun id => match find id with
                              | Some c => do s <- commodity_string c (prices_of db c) (orders c); Ok (s ++ [nl])
                              | None => Panic end) ids;
  Ok (concat ts).
(** cmd/coin/commodities.go:43-45, 99-102; [order]: the iteration order of Commodities *)
Definition coin_price_stats (limit : nat) (w : world) (DB out : bytes) : Prop :=
  exists d db prices' order orders, load_prices limit w DB empty_db = Some (Ok d) /\
    resolve_prices (find_comm d) (map to_price (d_prices d)) db prices' /\
    Permutation order (map fst (d_comms d)) /\ (forall c, Permutation (orders c) (map fst (prices_of db c))) /\
    stats_lines (find_comm d) db orders (sort_strings order) = Ok out.
(** cmd/coin/commodities.go:41-52, 71-101: -p without an argument and without -q *)
Definition price_stats_line (limit : nat) (w : world) (DB : bytes) (args : list bytes) (out : bytes) : Prop :=
  exists given, parse_flags commodities_flags args = Ok (given, []) /\ bool_setting (B "q") given = false /\ bool_setting (B "p") given = true /\
    coin_price_stats limit w DB out.
