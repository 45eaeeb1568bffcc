(** Model of coin commodities with a commodity as argument: from the files to the text. *)
From Coq Require Import Permutation.
From Verif Require Import Base M_Amount M_Date M_Convert M_Parser M_Writer M_Output M_Listing M_Database M_Lists M_Coin M_Flags M_Main.

(** cmd/coin/commodities.go:65; Value.SafeId(false) is the id of the commodity of the amount (commodity.go:65-76).
    Simplification: not with -f, which adds the location (price.go:75-80), the price record having its line but not its file. *)
Definition price_text (p : price) : res bytes :=
  do s <- string_amount (p_value p);
  Ok (format_date (p_time p) ++ B " " ++ s ++ B " " ++ c_id (a_com (p_value p)) ++ [nl]).
(** cmd/coin/commodities.go:43-45, 51-70: coin.go:62-72 LoadPrices, coin.go:143-160 ResolvePrices, the lookup of the argument and the
    loops; [order] : the iteration order of the currencies of the commodity. For an unknown commodity there is only a message on stderr *)
Definition coin_prices (limit : nat) (w : world) (DB x out : bytes) : Prop :=
  exists d db prices', load_prices limit w DB empty_db = Some (Ok d) /\
    resolve_prices (find_comm d) (map to_price (d_prices d)) db prices' /\
    match find_comm d x with
    | None => out = []
    | Some c => exists order, Permutation order (map fst (prices_of db c)) /\
                  (do texts <- res_map price_text (price_list db c order); Ok (concat texts)) = Ok out
    end.
(** cmd/coin/commodities.go:41-70: with an argument -q, -p and further arguments do nothing *)
Definition commodity_prices_line (limit : nat) (w : world) (DB : bytes) (args : list bytes) (out : bytes) : Prop :=
  exists given x more, parse_flags commodities_flags args = Ok (given, x :: more) /\ bool_setting (B "f") given = false /\ coin_prices limit w DB x out.
