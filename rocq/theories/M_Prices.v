(** Model of the prices of the coin2html page: their export (price.go MarshalJSON, cmd/coin2html/main.go) and loadPrices
    (cmd/coin2html/js/src/commodity.ts). *)
From Coq Require Import QArith Qpower Qround.
From Verif Require Import Base M_Amount M_Convert M_Date M_Parser M_Writer M_Names M_Ledger M_Json M_Web M_Csv M_Page.
Local Open Scope Z_scope.

(** price.go:81-93 MarshalJSON; the keys of the map in order. After ResolvePrices (coin.go:143-149) Commodity and Currency are the ones with
    the recorded ids. [p_time] is the day of the price. *)
Definition price_json (location : price -> bytes) (p : price) : res json :=
  do v <- marshal_amount (p_value p);
  Ok (JObj ([(B "commodity", JStr (p_com_id p)); (B "currency", JStr (p_cur_id p))] ++ entry (B "location") (location p) ++
            [(B "time", JStr (format_date (p_time p))); (B "value", JStr v)])).
(** cmd/coin2html/main.go:35-39: the element importedPrices, the list coin.Prices *)
Definition export_prices (location : price -> bytes) (ps : list price) : res bytes :=
  do l <- all_json (price_json location) ps; Ok (data_text (slice_json l)).

(** js/src/commodity.ts:256-262 Price; the value [None] is Infinity *)
Record pprice := mkPprice { q_com : commodity; q_date : Z; q_val : option Z; q_cur : commodity }.
(** the product of a double and an integer: the nearest double *)
Definition js_mul (x : Q) (n : Z) : Q := js_div (Qnum x * n) (Zpos (Qden x)).
(** js/src/commodity.ts:236-239 reciprocal. Simplification: powers of ten are exact (they are up to 10^22). *)
Definition reciprocal (v : amount) (decimals : nat) : option Z :=
  if a_int v =? 0 then None
  else let reciprocal := js_div (10 ^ Z.of_nat (a_dec v) * Z.sgn (a_int v)) (Z.abs (a_int v)) in
       Some (math_round (js_mul reciprocal (10 ^ Z.of_nat decimals))).
(** js/src/commodity.ts:283-293 reverse *)
Definition reverse (c : commodity) (date : Z) (v : amount) : pprice := mkPprice (a_com v) date (reciprocal v (c_dec c)) c.
(** the prices of the commodity objects, by their id *)
Definition pprices := bytes -> list pprice.
Definition push_price (P : pprices) (p : pprice) : pprices := updb P (c_id (q_com p)) (P (c_id (q_com p)) ++ [p]).
(** js/src/commodity.ts:329-350 loadPrices; null is skipped *)
Definition load_price (coms : list commodity) (P : pprices) (v : json) : res pprices :=
  do id <- need_text (B "commodity") v;
  match page_find coms id with
  | None => Fail
  | Some c =>
      do s <- need_text (B "value") v;
      do a <- web_parse (page_find coms) s;
      if negb (eqb_bytes (web_string false a) s) then Fail else
      do t <- need_text (B "time") v;
      do d <- js_date t;
      Ok (push_price (push_price P (mkPprice c d (Some (a_int a)) (a_com a))) (reverse c d a))
  end.
Fixpoint load_each_price (coms : list commodity) (P : pprices) (l : list json) : res pprices :=
  match l with [] => Ok P | v :: r => do P <- load_price coms P v; load_each_price coms P r end.
Definition load_prices (coms : list commodity) (src : bytes) : res pprices :=
  match json_parse src with
  | None => Fail
  | Some JNull => Ok (fun _ => [])
  | Some v => do l <- values v; load_each_price coms (fun _ => []) l
  end.
(** the prices as the conversions use them (M_Web); an infinite one is left out *)
Definition finite (p : pprice) : list wprice := match q_val p with Some z => [mkWprice (q_date p) (mkAmount z (q_cur p))] | None => [] end.
Definition page_prices (P : pprices) (c : commodity) : list wprice := flat_map finite (P (c_id c)).
