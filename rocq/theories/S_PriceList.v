(** The prices of a commodity as coin commodities lists them. *)
From Coq Require Import Permutation Sorted.
From Verif Require Import Base M_Amount M_Date M_Parser M_Database S_Database S_Output.

(** the files read: commodities.coin, then prices.coin, or else all files *.prices *)
Definition price_files (w : world) (DB : bytes) : list bytes :=
  in_dir DB (B "commodities.coin") ::
  match w_file w (in_dir DB (B "prices.coin")) with
  | Some _ => [in_dir DB (B "prices.coin")]
  | None => match w_glob w (in_dir DB (B "*.prices")) with Ok l => l | _ => [] end
  end.
(** the price lines "P <date> <x> <amount> <currency>" of commodity [x] *)
Definition lines_of (es : list event) (x : bytes) : list pprice := filter (fun p => eqb_bytes (pp_commodity p) x) (ev_prices es).
(** how a price is listed: date, amount, currency *)
Definition price_row (p : pprice) (row : bytes) : Prop :=
  exists s, shows_amount s (pp_value p) /\ row = format_date (pp_time p) ++ B " " ++ s ++ B " " ++ pp_currency p ++ [chr 10].
(** a list of prices is made of one block for each currency, the latest price first in each *)
Definition in_blocks (ps : list pprice) : Prop :=
  exists blocks : list (bytes * list pprice), ps = concat (map snd blocks) /\ NoDup (map fst blocks) /\
    forall cur l, In (cur, l) blocks -> l <> [] /\ (forall p, In p l -> pp_currency p = cur) /\ StronglySorted (fun p q => pp_time q <= pp_time p) l.
(** [out] is the list of the prices of [x]: every price line of it once *)
Definition lists_prices (es : list event) (x out : bytes) : Prop :=
  exists ps rows, Permutation ps (lines_of es x) /\ in_blocks ps /\ Forall2 price_row ps rows /\ out = concat rows.
