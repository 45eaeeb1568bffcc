(** What coin commodities -p says of a commodity. *)
From Verif Require Import Base M_Amount M_Date M_Parser M_Database S_Database S_Output S_PriceList.

Definition lines_between (es : list event) (x cur : bytes) : list pprice := filter (fun p => eqb_bytes (pp_currency p) cur) (lines_of es x).
(** in one currency: a latest price, with its day, and the number of price lines in brackets *)
Definition stat_entry (es : list event) (x cur text : bytes) : Prop :=
  exists p s, In p (lines_between es x cur) /\ (forall q, In q (lines_between es x cur) -> pp_time q <= pp_time p) /\ shows_amount s (pp_value p) /\
    text = format_date (pp_time p) ++ B " " ++ s ++ B " " ++ cur ++ B " [" ++ print_nat (Z.of_nat (List.length (lines_between es x cur))) ++ B "]".
(** the line of a commodity: its id, and an entry for each currency there are price lines in *)
Definition stat_row (es : list event) (x row : bytes) : Prop :=
  (lines_of es x = [] /\ row = x ++ [chr 10]) \/
  (exists curs texts, curs <> [] /\ NoDup curs /\ (forall cur, In cur curs <-> lines_between es x cur <> []) /\
     Forall2 (stat_entry es x) curs texts /\ row = x ++ B ": " ++ join (B ", ") texts ++ [chr 10]).
(** no currency of a price line is defined anew after the line *)
Definition settled (es : list event) : Prop := forall p, In p (ev_prices es) -> known es (pp_currency p) = Some (a_com (pp_value p)).
