(** The prices written in the files, and conversions along them. *)
From Verif Require Import Base M_Amount M_Parser M_Database S_Database.

(** a price line "P <date> <a> <amount> <b>" of the files, with the commodities its ids mean in the end *)
Definition price_line (es : list event) (a b : commodity) (p : pprice) : Prop :=
  In p (ev_prices es) /\ known es (pp_commodity p) = Some a /\ known es (pp_currency p) = Some b.
(** none of the same two commodities is later *)
Definition latest_line (es : list event) (a b : commodity) (p : pprice) : Prop :=
  price_line es a b p /\ forall q, price_line es a b q -> pp_time q <= pp_time p.
(** [v] is [am] multiplied by the latest price from [a] to a next commodity, from there to the next one, ... up to [b] *)
Inductive priced_along (es : list event) (b : commodity) : commodity -> amount -> amount -> Prop :=
| pa_end am : priced_along es b b am am
| pa_step a m am x v p : latest_line es a m p -> times am (pp_value p) = Ok x -> priced_along es b m x v -> priced_along es b a am v.
(** there are lines leading from [a] to [b] *)
Inductive linked (es : list event) (b : commodity) : commodity -> Prop :=
| ln_end : linked es b b
| ln_step a m p : price_line es a m p -> linked es b m -> linked es b a.
