(** Specification of conversions. *)
From Verif Require Import Base M_Amount M_Convert.

(** "commodity [a] has a recorded price list in currency [b] whose first price is [p]" *)
Definition priced (db : pricedb) (a b : commodity) (p : price) : Prop :=
  exists ps, assoc b (prices_of db a) = Some (p :: ps).

(** a chain of price records from [a] to [b] with the first price of every hop *)
Inductive chain (db : pricedb) : commodity -> commodity -> list price -> Prop :=
| chain_nil a : chain db a a []
| chain_cons a b c p ps : priced db a b p -> chain db b c ps -> chain db a c (p :: ps).

(** multiplying along a chain *)
Fixpoint times_all (am : amount) (ps : list price) : res amount :=
  match ps with [] => Ok am | p :: r => do v <- times am (p_value p); times_all v r end.

(** A well formed price database: at most one non-empty price list per currency in every commodity's
    map, prices in commodities of at most 50 decimals (what AddPrice builds, see L_Convert). *)
Definition db_ok (db : pricedb) : Prop :=
  NoDup (map fst db) /\
  (forall a m, In (a, m) db -> NoDup (map fst m) /\
     forall b ps, In (b, ps) m -> ps <> [] /\ Forall (fun p => (c_dec (a_com (p_value p)) <= 50)%nat) ps).

(** the price list kept for a pair *)
Definition pair_prices (db : pricedb) (a b : commodity) : list price :=
  match assoc b (prices_of db a) with Some l => l | None => [] end.

(** the prices recorded for a pair, in reading order *)
Definition recorded (find : find_commodity) (ps : list price) (a b : commodity) : list price :=
  filter (fun p => match find (p_com_id p), find (p_cur_id p) with
                   | Some x, Some y => eq_commodity a x && eq_commodity b y
                   | _, _ => false end) ps.

