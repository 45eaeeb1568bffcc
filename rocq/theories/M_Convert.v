(** Model of price.go / commodity.go price lists, coin.go ResolvePrices and Commodity.Convert. *)
From Verif Require Import Base M_Amount.
From Coq Require Import Permutation Sorted.

(** price.go:13-23; [p_time] orders instants (any integer time scale) *)
Record price := mkPrice { p_com_id : bytes; p_cur_id : bytes; p_value : amount; p_time : Z }.

(** commodity.go:30-31: a commodity's Prices map, currency -> price list; the list order of the
    association stands for nothing (map iteration order is an explicit argument below). *)
Definition pmap := list (commodity * list price).
(** all commodities' Prices maps *)
Definition pricedb := list (commodity * pmap).

Fixpoint assoc {A} (k : commodity) (l : list (commodity * A)) : option A :=
  match l with
  | [] => None
  | (k', v) :: r => if eq_commodity k k' then Some v else assoc k r
  end.
(** c.Prices (nil map = empty) *)
Definition prices_of (db : pricedb) (c : commodity) : pmap :=
  match assoc c db with Some m => m | None => [] end.

Fixpoint assoc_upd {A} (k : commodity) (f : option A -> A) (l : list (commodity * A)) : list (commodity * A) :=
  match l with
  | [] => [(k, f None)]
  | (k', v) :: r => if eq_commodity k k' then (k', f (Some v)) :: r else (k', v) :: assoc_upd k f r
  end.

(** commodity.go:40-45 AddPrice *)
Definition add_price (db : pricedb) (c cur : commodity) (p : price) : pricedb :=
  assoc_upd c (fun m => assoc_upd cur (fun ps => (match ps with Some l => l | None => [] end) ++ [p])
                                  (match m with Some m => m | None => [] end)) db.

(** coin.go:54-59 MustFindCommodity over the Commodities map *)
Definition find_commodity := bytes -> option commodity.
Definition must_find_commodity (find : find_commodity) (id : bytes) : res commodity :=
  match find id with Some c => Ok c | None => Panic end.

(** coin.go:144-148: the first loop of ResolvePrices *)
Fixpoint add_prices (find : find_commodity) (ps : list price) (db : pricedb) : res pricedb :=
  match ps with
  | [] => Ok db
  | p :: r =>
      do c <- must_find_commodity find (p_com_id p);
      do cur <- must_find_commodity find (p_cur_id p);
      add_prices find r (add_price db c cur p)
  end.

(** sort.Slice(l, less): not stable, so its result is any permutation in which no later
    element is less than an earlier one (the contract for a strict weak order). *)
Definition sort_slice {A} (less : A -> A -> bool) (l l' : list A) : Prop :=
  Permutation l l' /\ StronglySorted (fun a b => less b a = false) l'.

(** coin.go:143-160 ResolvePrices starting from empty price maps: [db'] is the resulting price maps
    (sorted by descending time) and [prices'] the global list (ascending). *)
Definition resolve_prices (find : find_commodity) (prices : list price) (db' : pricedb) (prices' : list price) : Prop :=
  exists db, add_prices find prices [] = Ok db /\
    Forall2 (fun e e' => fst e = fst e' /\
       Forall2 (fun x x' => fst x = fst x' /\
                 sort_slice (fun a b => p_time b <? p_time a) (snd x) (snd x')) (snd e) (snd e')) db db' /\
    sort_slice (fun a b => p_time a <? p_time b) prices prices'.

(** commodity.go:188-195 includedIn *)
Definition included_in (c : commodity) (l : list commodity) : bool := existsb (eq_commodity c) l.

(** Iteration order of "range c2.Prices": depends on the call, here identified by the
    trail of previous commodities and c2; any function returning a permutation is allowed. *)
Definition map_order := list commodity -> commodity -> pmap -> pmap.
Definition order_ok (o : map_order) : Prop := forall prev c m, Permutation m (o prev c m).

(** commodity.go:197-224 convert; the outer option is [None] when the fuel is exhausted.
    [previous] is kept in the order of the Go slice. *)
Fixpoint convert_fuel (fuel : nat) (db : pricedb) (o : map_order) (c : commodity) (am : amount) (c2 : commodity)
    (previous : list commodity) : option (res amount) :=
  match fuel with
  | O => None
  | S f =>
    if eq_commodity c c2 then Some (Ok am)
    else match assoc c (prices_of db c2) with
    | Some [] => Some Panic                     (* prices[0] of an empty list; AddPrice never leaves one *)
    | Some (p :: _) => Some (times am (p_value p))
    | None =>
      (fix loop (es : pmap) : option (res amount) :=
         match es with
         | [] => Some Fail
         | (c3, ps) :: r =>
             if included_in c3 previous then loop r
             else match ps with
                  | [] => Some Panic
                  | p :: _ =>
                      match times am (p_value p) with
                      | Panic => Some Panic
                      | Fail => Some Fail      (* times never fails with an error *)
                      | Ok val2 =>
                          match convert_fuel f db o c val2 c3 (previous ++ [c2]) with
                          | None => None
                          | Some (Ok v) => Some (Ok v)
                          | Some Fail => loop r
                          | Some Panic => Some Panic
                          end
                      end
                  end
         end) (o previous c2 (prices_of db c2))
    end
  end.

(** enough fuel for every database (proved): the trail holds each priced currency at most twice *)
Definition db_size (db : pricedb) : nat :=
  fold_right (fun e n => (List.length (snd e) + n)%nat) O db.
(** commodity.go:184-186 Convert *)
Definition convert (db : pricedb) (o : map_order) (c : commodity) (am : amount) (c2 : commodity) : option (res amount) :=
  convert_fuel (2 * db_size db + 4) db o c am c2 [].
