(** Model of cmd/coin2html: the exported amounts (Go) and the page's own program (cmd/coin2html/js/src: commodity.ts, account.ts,
    utils.ts). A thrown exception is [Fail], a TypeError on undefined is [Panic]. *)
From Coq Require Import QArith Qpower Qround.
From Verif Require Import Base M_Amount M_Date.
Local Open Scope Z_scope.

(** ** Numbers *)
(** a JavaScript number holding an integer: the nearest double (ties to even); exact up to 2^53 *)
Definition to_num (z : Z) : Z :=
  let a := Z.abs z in
  if a <=? 2 ^ 53 then z
  else let u := 2 ^ (Z.log2 a - 52) in
       let q := a / u in let r := 2 * (a mod u) in
       let q := if (u <? r) || ((u =? r) && Z.odd q) then q + 1 else q in
       Z.sgn z * (q * u).

(** ** Amounts *)
(** amount.go:198-200 MarshalJSON: the string that is exported *)
Definition marshal_amount (a : amount) : res bytes :=
  do s <- format_amount a (a_dec a); Ok (s ++ B " " ++ c_id (a_com a)).

(** s.replace(c, "") with a string argument removes the first occurrence only *)
Fixpoint remove_first (c : ascii) (s : bytes) : bytes :=
  match s with [] => [] | x :: r => if eqc x c then r else x :: remove_first c r end.
Fixpoint take_digits (s : bytes) : bytes :=
  match s with c :: r => if is_digit c then c :: take_digits r else [] | [] => [] end.
(** parseInt of a string without leading spaces or 0x; [None] is NaN *)
Definition parse_js_int (s : bytes) : option Z :=
  let '(neg, r) := split_sign s in
  match take_digits r with
  | [] => None
  | ds => Some (if neg then - digits_val ds else digits_val ds)
  end.
(** js/src/commodity.ts:173-193 Amount.parse; [find] is Commodity.find. A NaN value is reported as [Fail] here. *)
Definition web_parse (find : bytes -> option commodity) (input : bytes) : res amount :=
  match split_on " "%char input with
  | [n; id] =>
      match find id with
      | None => Fail
      | Some c =>
          let parts := split_on "."%char n in
          let int := nth 0 parts [] in
          let dec := nth 1 parts [] in
          let int := if (0 <? c_dec c)%nat then
                       remove_first ","%char int ++
                       (if (c_dec c <? List.length dec)%nat then firstn (c_dec c) dec
                        else dec ++ rep "0"%char (c_dec c - List.length dec))
                     else int in
          match parse_js_int int with None => Fail | Some z => Ok (mkAmount (to_num z) c) end
      end
  | _ => Fail
  end.
(** js/src/commodity.ts:352-360 triplets; the argument is the reversed string *)
Fixpoint triplets_rev (r : bytes) : list bytes :=
  match r with
  | [] => []
  | a :: b :: c :: r' => triplets_rev r' ++ [[c; b; a]]
  | short => [rev short]
  end.
Definition triplets (s : bytes) : list bytes := triplets_rev (rev s).
(** js/src/commodity.ts:194-210 toString. Simplification: Number.toString gives the plain digits below 10^21 only. *)
Definition web_string (separators : bool) (a : amount) : bytes :=
  let d := a_dec a in
  let str := print_nat (Z.abs (a_int a)) in
  let str := if (0 <? d)%nat then
      let str := if (List.length str <? d)%nat then rep "0"%char (d - List.length str + 1) ++ str else str in
      let k := (List.length str - d)%nat in
      let int_part := firstn k str in
      let str := (if separators then join (B ",") (triplets int_part) else int_part) ++ B "." ++ skipn k str in
      match str with c :: _ => if eqc c "."%char then "0"%char :: str else str | [] => str end
    else str in
  (if a_int a <? 0 then B "-" else []) ++ str ++ B " " ++ c_id (a_com a).

(** ** Conversion with a price *)
(** round num/den to an integer, ties to even *)
Definition round_even (num den : Z) : Z :=
  let q := num / den in let r := 2 * (num mod den) in
  if (den <? r) || ((den =? r) && Z.odd q) then q + 1 else q.
(** the division of two numbers: the nearest double, ties to even. Simplification: no limits on the exponent. *)
Definition js_div (a b : Z) : Q :=
  if a =? 0 then 0%Q else
  let n := Z.abs a in
  let l := Z.log2 n - Z.log2 b in
  (* 2^l is within a factor of two of n/b; the mantissa has 53 bits *)
  let e := (if n * 2 ^ Z.max 0 (- l) <? b * 2 ^ Z.max 0 l then l - 1 else l) - 52 in
  (inject_Z (Z.sgn a * round_even (n * 2 ^ Z.max 0 (- e)) (b * 2 ^ Z.max 0 e)) * Qpower 2 e)%Q.
(** Math.round *)
Definition math_round (x : Q) : Z := Qround.Qfloor (x + (1 # 2)).
(** js/src/commodity.ts:221-227 convertTo, the price being [v] *)
Definition convert_to (a v : amount) : amount :=
  mkAmount (math_round (js_div (to_num (a_int a * a_int v)) (10 ^ Z.of_nat (a_dec a)))) (a_com v).

(** js/src/commodity.ts:214-220 addIn; [conv] is this.commodity.convert(amount, date) *)
Definition web_add (conv : conversion) (a b : amount) : res amount :=
  if eq_commodity (a_com b) (a_com a) then Ok (mkAmount (to_num (a_int a + a_int b)) (a_com a))
  else do b' <- conv (a_com a) b (a_com b);
       (* the converted amount has this commodity: the recursive call takes the first branch *)
       if eq_commodity (a_com b') (a_com a) then Ok (mkAmount (to_num (a_int a + a_int b')) (a_com a)) else Panic.

(** ** Weekly prices *)
Record wprice := mkWprice { wp_date : Z; wp_value : amount }.
(** js/src/commodity.ts:36-41: [known] are the prices from index cpi on; running past the end is a TypeError *)
Fixpoint skip_older (d : Z) (known : list wprice) : list wprice :=
  match known with [] => [] | p :: r => if wp_date p <? d then skip_older d r else known end.
Fixpoint weekly (known : list wprice) (weeks : list Z) : res (list wprice) :=
  match weeks with
  | [] => Ok []
  | d :: r => let known := skip_older d known in
              match known with
              | [] => Panic
              | p :: _ => do l <- weekly known r; Ok (p :: l)
              end
  end.
(** d3 timeWeek.range(from, to): the Sundays from the first one on or after [from], before [to]; days are numbered as in M_Date.
    Simplification: the page works with instants in the local time zone; all of its dates are local midnights. *)
Definition sunday_from (d : Z) : Z := d + (- weekday d) mod 7.
Fixpoint weeks_from (fuel : nat) (d to : Z) : list Z :=
  match fuel with O => [] | S f => if d <? to then d :: weeks_from f (d + 7) to else [] end.
Definition weeks (from to : Z) : list Z := weeks_from (Z.to_nat (to - from)) (sunday_from from) to.
(** js/src/commodity.ts:34,43: Math.round(scale(d)), a clamped linear scale from [from, to] to [0, n - 1].
    Simplification: exact arithmetic instead of doubles. *)
Definition week_index (from to : Z) (n : nat) (d : Z) : nat :=
  let d := Z.min (Z.max d from) to in
  Z.to_nat ((2 * ((d - from) * (Z.of_nat n - 1)) + (to - from)) / (2 * (to - from))).
(** js/src/commodity.ts:16-49 newConversion and the conversion it makes, for prices sorted by date *)
Definition conversion_price (known : list wprice) (d : Z) : res wprice :=
  match known with
  | [] => Fail
  | p0 :: _ =>
      let from := wp_date p0 in
      let to := wp_date (last known p0) in
      match weeks from to with
      | [] => Ok p0
      | ws => do l <- weekly known ws; match nth_error l (week_index from to (List.length ws) d) with Some p => Ok p | None => Panic end
      end
  end.

(** ** The conversions of a commodity *)
(** js/src/commodity.ts:101-109: the prices by the commodity of their value *)
Fixpoint add_group (p : wprice) (l : list (commodity * list wprice)) : list (commodity * list wprice) :=
  match l with
  | [] => [(a_com (wp_value p), [p])]
  | (c, ps) :: r => if eq_commodity (a_com (wp_value p)) c then (c, ps ++ [p]) :: r else (c, ps) :: add_group p r
  end.
(** js/src/commodity.ts:95-116 conversions, computed once: sorted by date (Array.sort is stable), grouped, one conversion for each group *)
Definition price_groups (prices : list wprice) : list (commodity * list wprice) :=
  fold_left (fun l p => add_group p l) (stable_sort (fun a b => wp_date a <? wp_date b) prices) [].

(** ** Chains of conversions *)
(** a conversion is the list of the commodities it goes through, its steps one less; [ways c] is c.conversions, the Map in
    insertion order *)
Definition way := list commodity.
Definition steps (w : way) : nat := pred (List.length w).
Definition ways := commodity -> list (commodity * way).
Fixpoint way_to (c : commodity) (l : list (commodity * way)) : option way :=
  match l with [] => None | (c', w) :: r => if eq_commodity c c' then Some w else way_to c r end.
Definition cmem (c : commodity) (l : list commodity) : bool := existsb (eq_commodity c) l.
(** the conversions before any search: one step each *)
Definition first_ways (prices : commodity -> list wprice) : ways := fun c => map (fun g => (fst g, [c; fst g])) (price_groups (prices c)).
(** js/src/commodity.ts:128-133: the loop over the conversions of a commodity; the path is kept as the commodities gone
    through, latest first *)
Fixpoint push_next (path : list commodity) (l : list (commodity * way)) (queue : list (list commodity)) (visited : list commodity)
    : list (list commodity) * list commodity :=
  match l with
  | [] => (queue, visited)
  | (c2, w) :: r => if (1 <? steps w)%nat || cmem c2 visited then push_next path r queue visited
                    else push_next path r (queue ++ [c2 :: path]) (visited ++ [c2])
  end.
(** js/src/commodity.ts:119-136 breadthFirstSearch; the fuel bounds the commodities taken from the queue; a queue entry is a path
    (its head the commodity) *)
Fixpoint bfs (fuel : nat) (W : ways) (to : commodity) (queue : list (list commodity)) (visited : list commodity) : option (list commodity) :=
  match fuel with
  | O => None
  | S f =>
      match queue with
      | [] => None
      | [] :: _ => None
      | ((c :: _) as path) :: queue =>
          match way_to to (W c) with
          | Some w => if (steps w =? 1)%nat then Some (to :: path)
                      else let '(queue, visited) := push_next path (W c) queue visited in bfs f W to queue visited
          | None => let '(queue, visited) := push_next path (W c) queue visited in bfs f W to queue visited
          end
      end
  end.
(** Map.set *)
Fixpoint set_way (c : commodity) (w : way) (l : list (commodity * way)) : list (commodity * way) :=
  match l with [] => [(c, w)] | (c', w') :: r => if eq_commodity c c' then (c', w) :: r else (c', w') :: set_way c w r end.
Definition upd_ways (W : ways) (from to : commodity) (w : way) : ways :=
  fun c => if eq_commodity c from then set_way to w (W c) else W c.
(** js/src/commodity.ts:140-144: the steps composed from the end; [done] is the conversion so far, [path] the commodities before it,
    latest first *)
Fixpoint compose_back (W : ways) (to : commodity) (done : way) (path : list commodity) : way * ways :=
  match path with
  | [] => (done, W)
  | c :: r => compose_back (upd_ways W c to (c :: done)) to (c :: done) r
  end.
(** js/src/commodity.ts:118-145 findConversion: the conversion and the conversions known afterwards *)
Definition find_conversion (fuel : nat) (W : ways) (from to : commodity) : option way * ways :=
  match bfs fuel W to [[from]] [from] with
  | None => (None, W)
  | Some path =>   (* to :: cn :: ... :: from *)
      match path with
      | t :: c :: rest => let '(w, W) := compose_back W to [c; t] rest in (Some w, W)
      | _ => (None, W)
      end
  end.
