(** Model of amount.go and pow10.go. No proofs here. *)
From Verif Require Import Base.

(** commodity.go:22-38 [Commodity]. [c_key] stands for the pointer identity used by [==]
    and as map key; prices live in M_Convert. [Decimals] (int) is never negative in the code. *)
Record commodity := mkCommodity { c_key : nat; c_id : bytes; c_dec : nat }.
(** Go's pointer comparison. Two pointers are equal iff they have the same key, and then they point at the
    same fields; comparing all fields makes [eq_commodity] decide [=] on the records. *)
Definition eq_commodity (a b : commodity) : bool :=
  (c_key a =? c_key b)%nat && eqb_bytes (c_id a) (c_id b) && (c_dec a =? c_dec b)%nat.

(** amount.go:16-19 *)
Record amount := mkAmount { a_int : Z; a_com : commodity }.
Definition a_dec (a : amount) : nat := c_dec (a_com a).

(** pow10.go:18-33 init: the tables built by repeated multiplication *)
Fixpoint pow_table (n : nat) (prev : Z) : list Z :=
  match n with O => [] | S k => let next := prev * 10 in next :: pow_table k next end.
Definition log10s : list Z := pow_table 18 1.
Definition bigPow10s : list Z := pow_table 50 1.

(** pow10.go:68-73 bigPow10 (index past the table panics) *)
Definition big_pow10 (i : nat) : res Z :=
  match i with
  | O => Ok 1
  | S k => match nth_error bigPow10s k with Some v => Ok v | None => Panic end
  end.
(** pow10.go:52-57 pow10 *)
Definition pow10 (i : Z) : res Z :=
  if i <? 1 then Ok 1
  else match nth_error log10s (Z.to_nat (i - 1)) with Some v => Ok v | None => Panic end.
(** pow10.go:35-50 log10 *)
Definition log10 (i : Z) : Z :=
  if i <? 10 then 0 else if i <? 100 then 1 else if i <? 1000 then 2 else if i <? 10000 then 3
  else Z.of_nat (search (List.length log10s) (fun j => i <? nth j log10s 0)).
(** pow10.go:59-66 bigLog10: linear scan of the table *)
Fixpoint big_log10_scan (i : nat) (tbl : list Z) (b : Z) : res nat :=
  match tbl with
  | [] => Panic
  | p :: r => if Z.abs b <? Z.abs p then Ok i else big_log10_scan (S i) r b
  end.
Definition big_log10 (b : Z) : res nat := big_log10_scan 0 bigPow10s b.

(** commodity.go:234-236 SetFraction *)
Definition set_fraction (frac : Z) : Z := log10 frac.

(** amount.go:21-28 NewAmountFrac; big.Int.Div is Euclidean division, panics on 0 *)
Definition euclid_div (a b : Z) : Z := if b <? 0 then - (a / (- b)) else a / b.
Definition new_amount_frac (num den : Z) (c : commodity) : res amount :=
  do b <- (if (0 <? c_dec c)%nat then do p <- big_pow10 (c_dec c); Ok (num * p) else Ok num);
  if den =? 0 then Panic else Ok (mkAmount (euclid_div b den) c).

(** amount.go:30-32 *)
Definition zero_amount (c : commodity) : amount := mkAmount 0 c.

(** math/big Rat.FloatString(prec) for the fraction a/b, b > 0 (math/big/ratconv.go).
    The Rat is not reduced to lowest terms here: quotient, comparison and rounding
    are the same for any common factor. *)
Definition float_string (a b : Z) (prec : nat) : bytes :=
  if a mod b =? 0 then
    print_int (a / b) ++ (if (0 <? prec)%nat then "."%char :: rep "0"%char prec else [])
  else
    let q := Z.abs a / b in
    let r := Z.abs a mod b in
    let p := 10 ^ Z.of_nat prec in
    let r1 := (r * p) / b in
    let r2 := 2 * ((r * p) mod b) in
    let '(q, r1) := if b <=? r2 then
                      let r1 := r1 + 1 in
                      if p <=? r1 then (q + 1, r1 - p) else (q, r1)
                    else (q, r1) in
    (if a <? 0 then ["-"%char] else []) ++ print_nat q ++
    (if (0 <? prec)%nat then
       let rs := print_nat r1 in
       "."%char :: rep "0"%char (prec - List.length rs) ++ rs
     else []).

(** amount.go:49-73 Format, without flags '#', ' ', '-' (width is applied by the callers, pad_left) *)
Definition format_amount (a : amount) (prec : nat) : res bytes :=
  do p <- big_pow10 (a_dec a); Ok (float_string (a_int a) p prec).
(** amount.go:42-46 String *)
Definition string_amount (a : amount) : res bytes := format_amount a (a_dec a).

(** amount.go:105-108 Write with ledger=false, where commodity.go:65-76 SafeId is the plain id *)
Definition write_amount (a : amount) : res bytes :=
  do s <- format_amount a (a_dec a); Ok (s ++ B " " ++ c_id (a_com a)).

(** amount.go:75-103 parseAmount *)
Definition parse_amount (s : bytes) (c : commodity) : res amount :=
  match split_on "."%char s with
  | [s0] =>
      do i <- parse_int64 s0;
      if (0 <? c_dec c)%nat then do p <- big_pow10 (c_dec c); Ok (mkAmount (i * p) c)
      else Ok (mkAmount i c)
  | [s0; s1] =>
      do i <- parse_int64 (s0 ++ s1);
      let decimals := List.length s1 in
      if negb (c_dec c =? decimals)%nat then
        do p <- big_pow10 (c_dec c);
        do q <- big_pow10 decimals;
        Ok (mkAmount (i * p / q) c)
      else Ok (mkAmount i c)
  | _ => Fail
  end.

(** amount.go:175-181 MustParseAmount *)
Definition must_parse_amount (s : bytes) (c : commodity) : res amount :=
  match parse_amount s c with Fail => Panic | r => r end.

(** amount.go:110-118 adjustedTo (receiver [b], argument [a]); big.Int.Quo truncates *)
Definition adjusted_to (b a : amount) : res Z :=
  if (a_dec b <? a_dec a)%nat then do p <- big_pow10 (a_dec a - a_dec b); Ok (a_int b * p)
  else if (a_dec a <? a_dec b)%nat then do p <- big_pow10 (a_dec b - a_dec a); Ok (Z.quot (a_int b) p)
  else Ok (a_int b).

(** The conversion used by AddIn: [conv c amount c2] models c.Convert(amount, c2)
    (commodity.go:184); M_Convert gives it, theorems about AddIn hold for any. *)
Definition conversion := commodity -> amount -> commodity -> res amount.

(** amount.go:120-129 AddIn: returns the new value of the receiver [a]; [b] is left alone *)
Definition add_in (conv : conversion) (a b : amount) : res amount :=
  do b' <- (if eq_commodity (a_com a) (a_com b) then Ok b else conv (a_com a) b (a_com b));
  do i <- adjusted_to b' a;
  Ok (mkAmount (a_int a + i) (a_com a)).

(** amount.go:131-137 Times *)
Definition times (a b : amount) : res amount :=
  do p <- big_pow10 (a_dec b);
  Ok (mkAmount (Z.quot (a_int a * a_int b) p) (a_com a)).

(** amount.go:139-141 IsZero (non-nil receiver) *)
Definition is_zero (a : amount) : bool := a_int a =? 0.
(** amount.go:146-148 Cmp *)
Definition cmp (a b : amount) : res comparison :=
  do i <- adjusted_to b a; Ok (Z.compare (a_int a) i).
(** amount.go:143-145 *)
Definition is_equal (a b : amount) : res bool := do c <- cmp a b; Ok (match c with Eq => true | _ => false end).
Definition is_less_than (a b : amount) : res bool := do c <- cmp a b; Ok (match c with Lt => true | _ => false end).
Definition is_more_than (a b : amount) : res bool := do c <- cmp a b; Ok (match c with Gt => true | _ => false end).
(** amount.go:150-158 CmpMagnitude, IsBigger, IsSmaller *)
Definition cmp_magnitude (a b : amount) : comparison := Z.compare (Z.abs (a_int a)) (Z.abs (a_int b)).
Definition is_bigger (a b : amount) : bool := match cmp_magnitude a b with Gt => true | _ => false end.
(** amount.go:168-173 Negated *)
Definition negated (a : amount) : amount := mkAmount (- a_int a) (a_com a).

(** amount.go:183-196 Width *)
Definition width (a : amount) (decimals : nat) : res nat :=
  do l <- big_log10 (a_int a);
  let w := (l + 1)%nat in
  let w := if (w <=? a_dec a)%nat then (a_dec a + 1)%nat else w in
  let w := (w - a_dec a + decimals)%nat in   (* w > a.Decimals here, so nat subtraction is exact *)
  let w := if (0 <? decimals)%nat then (w + 1)%nat else w in
  let w := if a_int a <? 0 then (w + 1)%nat else w in
  Ok w.
