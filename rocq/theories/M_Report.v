(** Model of the reports of cmd/coin: utils.go trim, postings.go, register.go, totals.go, balance.go printing, stats.go. *)
From Coq Require Import Sorted.
From Verif Require Import Base M_Amount M_Regex M_Parser M_Names M_Tags M_Date M_Ledger.

(** ** Selecting postings *)
(** cmd/coin/utils.go:27-46 trim; a zero date is [None]. The same code is used for transactions, cmd/coin/stats.go:100-121. *)
Definition trim {A} (dflt : A) (date : A -> Z) (ps : list A) (begin end_ : option Z) : list A :=
  let upto (ps : list A) :=
    match end_ with
    | None => ps
    | Some e =>
        let to := search (List.length ps) (fun i => negb (date (nth i ps dflt) <? e)) in
        if (to =? List.length ps)%nat then ps else firstn to ps
    end in
  match begin with
  | None => upto ps
  | Some b =>
      let from := search (List.length ps) (fun i => negb (date (nth i ps dflt) <? b)) in
      if (from =? List.length ps)%nat then [] else upto (skipn from ps)
  end.

(** What the reports look at in a posting: its transaction's description, its own and its transaction's tags. *)
Record pinfo := mkInfo { pi_desc : bytes; pi_tags : tags; pi_xtags : tags }.
(** cmd/coin/register.go:188-219 trim: the payee option is changed in place; [compile] stands for
    regexp.MustCompile("(?i)"+...).MatchString. Result: the postings and the payee option afterwards. *)
Definition payee_filter (compile : bytes -> bytes -> bool) (info : nat -> pinfo) (payee : bytes) (ps : list nat) : list nat * bytes :=
  match payee with
  | [] => (ps, payee)
  | c :: r =>
      let '(inverted, payee) := if eqc c "!"%char then (true, r) else (false, payee) in
      (filter (fun p => let m := compile payee (pi_desc (info p)) in m && negb inverted || negb m && inverted) ps, payee)
  end.
(** the same postings again for the tag option: an invalid option (no matcher) cannot be non-empty *)
Definition tag_filter (compile : bytes -> bytes -> bool) (info : nat -> pinfo) (tag : bytes) (ps : list nat) : list nat :=
  match new_tag_matcher compile tag with
  | None => ps
  | Some m => filter (fun p => tags_match m (pi_tags (info p)) || tags_match m (pi_xtags (info p))) ps
  end.
Definition register_trim (compile : bytes -> bytes -> bool) (date : nat -> Z) (info : nat -> pinfo)
    (begin end_ : option Z) (tag payee : bytes) (ps : list nat) : list nat * bytes :=
  let '(ps, payee) := payee_filter compile info payee (trim O date ps begin end_) in
  (tag_filter compile info tag ps, payee).
(** the selections made one after the other for a list of registers (register.go:89-91, 104-109) *)
Fixpoint trim_each (compile : bytes -> bytes -> bool) (date : nat -> Z) (info : nat -> pinfo)
    (begin end_ : option Z) (tag payee : bytes) (regs : list (list nat)) : list (list nat) :=
  match regs with
  | [] => []
  | ps :: r => let '(sel, payee) := register_trim compile date info begin end_ tag payee ps in
               sel :: trim_each compile date info begin end_ tag payee r
  end.
(** cmd/coin/balance.go:81-106 trim: no inversion *)
Definition balance_trim (compile : bytes -> bytes -> bool) (date : nat -> Z) (info : nat -> pinfo)
    (begin end_ : option Z) (tag payee : bytes) (ps : list nat) : list nat :=
  let ps := trim O date ps begin end_ in
  let ps := match payee with [] => ps | _ => filter (fun p => compile payee (pi_desc (info p))) ps end in
  tag_filter compile info tag ps.

(** tags.go:54-64 KeysAndValues, the order of the map being that of the list *)
Definition key_and_value (kv : bytes * bytes) : bytes := match snd kv with [] => fst kv | v => fst kv ++ B ":" ++ v end.
Definition keys_and_values (t : tags) : list bytes := sort_strings (map key_and_value t).
(** totals.go:665-673 the category of a posting by its tags *)
Definition tag_category (xtags ptags : tags) : bytes :=
  match tags_with xtags ptags with [] => B "<no-tags>" | t => join (B ",") (keys_and_values t) end.

(** ** Listings *)
(** cmd/coin/postings.go:38-46 totals *)
Fixpoint running (conv : conversion) (total : amount) (qs : list amount) : res (list amount) :=
  match qs with
  | [] => Ok []
  | q :: r => do t <- add_in conv total q; do ts <- running conv t r; Ok (t :: ts)
  end.
(** cmd/coin/postings.go:48-90 print and 92-131 printLong, the columns with the other account, the quantity and the
    total: p.Transaction.Other(p) is nil in a transaction with a single posting and is dereferenced. *)
Fixpoint listing (conv : conversion) (L : ledger) (tx_of : nat -> rtx) (total : amount) (ps : list nat) : res (list (bytes * amount * amount)) :=
  match ps with
  | [] => Ok []
  | p :: r =>
      match other (tx_of p) p, rp_qty (heap L p) with
      | Some o, Some q => do t <- add_in conv total q; do ls <- listing conv L tx_of t r; Ok ((rp_acc (heap L o), q, t) :: ls)
      | _, _ => Panic
      end
  end.
(** cmd/coin/register.go:80-100 fullRegister with -r: postings of all accounts below, sorted by date *)
Definition recursive_postings (date : nat -> Z) (sel : bytes -> list nat) (accs : list bytes) : list nat :=
  stable_sort (fun p q => date p <? date q) (flat_map sel accs).

(** ** Totals by period and category, cmd/coin/totals.go *)
(** totals.go:19-25 timeTotal: [c_total] without, [c_cats] with categories *)
Record cell := mkCell { c_time : Z; c_total : option amount; c_cats : balances }.
(** totals.go:97-105 timeTotals. The field current is always the last element of all (the same object) if there is a
    time reducer; without one all is empty and current the only cell: [cells] is all or current. *)
Record tts := mkTts { by_time : option (Z -> Z); by_cat : bool; cells : list cell }.
Definition zero_time : Z := 0.
Definition with_cells (ts : tts) (l : list cell) : tts := mkTts (by_time ts) (by_cat ts) l.
(** totals.go:124-154 add; [cat] is the category of the posting *)
Definition cell_of (ts : tts) (period : Z) (cat : bytes) (q : amount) : cell :=
  if by_cat ts then mkCell period None [(cat, q)] else mkCell period (Some q) [].
Definition add_to_cell (conv : conversion) (ts : tts) (c : cell) (cat : bytes) (q : amount) : res cell :=
  if by_cat ts then
    match bget cat (c_cats c) with
    | Some a => do a' <- add_in conv a q; Ok (mkCell (c_time c) (c_total c) (bset cat a' (c_cats c)))
    | None => Ok (mkCell (c_time c) (c_total c) (bset cat q (c_cats c)))
    end
  else match c_total c with
       | Some a => do a' <- add_in conv a q; Ok (mkCell (c_time c) (Some a') (c_cats c))
       | None => Panic
       end.
Definition tt_add (conv : conversion) (ts : tts) (date : Z) (cat : bytes) (q : amount) : res tts :=
  let period := match by_time ts with Some r => r date | None => zero_time end in
  match rev (cells ts) with
  | cur :: before =>
      if c_time cur =? period then do c <- add_to_cell conv ts cur cat q; Ok (with_cells ts (rev before ++ [c]))
      else Ok (with_cells ts (cells ts ++ [cell_of ts period cat q]))
  | [] => Ok (with_cells ts [cell_of ts period cat q])
  end.
Fixpoint tt_add_all (conv : conversion) (ts : tts) (ps : list (Z * bytes * amount)) : res tts :=
  match ps with [] => Ok ts | (d, k, q) :: r => do ts <- tt_add conv ts d k q; tt_add_all conv ts r end.

(** an AddIn whose error is not looked at: a is unchanged by a failing AddIn *)
Definition add_or_keep (conv : conversion) (a b : amount) : res amount :=
  match add_in conv a b with Fail => Ok a | r => r end.
(** totals.go:34-53 timeTotal.AddIn *)
Fixpoint cats_add_in (conv : conversion) (keys_only : bool) (cats cats2 : balances) : res balances :=
  match cats2 with
  | [] => Ok cats
  | (k, v) :: r =>
      match bget k cats with
      | Some a => if keys_only then cats_add_in conv keys_only cats r
                  else do a' <- add_or_keep conv a v; cats_add_in conv keys_only (bset k a' cats) r
      | None => cats_add_in conv keys_only (bset k (if keys_only then zero_amount (a_com v) else v) cats) r
      end
  end.
Definition cell_add_in (conv : conversion) (keys_only : bool) (t t2 : cell) : res cell :=
  if negb (c_time t =? c_time t2) then Fail
  else match c_total t, keys_only with
       | Some a, false => match c_total t2 with
                          | Some b => do a' <- add_or_keep conv a b; Ok (mkCell (c_time t) (Some a') (c_cats t))
                          | None => Panic
                          end
       | _, _ => do cs <- cats_add_in conv keys_only (c_cats t) (c_cats t2); Ok (mkCell (c_time t) (c_total t) cs)
       end.
(** totals.go:55-68 Copy *)
Definition cell_copy (keys_only : bool) (t : cell) : cell :=
  match c_total t with
  | Some _ => mkCell (c_time t) (c_total t) []
  | None => mkCell (c_time t) None (map (fun kv => (fst kv, if keys_only then zero_amount (a_com (snd kv)) else snd kv)) (c_cats t))
  end.
(** totals.go:70-78, 107-119 Commodity; of the categories any one, here the first *)
Definition cell_commodity (t : cell) : option commodity :=
  match c_total t with Some a => Some (a_com a) | None => match c_cats t with (_, a) :: _ => Some (a_com a) | [] => None end end.
Fixpoint first_commodity (l : list cell) : option commodity :=
  match l with [] => None | c :: r => match cell_commodity c with Some x => Some x | None => first_commodity r end end.
(** totals.go:156-163 newTotal *)
Definition new_total (ts : tts) (t : Z) (c : option commodity) : res cell :=
  if by_cat ts then Ok (mkCell t None [])
  else match c with None => Fail | Some c => Ok (mkCell t (Some (zero_amount c)) []) end.
(** totals.go:181-204, the loop over ts2.all: [rem] is the slice remaining, its cells from here on; result: those
    cells afterwards, and the extras with their offsets *)
Fixpoint merge_match (conv : conversion) (keys_only : bool) (rem : list cell) (j : nat) (l2 : list cell) : res (list cell * list (nat * cell)) :=
  match l2 with
  | [] => Ok (rem, [])
  | t :: r =>
      let i := search (List.length rem) (fun i => negb (c_time (nth i rem (mkCell 0 None [])) <? c_time t)) in
      let pre := firstn i rem in
      match skipn i rem with
      | h :: rem' =>
          if c_time h =? c_time t then
            do h' <- cell_add_in conv keys_only h t;
            do x <- merge_match conv keys_only (h' :: rem') (j + i) r;
            Ok (pre ++ fst x, snd x)
          else do x <- merge_match conv keys_only (h :: rem') 0 r; Ok (pre ++ fst x, ((j + i)%nat, t) :: snd x)
      | [] => do x <- merge_match conv keys_only [] 0 r; Ok (pre ++ fst x, ((j + i)%nat, t) :: snd x)
      end
  end.
(** totals.go:209-225, the loop over the extras: [built] is ts.all so far, [cur] the old ts.current *)
Fixpoint merge_insert (conv : conversion) (keys_only : bool) (ts : tts) (cur : option cell) (built rem : list cell) (extras : list (nat * cell)) : res (list cell) :=
  match extras with
  | [] => Ok (built ++ rem)
  | (mark, extra) :: r =>
      let com := match (match cur with Some c => cell_commodity c | None => None end) with
                 | Some c => Some c
                 | None => match first_commodity built with Some c => Some c | None => cell_commodity extra end
                 end in
      do n <- new_total ts (c_time extra) com;
      do n <- cell_add_in conv keys_only n extra;
      merge_insert conv keys_only ts cur (built ++ firstn mark rem ++ [n]) (skipn mark rem) r
  end.
Definition last_cell (l : list cell) : option cell := match rev l with c :: _ => Some c | [] => None end.
(** totals.go:165-227 mergeTotals *)
Definition merge_totals (conv : conversion) (keys_only : bool) (ts ts2 : tts) : res tts :=
  match by_time ts with
  | None =>
      match last_cell (cells ts2) with
      | None => Ok ts
      | Some c2 => match last_cell (cells ts) with
                   | None => Ok (with_cells ts [cell_copy keys_only c2])
                   | Some c => do c' <- cell_add_in conv keys_only c c2; Ok (with_cells ts [c'])
                   end
      end
  | Some _ =>
      do x <- merge_match conv keys_only (cells ts) 0 (cells ts2);
      match snd x with
      | [] => Ok (with_cells ts (fst x))
      | extras => do l <- merge_insert conv keys_only ts (last_cell (fst x)) [] (fst x) extras; Ok (with_cells ts l)
      end
  end.
(** totals.go:301-324 cumMagnitude; nil without cells. With categories only, current.totals. *)
Fixpoint sum_cells (conv : conversion) (total : amount) (l : list cell) : res amount :=
  match l with
  | [] => Ok total
  | c :: r => do t <- match c_total c with
                      | Some a => add_in conv total a
                      | None => sum_in conv total (map snd (c_cats c))
                      end; sum_cells conv t r
  end.
Definition cum_magnitude (conv : conversion) (ts : tts) : res (option amount) :=
  match cells ts with
  | [] => Ok None
  | l => match (match last_cell l with Some c => match cell_commodity c with Some x => Some x | None => first_commodity l end | None => None end) with
         | None => Panic
         | Some c => do a <- sum_cells conv (zero_amount c) l; Ok (Some a)
         end
  end.
(** totals.go:326-338 makeCumulative. Without categories there is a time reducer (register.go:145-147), so all is [cells]. *)
Fixpoint cumulative_cells (conv : conversion) (cum : amount) (l : list cell) : res (list cell) :=
  match l with
  | [] => Ok []
  | c :: r =>
      match c_total c with
      | None => Panic
      | Some a => do cum <- add_in conv cum a; do l <- cumulative_cells conv cum r; Ok (mkCell (c_time c) (Some cum) (c_cats c) :: l)
      end
  end.
Definition make_cumulative (conv : conversion) (ts : tts) : res tts :=
  if by_cat ts then Fail
  else match last_cell (cells ts) with
       | None => Ok ts
       | Some c => match cell_commodity c with
                   | None => Panic
                   | Some com => do l <- cumulative_cells conv (zero_amount com) (cells ts); Ok (with_cells ts l)
                   end
       end.

(** ** accountTotals, totals.go:374-: a map from accounts; the account nil ("Other") is [None] *)
Definition atotals := list (option bytes * tts).
Definition eq_key (a b : option bytes) : bool :=
  match a, b with Some x, Some y => eqb_bytes x y | None, None => true | _, _ => false end.
Fixpoint aget (a : option bytes) (m : atotals) : option tts :=
  match m with [] => None | (k, v) :: r => if eq_key a k then Some v else aget a r end.
Fixpoint aset (a : option bytes) (v : tts) (m : atotals) : atotals :=
  match m with [] => [(a, v)] | (k, w) :: r => if eq_key a k then (k, v) :: r else (k, w) :: aset a v r end.
(** register.go:104-109 *)
Fixpoint account_totals (conv : conversion) (bt : option (Z -> Z)) (bc : bool) (sel : bytes -> list (Z * bytes * amount)) (accs : list bytes) (m : atotals) : res atotals :=
  match accs with
  | [] => Ok m
  | a :: r => do ts <- tt_add_all conv (mkTts bt bc []) (sel a); account_totals conv bt bc sel r (aset (Some a) ts m)
  end.
(** register.go:111-121 *)
Fixpoint propagate (conv : conversion) (recurse : bool) (T : tree) (accs : list bytes) (m : atotals) : res atotals :=
  match accs with
  | [] => Ok m
  | a :: r =>
      match t_parent T a with
      | None => propagate conv recurse T r m
      | Some p =>
          match aget (Some p) m with
          | None => propagate conv recurse T r m
          | Some parent => match aget (Some a) m with
                           | None => Panic
                           | Some child => do ts <- merge_totals conv (negb recurse) parent child; propagate conv recurse T r (aset (Some p) ts m)
                           end
          end
      end
  end.
(** totals.go:464-475 sanitize *)
Definition sanitize (m : atotals) : atotals := filter (fun kv => match cells (snd kv) with [] => false | _ => true end) m.
(** totals.go:405-436 top; [order] is the result of sorting the accounts with a magnitude (any order that sort.Slice
    can give: see [top_order]) *)
Fixpoint merge_rest (conv : conversion) (m : atotals) (others : tts) (rest : list (option bytes)) : res tts :=
  match rest with
  | [] => Ok others
  | a :: r => match aget a m with None => Panic | Some ts => do o <- merge_totals conv false others ts; merge_rest conv m o r end
  end.
Fixpoint restrict (m : atotals) (accs : list (option bytes)) : atotals :=
  match accs with
  | [] => []
  | a :: r => match aget a m with Some ts => (a, ts) :: restrict m r | None => restrict m r end
  end.
Definition top (conv : conversion) (n : Z) (m : atotals) (order : list (option bytes)) : res (atotals * list (option bytes)) :=
  if Z.of_nat (List.length order) <=? n then Ok (m, order)
  else if n <? 0 then Panic                                  (* accounts[:n] *)
  else
    let kept := firstn (Z.to_nat n) order in
    let rest := skipn (Z.to_nat n) order in
    match rest with
    | a :: ((_ :: _) as r) =>
        match aget a m with
        | None => Panic
        | Some ts => do o <- merge_rest conv m ts r; Ok (restrict m kept ++ [(None, o)], kept ++ [None])
        end
    | _ => Ok (restrict m kept, kept)
    end.
(** the accounts with totals, largest magnitude first *)
Definition top_order (conv : conversion) (m : atotals) (order : list (option bytes)) : Prop :=
  exists mag : option bytes -> amount,
    (forall a ts, aget a m = Some ts -> cells ts <> [] -> cum_magnitude conv ts = Ok (Some (mag a))) /\
    NoDup order /\ (forall a, In a order <-> exists ts, aget a m = Some ts /\ cells ts <> []) /\
    StronglySorted (fun a b => is_bigger (mag b) (mag a) = false) order.
(** totals.go:438-447 mergeTime(totals[acc]); reading a field of a nil timeTotals panics *)
Fixpoint merge_time (conv : conversion) (acc : option bytes) (ts : option tts) (m : atotals) : res atotals :=
  match m with
  | [] => Ok []
  | (k, t) :: r =>
      if eq_key k acc then do r' <- merge_time conv acc ts r; Ok ((k, t) :: r')
      else match ts with
           | None => Panic
           | Some ts' => do t' <- merge_totals conv true t ts'; do r' <- merge_time conv acc ts r; Ok ((k, t') :: r')
           end
  end.
Fixpoint make_cumulative_all (conv : conversion) (m : atotals) : res atotals :=
  match m with [] => Ok [] | (k, t) :: r => do t' <- make_cumulative conv t; do r' <- make_cumulative_all conv r; Ok ((k, t') :: r') end.

(** ** Output: totals.go:570-632 rows (csv and json); text output walks the same grid *)
Definition amount_at (c : cell) (cat : bytes) : option amount := match cat with [] => c_total c | _ => bget cat (c_cats c) end.
(** totals.go:616-629; an index out of range and the String of a nil amount panic *)
Fixpoint row_amounts (hasp : bool) (m : atotals) (order : list (option bytes)) (i : nat) (time : Z) (cat : bytes) : res (list amount) :=
  match order with
  | [] => Ok []
  | a :: r =>
      match aget a m with
      | None => Fail
      | Some ts =>
          match (if hasp then nth_error (cells ts) i else last_cell (cells ts)) with
          | None => Panic
          | Some c => if hasp && negb (time =? c_time c) then Fail
                      else match amount_at c cat with
                           | None => Panic
                           | Some x => do xs <- row_amounts hasp m r i time cat; Ok (x :: xs)
                           end
          end
      end
  end.
Fixpoint category_rows (hasp : bool) (m : atotals) (order : list (option bytes)) (i : nat) (time : Z) (cats : list bytes) : res (list (Z * bytes * list amount)) :=
  match cats with
  | [] => Ok []
  | k :: r => do xs <- row_amounts hasp m order i time k; do rs <- category_rows hasp m order i time r; Ok ((time, k, xs) :: rs)
  end.
Definition categories (c : cell) : list bytes := match c_cats c with [] => [[]] | l => sort_strings (map fst l) end.
Fixpoint period_rows (hasp : bool) (m : atotals) (order : list (option bytes)) (i : nat) (l : list cell) : res (list (Z * bytes * list amount)) :=
  match l with
  | [] => Ok []
  | c :: r => do x <- category_rows hasp m order i (c_time c) (categories c); do y <- period_rows hasp m order (S i) r; Ok (x ++ y)
  end.
Definition rows (m : atotals) (order : list (option bytes)) : res (list (Z * bytes * list amount)) :=
  match order with
  | [] => Panic                                               (* order[0] *)
  | a :: _ => match aget a m with
              | None => Panic
              | Some first => period_rows (match by_time first with Some _ => true | None => false end) m order 0 (cells first)
              end
  end.

(** register.go:103-143 aggregatedRegister up to the rows; [sel] are the selected postings as date, category, quantity;
    [order] the order found in top *)
Definition aggregated (fuel : nat) (conv : conversion) (T : tree) (acc : bytes) (bt : option (Z -> Z)) (bc recurse : bool)
    (sel : bytes -> list (Z * bytes * amount)) : res atotals :=
  do m <- account_totals conv bt bc sel (with_children fuel (t_children T) acc) [];
  do m <- propagate conv recurse T (first_with_children fuel (t_children T) acc) m;
  Ok (sanitize m).
Definition aggregated_rows (conv : conversion) (acc : bytes) (cumulative : bool) (n : Z) (m : atotals) (order : list (option bytes))
  : res (list (option bytes) * list (Z * bytes * list amount)) :=
  do x <- top conv n m order;
  do m <- merge_time conv (Some acc) (aget (Some acc) (fst x)) (fst x);
  do m <- (if cumulative then make_cumulative_all conv m else Ok m);
  do rs <- rows m (snd x);
  Ok (snd x, rs).
