(** Model of the listing commands of cmd/coin: tags.go, stats.go, accounts.go, commodities.go. *)
From Verif Require Import Base M_Amount M_Convert M_Regex M_Parser M_Names M_Tags M_Date M_Ledger M_Report M_Output.

(** ** tags *)
(** cmd/coin/tags.go:109-116 add *)
Definition add_once (l : list bytes) (k : bytes) : list bytes := if existsb (fun v => eqb_bytes v k) l then l else l ++ [k].
(** a Go map[string][]string; the order of the list stands for nothing, iteration orders are arguments *)
Definition smap := list (bytes * list bytes).
Fixpoint sget (k : bytes) (m : smap) : list bytes :=
  match m with [] => [] | (k', v) :: r => if eqb_bytes k k' then v else sget k r end.
Fixpoint sset (k : bytes) (v : list bytes) (m : smap) : smap :=
  match m with [] => [(k, v)] | (k', v') :: r => if eqb_bytes k k' then (k, v) :: r else (k', v') :: sset k v r end.
(** what the command looks at in a transaction: its tags, and the tags and account of every posting. The order of
    a tag list is the order in which Go iterates over the map this time. *)
Record visit := mkVisit { v_tags : tags; v_posts : list (tags * bytes) }.
(** cmd/coin/tags.go:77-90 collectKeys; [rex] None = no name pattern; the pair is cmd.results, cmd.accounts *)
Fixpoint collect_keys (rex : option (bytes -> bool)) (fa : bool) (t : tags) (accs : list bytes) (st : smap * smap) : smap * smap :=
  match t with
  | [] => st
  | (k, v) :: r =>
      let st := if match rex with None => true | Some m => m k end
                then (sset k (add_once (sget k (fst st)) v) (fst st),
                      if fa then sset k (fold_left add_once accs (sget k (snd st))) (snd st) else snd st)
                else st in
      collect_keys rex fa r accs st
  end.
(** cmd/coin/tags.go:48-57: the loop over the transactions *)
Fixpoint collect_posts (rex : option (bytes -> bool)) (fa : bool) (ps : list (tags * bytes)) (accs : list bytes) (st : smap * smap) : smap * smap * list bytes :=
  match ps with
  | [] => (st, accs)
  | (t, a) :: r => let st := collect_keys rex fa t [a] st in
                   collect_posts rex fa r (if fa then accs ++ [a] else accs) st
  end.
Fixpoint collect (rex : option (bytes -> bool)) (fa : bool) (vs : list visit) (st : smap * smap) : smap * smap :=
  match vs with
  | [] => st
  | v :: r => let '(st, accs) := collect_posts rex fa (v_posts v) [] st in
              collect rex fa r (collect_keys rex fa (v_tags v) accs st)
  end.
(** cmd/coin/tags.go:101-107 clean; an empty list panics *)
Definition clean (l : list bytes) : res (list bytes) :=
  match sort_strings l with [] => Panic | [] :: r => Ok r | s => Ok s end.
(** cmd/coin/tags.go:92-99 sortAndClean, [keys] being the keys in iteration order *)
Fixpoint clean_all (keys : list bytes) (m : smap) : res smap :=
  match keys with
  | [] => Ok m
  | k :: r => do l <- clean (sget k m); clean_all r (sset k l m)
  end.
(** cmd/coin/tags.go:58-74: the output for one name *)
Definition tag_lines (fv fa : bool) (k : bytes) (vals accs : list bytes) : bytes :=
  let vs := join (B """, """) vals in
  let colon := match vs with [] => [] | _ => B ":" end in
  (if fv && match vs with [] => false | _ => true end
   then k ++ colon ++ B " """ ++ vs ++ B """" ++ [nl]
   else k ++ colon ++ [nl]) ++
  (if fa then flat_map (fun a => [ascii_of_nat 9] ++ a ++ [nl]) accs else []).
(** cmd/coin/tags.go:41-75 execute; [order] : the iteration order of the results map *)
Definition tags_command (rex : option (bytes -> bool)) (fv fa : bool) (vs : list visit) (order : list bytes) : res bytes :=
  let st := collect rex fa vs ([], []) in
  do m <- clean_all order (fst st);
  Ok (flat_map (fun k => tag_lines fv fa k (sget k m) (sget k (snd st))) (sort_strings order)).

(** ** stats *)
Inductive stat_item :=
| Duplicate (t2 t : rtx)          (* stats.go:57-60, printed with locations and texts *)
| BadConversion (t : rtx)         (* stats.go:72-80 *)
| UnbalancedTx (t : rtx)          (* stats.go:85-88 *)
| Counts (commodities prices accounts transactions : nat).  (* stats.go:93-96 *)

Section Stats.
Variable L : ledger.
(** cmd/coin/stats.go:55-62: one transaction against those of its day *)
Fixpoint dupes_of (t : rtx) (day : list rtx) : res (list stat_item) :=
  match day with
  | [] => Ok []
  | t2 :: r => do e <- tx_equal L t t2; do d <- dupes_of t r; Ok (if e then Duplicate t2 t :: d else d)
  end.
(** cmd/coin/stats.go:45-65 *)
Fixpoint dupes_loop (xs : list rtx) (day : list rtx) : res (list stat_item) :=
  match xs with
  | [] => Ok []
  | t :: r =>
      match day with
      | [] => dupes_loop r [t]
      | d0 :: _ => if negb (x_posted t =? x_posted d0) then dupes_loop r [t]
                   else do d <- dupes_of t day; do e <- dupes_loop r (day ++ [t]); Ok (d ++ e)
      end
  end.
(** cmd/coin/stats.go:69-82; nil quantities panic *)
Definition mismatch (t : rtx) : res bool :=
  match x_posts t with
  | [p1; p2] =>
      match rp_qty (heap L p1), rp_qty (heap L p2) with
      | Some q1, Some q2 => do e <- is_equal q1 (negated q2); Ok (e && negb (eq_commodity (a_com q1) (a_com q2)))
      | _, _ => Panic
      end
  | _ => Ok false
  end.
(** cmd/coin/stats.go:68-91 *)
Fixpoint checks_loop (fu fc : bool) (xs : list rtx) : res (list stat_item) :=
  match xs with
  | [] => Ok []
  | t :: r =>
      do m <- (if fc then mismatch t else Ok false);
      do rest <- checks_loop fu fc r;
      Ok ((if m then [BadConversion t] else []) ++
          flat_map (fun p => if fu && eqb_bytes (rp_acc (heap L p)) unbalanced then [UnbalancedTx t] else []) (x_posts t) ++ rest)
  end.
End Stats.
Definition no_tx : rtx := mkTx 0 [] [] [] [] 0.
(** cmd/coin/stats.go:41-120 execute, transactions; zero dates are [None] *)
Definition stats_command (L : ledger) (fd fu fc : bool) (b e : option Z) (ncom nprices nacc : nat) (xs : list rtx) : res (list stat_item) :=
  let xs := trim no_tx x_posted xs b e in
  if fd then dupes_loop L xs []
  else do l <- checks_loop L fu fc xs; Ok (l ++ [Counts ncom nprices nacc (List.length xs)]).

(** ** accounts *)
(** %-*s and %10s are padr and padl of M_Output: fmt counts runes, the maximum is in bytes. *)
Record ainfo := mkAinfo { ai_name : bytes; ai_commodity : bytes; ai_desc : bytes }.
(** coin.go:373-382 AccountsDo: names in map order, sorted; [get] is AccountsByName *)
Definition accounts_do (order : list bytes) : list bytes := sort_strings order.
(** cmd/coin/accounts.go:36-59 execute; [closed] = IsClosed, [rex] None = no pattern *)
Definition accounts_command (fc : bool) (rex : option (bytes -> bool)) (closed : bytes -> bool) (get : bytes -> ainfo) (order : list bytes) : bytes :=
  let matches a := match rex with None => true | Some m => m a end in
  let max := fold_left (fun mx a => if matches a then (if (mx <? List.length a)%nat then List.length a else mx) else mx) (accounts_do order) O in
  flat_map (fun a => if negb fc && closed a then [] else if negb (matches a) then []
                     else padr max a ++ B " | " ++ padr 10 (ai_commodity (get a)) ++ B " | " ++ ai_desc (get a) ++ [nl]) (accounts_do order).

(** ** commodities *)
Record cinfo := mkCinfo { ci_symbol : bytes; ci_nomarket : bool; ci_name : bytes }.
(** cmd/coin/commodities.go:99-110: the plain list *)
Definition commodity_line (id : bytes) (c : cinfo) : bytes :=
  let dl := match ci_symbol c with [] => B " " | _ => if ci_nomarket c then B " " else B "Q" end in
  padl 10 id ++ B " | " ++ padl 10 (ci_symbol c) ++ B " | " ++ dl ++ B " | " ++ ci_name c ++ [nl].
Definition commodities_command (get : bytes -> cinfo) (order : list bytes) : bytes :=
  flat_map (fun id => commodity_line id (get id)) (sort_strings order).
(** cmd/coin/commodities.go:57-65: the prices of one commodity; [order] : the currencies in iteration order *)
Definition price_list (db : pricedb) (c : commodity) (order : list commodity) : list price :=
  flat_map (fun cur => match assoc cur (prices_of db c) with Some l => l | None => [] end) order.
(** commodity.go:78-98 String, printed by commodities -p: per currency the first price and the number of prices;
    an empty list would panic *)
Fixpoint price_stats (m : pmap) (order : list commodity) : res (list (commodity * price * nat)) :=
  match order with
  | [] => Ok []
  | cur :: r => match assoc cur m with
                | Some (p :: l) => do s <- price_stats m r; Ok ((cur, p, S (List.length l)) :: s)
                | _ => Panic
                end
  end.
