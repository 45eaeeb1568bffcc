(** Reports: what users mean by the lines of an aggregated register. *)
From Coq Require Import Sorted.
From Verif Require Import Base M_Amount M_Names M_Tags M_Ledger M_Report S_Amount.

(** ** Selecting *)
(** the date is not before [b] (if given) and before [e] (if given) *)
Definition in_range (b e : option Z) (d : Z) : bool :=
  match b with Some b => b <=? d | None => true end && match e with Some e => d <? e | None => true end.
(** the payee option: a pattern, with ! in front everything it does not match *)
Definition payee_ok (compile : bytes -> bytes -> bool) (payee desc : bytes) : bool :=
  match payee with
  | [] => true
  | c :: r => if eqc c "!"%char then negb (compile r desc) else compile payee desc
  end.
(** the tag option: one of the posting's or of the transaction's tags matches *)
Definition tag_ok (compile : bytes -> bytes -> bool) (tag : bytes) (i : pinfo) : bool :=
  match new_tag_matcher compile tag with Some m => tags_match m (pi_tags i) || tags_match m (pi_xtags i) | None => true end.
Definition selected (compile : bytes -> bytes -> bool) (date : nat -> Z) (info : nat -> pinfo) (b e : option Z) (tag payee : bytes) (p : nat) : bool :=
  in_range b e (date p) && payee_ok compile payee (pi_desc (info p)) && tag_ok compile tag (info p).

(** ** Aggregating *)
(** a selected posting: date, category (payee or tags), quantity *)
Definition entry := (Z * bytes * amount)%type.
Definition e_date (e : entry) : Z := fst (fst e).
Definition e_cat (e : entry) : bytes := snd (fst e).
Definition e_qty (e : entry) : amount := snd e.
(** the period of a date: its first day, or nothing to distinguish *)
Definition period_of (bt : option (Z -> Z)) (d : Z) : Z := match bt with Some r => r d | None => 0 end.
(** the posting belongs on the line of period [t] and category [k] (any category when not grouping by category) *)
Definition belongs (bt : option (Z -> Z)) (bc : bool) (t : Z) (k : bytes) (e : entry) : bool :=
  (period_of bt (e_date e) =? t) && (if bc then eqb_bytes k (e_cat e) else true).
(** the sum of the postings belonging on a line *)
Definition line_sum (bt : option (Z -> Z)) (bc : bool) (t : Z) (k : bytes) (l : list entry) : Z :=
  zsum (map (fun e => a_int (e_qty e)) (filter (belongs bt bc t k) l)).
Definition has_line (bt : option (Z -> Z)) (bc : bool) (t : Z) (k : bytes) (l : list entry) : bool := existsb (belongs bt bc t k) l.
(** dates never go back *)
Definition entries_in_order (l : list entry) : Prop := StronglySorted (fun a b => e_date a <= e_date b) l.
Definition entries_in (c : commodity) (l : list entry) : Prop := Forall (fun e => a_com (e_qty e) = c) l.
(** later dates never fall in an earlier period *)
Definition reducer_ok (bt : option (Z -> Z)) : Prop := match bt with Some r => forall d d', d <= d' -> r d <= r d' | None => True end.

(** ** What a report holds, as far as it can be seen *)
(** the amount a cell shows for a category, or its total *)
Definition value_in_cell (bc : bool) (k : bytes) (c : cell) : option amount := if bc then bget k (c_cats c) else c_total c.
(** the amount on the line of period [t] and category [k], if there is such a line *)
Definition amount_on (bc : bool) (l : list cell) (t : Z) (k : bytes) : option amount :=
  match List.find (fun c => c_time c =? t) l with Some c => value_in_cell bc k c | None => None end.
(** all lines, in order *)
Definition lines (bc : bool) (l : list cell) : list (Z * bytes * amount) :=
  flat_map (fun c => if bc then map (fun kv => (c_time c, fst kv, snd kv)) (c_cats c)
                     else match c_total c with Some a => [(c_time c, [], a)] | None => [] end) l.
(** timelines in one commodity: periods strictly increase; per period a total, or one amount for each of some categories *)
Definition cell_ok (bc : bool) (com : commodity) (c : cell) : Prop :=
  if bc then c_total c = None /\ c_cats c <> [] /\ NoDup (map fst (c_cats c)) /\ Forall (fun kv => a_com (snd kv) = com) (c_cats c)
  else (exists a, c_total c = Some a /\ a_com a = com) /\ c_cats c = [].
Definition times_up (l : list cell) : Prop := StronglySorted (fun a b => c_time a < c_time b) l.
Definition line_ok (bc : bool) (com : commodity) (l : list cell) : Prop := times_up l /\ Forall (cell_ok bc com) l.
Definition timeline_ok (bt : option (Z -> Z)) (bc : bool) (com : commodity) (ts : tts) : Prop :=
  by_time ts = bt /\ by_cat ts = bc /\ line_ok bc com (cells ts) /\ (bt = None -> forall c, In c (cells ts) -> c_time c = 0).
(** the sum of the postings up to and including period [t] *)
Definition sum_upto (bt : option (Z -> Z)) (t : Z) (l : list entry) : Z :=
  zsum (map (fun e => a_int (e_qty e)) (filter (fun e => period_of bt (e_date e) <=? t) l)).
(** the columns shown for accounts in order of size, when [n] are asked for: those, and one for the rest together (the
    program shows it only if there are two or more) *)
Definition shown_cols (n : nat) (order : list (option bytes)) : list (option bytes) :=
  if (List.length order <=? n)%nat then order
  else if (List.length order =? S n)%nat then firstn n order
  else firstn n order ++ [None].
(** the postings a column counts: an account's, or those of all accounts after the first [n] *)
Definition col_entries (n : nat) (order : list (option bytes)) (V : option bytes -> list entry) (k : option bytes) : list entry :=
  match k with Some _ => V k | None => flat_map V (skipn n order) end.
(** lines are printed by period, then category *)
Definition line_before (a b : Z * bytes) : Prop := fst a < fst b \/ (fst a = fst b /\ less_bytes (snd a) (snd b) = true).
(** what account [x] counts: its own postings or, recursively, those of the accounts [below x] (itself included) *)
Definition counted_by (recurse : bool) (sel : bytes -> list entry) (below : bytes -> list bytes) (k : option bytes) : list entry :=
  match k with Some x => if recurse then flat_map sel (below x) else sel x | None => [] end.
(** the amount of account [a] on a line, zero if there is none *)
Definition amount_of (bc : bool) (m : atotals) (t : Z) (k : bytes) (a : option bytes) : Z :=
  match aget a m with
  | Some ts => match amount_on bc (cells ts) t k with Some x => a_int x | None => 0 end
  | None => 0
  end.
