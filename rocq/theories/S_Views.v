(** Small specifications for the views of the page. *)
From Coq Require Import Sorted.
From Verif Require Import Base M_Amount S_Amount M_Date M_Parser M_Names M_Web M_Page M_Views S_Page.
Local Open Scope Z_scope.

(** a time zone: the local midnight of a day is less than a day from the UTC midnight, and later days begin later *)
Definition zone_ok (mid : Z -> Z) : Prop := (forall d, Z.abs (mid d - 1440 * d) < 1440) /\ forall d e, d < e -> mid d < mid e.
(** postings in the order of their dates *)
Definition by_day (ps : list pposting) : Prop := StronglySorted (fun p q => pp_date p <= pp_date q) ps.
Definition between (s e : Z) (p : pposting) : bool := (s <=? pp_date p) && (pp_date p <=? e).
(** all quantities in commodity [c], their numbers, and numbers small enough for exact sums *)
Definition in_commodity (c : commodity) (ps : list pposting) : Prop := Forall (fun p => a_com (pp_qty p) = c) ps.
Definition ints (ps : list pposting) : list Z := map (fun p => a_int (pp_qty p)) ps.
Definition small (l : list Z) : Prop := zsum (map Z.abs l) <= 2 ^ 53.

(** ** periods *)
(** [d] is the first day of a period that begins from [start] on and before [stop] *)
Definition period_in (mid : Z -> Z) (k : interval) (start stop d : Z) : Prop := floor_day k d = d /\ start <= mid d < stop.
(** the postings of the period beginning with day [d] *)
Definition in_period (k : interval) (d : Z) (p : pposting) : bool := floor_day k (pp_date p) =? d.
(** the last balance among postings, or zero *)
Definition last_balance (c : commodity) (ps : list pposting) : amount := match rev ps with p :: _ => pp_bal p | [] => mkAmount 0 c end.

(** ** columns *)
(** a column of a table with a row for each day of [l], all in commodity [c]; the number shown in row [i] of a column *)
Definition column_ok (c : commodity) (l : list Z) (gs : list group) : Prop :=
  map g_date gs = l /\ Forall (fun g => a_com (g_sum g) = c /\ a_com (g_total g) = c /\ a_com (g_bal g) = c) gs.
Definition at_row (sel : group -> amount) (i : nat) (gs : list group) : Z := match nth_error gs i with Some g => a_int (sel g) | None => 0 end.
Definition posts_at (i : nat) (gs : list group) : list pposting := match nth_error gs i with Some g => g_posts g | None => [] end.
Definition rows_small (cols : list (list group)) : Prop :=
  forall i, small (map (at_row g_sum i) cols) /\ small (map (at_row g_total i) cols) /\ small (map (at_row g_bal i) cols).
(** the rows of a subtree: [vis a] are the children of [a] that are shown; an account is followed by the rows of its children *)
Inductive rows_of (vis : bytes -> list bytes) : bytes -> list bytes -> Prop :=
| rows_intro a l : rows_list vis (vis a) l -> rows_of vis a (a :: l)
with rows_list (vis : bytes -> list bytes) : list bytes -> list bytes -> Prop :=
| rows_nil : rows_list vis [] []
| rows_cons b bs l1 l2 : rows_of vis b l1 -> rows_list vis bs l2 -> rows_list vis (b :: bs) (l1 ++ l2).
(** [b] is [a] or beneath it, through accounts that are shown *)
Inductive beneath (vis : bytes -> list bytes) (a : bytes) : bytes -> Prop :=
| beneath_self : beneath vis a a
| beneath_child b c : beneath vis a b -> In c (vis b) -> beneath vis a c.

(** ** the order of the file *)
Definition asserting (t : transaction) : Prop := exists s, In s (t_postings t) /\ ps_balance s <> None.
(** no transaction asserting a balance comes before one of the same day that asserts none *)
Definition assertions_last (ts : list transaction) : Prop :=
  StronglySorted (fun t u => t_posted t = t_posted u -> asserting t -> asserting u) ts.

(** ** accounts that are shown *)
(** [a] or an account above it was closed at [t] *)
Inductive closed_by (mid : Z -> Z) (accs : list pacct) (t : Z) : bytes -> Prop :=
| closed_own a pa d : find_account accs a = Some pa -> pa_closed pa = Some d -> mid d <= t -> closed_by mid accs t a
| closed_up a pa p : find_account accs a = Some pa -> pa_parent pa = Some p -> closed_by mid accs t p -> closed_by mid accs t a.
(** the balance of an account on the page *)
Definition page_balance (mid : Z -> Z) (pg : page) (t : Z) (a : bytes) : amount := balance_at mid (pg_register pg a) (com_of pg a) t.
(** a tree of names: children have longer names than their parents *)
Definition names_tree (pg : page) (m : nat) : Prop :=
  (forall a b, In b (pg_children pg a) -> (List.length a < List.length b <= m)%nat) /\
  forall a pa p, find_account (pg_accounts pg) a = Some pa -> pa_parent pa = Some p -> (List.length p < List.length a)%nat.
