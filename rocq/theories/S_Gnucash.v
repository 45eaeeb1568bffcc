(** GnuCash books: what users mean. *)
From Coq Require Import Permutation Sorted.
From Verif Require Import Base M_Amount M_Ledger S_Books S_Decimal S_Amount S_Date S_DateText M_Date L_Sort M_Parser M_Writer M_Files M_Gnucash.

(** what sort.Slice promises: a rearrangement, in order if the comparison is an order; equal elements in any order *)
Definition sorts (ssort : forall A, (A -> A -> bool) -> list A -> list A) : Prop :=
  forall A (less : A -> A -> bool) l, Permutation l (ssort A less l) /\ (weak_order less -> sorted_by less (ssort A less l)).

(** ** Numbers: the text of the fraction n/d *)
Definition fraction (f : bytes) (n d : Z) : Prop :=
  exists (neg : bool) a b, digits_ok a /\ a <> [] /\ digits_ok b /\ b <> [] /\
    f = (if neg then B "-" else []) ++ dtext a ++ B "/" ++ dtext b /\ n = signed neg (num a) /\ d = num b.
(** [a] is the largest amount of its commodity that is not above n/d *)
Definition largest_below (n d : Z) (a : amount) : Prop :=
  a_int a * d <= n * 10 ^ Z.of_nat (c_dec (a_com a)) < (a_int a + 1) * d.

(** ** Times: "2011-09-15 06:59:00 -0400" *)
Definition dd (n : Z) : bytes := dtext [n / 10; n mod 10].
Definition dddd (n : Z) : bytes := dtext [n / 1000; n / 100 mod 10; n / 10 mod 10; n mod 10].
Record moment := mkMoment { mo_y : Z; mo_m : Z; mo_d : Z; mo_h : Z; mo_min : Z; mo_s : Z; mo_neg : bool; mo_zh : Z; mo_zm : Z }.
Definition moment_ok (t : moment) : Prop :=
  0 <= mo_y t <= 9999 /\ valid_date (mo_y t) (mo_m t) (mo_d t) /\ 0 <= mo_h t <= 23 /\ 0 <= mo_min t <= 59 /\ 0 <= mo_s t <= 59 /\
  0 <= mo_zh t <= 24 /\ 0 <= mo_zm t <= 60.
Definition moment_text (t : moment) : bytes :=
  dddd (mo_y t) ++ B "-" ++ dd (mo_m t) ++ B "-" ++ dd (mo_d t) ++ B " " ++ dd (mo_h t) ++ B ":" ++ dd (mo_min t) ++ B ":" ++ dd (mo_s t)
  ++ B " " ++ (if mo_neg t then B "-" else B "+") ++ dd (mo_zh t) ++ dd (mo_zm t).
(** its day, as a day number, and the second it stands for *)
Definition moment_day (t : moment) : Z := go_date (mo_y t) (mo_m t) (mo_d t).
Definition moment_second (t : moment) : Z :=
  moment_day t * 86400 + mo_h t * 3600 + mo_min t * 60 + mo_s t - signed (mo_neg t) (mo_zh t * 3600 + mo_zm t * 60).
Definition written_at (s : bytes) (t : stamp) : Prop :=
  exists m, moment_ok m /\ s = moment_text m /\ st_day t = moment_day m /\ instant t = moment_second m.

(** ** Accounts *)
Definition root_like (a : gaccount) : Prop := ga_type a = B "ROOT" \/ ga_parent a = [].
(** the name without spaces; the root is called Root *)
Definition short_name (n s : bytes) : Prop :=
  (n = B "Root Account" /\ s = B "Root") \/ (n <> B "Root Account" /\ s = filter (fun c => negb (Ascii.eqb c " "%char)) n).
Definition is_parent (l : list gaccount) (p a : gaccount) : Prop := In p l /\ ga_guid p = ga_parent a.
(** the names on the way to an account, from below the root *)
Inductive path (l : list gaccount) : gaccount -> list bytes -> Prop :=
| path_root a s : root_like a -> short_name (ga_name a) s -> path l a [s]
| path_top a p s : ~ root_like a -> is_parent l p a -> root_like p -> short_name (ga_name a) s -> path l a [s]
| path_below a p ns s : ~ root_like a -> is_parent l p a -> ~ root_like p -> path l p ns -> short_name (ga_name a) s ->
    path l a (ns ++ [s]).
(** the first number of a text, with what is before and after it *)
Definition no_digit_ahead (s : bytes) : Prop := match s with c :: _ => is_digit c = false | [] => True end.
Definition number (v pre n rest : bytes) : Prop :=
  v = pre ++ n ++ rest /\ forallb (fun c => negb (is_digit c)) pre = true /\ n <> [] /\ forallb is_digit n = true /\ no_digit_ahead rest.
(** the online id "bank account": two numbers with blanks between them; or only the number of the account *)
Definition online (v bank acct : bytes) : Prop :=
  (v = [] /\ bank = [] /\ acct = []) \/
  (exists pre rest, number v pre acct rest /\ bank = [] /\ forall sp y, rest = sp ++ y -> sp <> [] -> forallb is_space sp = true -> no_digit_ahead y) \/
  (exists pre rest sp rest' rest'', number v pre bank rest /\ rest = sp ++ rest' /\ sp <> [] /\ forallb is_space sp = true /\ number rest' [] acct rest'').
(** the commodity of that id in the book *)
Definition book_commodity (cs : list gcommodity) (id : bytes) (c : commodity) : Prop :=
  exists g, In g cs /\ gc_id g = id /\ c_id c = id /\
    (forall k, 0 <= k <= 18 -> gc_fraction g = 10 ^ k -> Z.of_nat (c_dec c) = k).
(** the account [c] is the account [a] of the book; accounts without a commodity have the default one *)
Definition converted_account (cs : list gcommodity) (l : list gaccount) (a : gaccount) (c : caccount) : Prop :=
  ca_guid c = ga_guid a /\ (exists ns, path l a ns /\ ca_name c = join (B ":") ns) /\
  book_commodity cs (if eqb_bytes (ga_commodity a) [] then B "CAD" else ga_commodity a) (ca_commodity c) /\
  ca_desc c = ga_desc a /\ online (slot (B "online_id") (ga_slots a)) (ca_bank c) (ca_acct c).

(** ** Transactions *)
(** a description "A - B" is the description A with the note B *)
Definition described (s d : bytes) (notes : list bytes) : Prop :=
  (exists n, s = d ++ B " - " ++ n /\ (forall x y, d ++ B " -" <> x ++ B " - " ++ y) /\ notes = (if eqb_bytes n [] then [] else [n])) \/
  ((forall x y, s <> x ++ B " - " ++ y) /\ d = s /\ notes = []).
Definition memo_notes (m : bytes) (notes : list bytes) : Prop := (m = [] /\ notes = []) \/ (m <> [] /\ notes = [m]).
(** the posting [p] of [L] is the split [s], at instant [t] *)
Definition posting_from (acs : list caccount) (L : ledger) (t : Z) (s : gsplit) (p : nat) : Prop :=
  rp_date (heap L p) = t /\ rp_acc (heap L p) = gs_account s /\ memo_notes (gs_memo s) (rp_notes (heap L p)) /\
  rp_asserted (heap L p) = false /\
  exists a q, In a acs /\ ca_guid a = gs_account s /\ rp_qty (heap L p) = Some q /\ a_com q = ca_commodity a /\
    forall n d, fraction (gs_quantity s) n d -> 0 < d /\ largest_below n d q.
(** the transaction [x] of [L] is the transaction [t] of the book *)
Definition transaction_from (acs : list caccount) (L : ledger) (t : gtrans) (x : gtx) : Prop :=
  written_at (gt_posted t) (g_time x) /\ g_code x = gt_num t /\ described (gt_desc t) (g_desc x) (g_notes x) /\
  Forall2 (posting_from acs L (instant (g_time x))) (gt_splits t) (g_posts x).
Definition by_time (xs : list gtx) : Prop := StronglySorted (fun x y => instant (g_time x) <= instant (g_time y)) xs.
(** the postings to the account of that guid, in all transactions *)
Definition postings_to (L : ledger) (g : bytes) (xs : list gtx) : list nat :=
  filter (fun p => eqb_bytes (rp_acc (heap L p)) g) (flat_map g_posts xs).

(** ** Files *)
(** the file [f] holds these entries *)
Definition holds (acc_dec : bytes -> nat) (F : fs) (f : bytes) (is_ : list item) : Prop :=
  exists text, F f = Some text /\ write_items acc_dec is_ = Ok text.
Definition price_items (ps : list cprice) : list item := map (fun p => IPrice (price_item p)) ps.
Definition trans_items (c : converted) (xs : list gtx) : list item := map (fun x => ITransaction (trans_item (cv_accounts c) (cv_ledger c) x)) xs.
Definition price_year (p : cprice) : Z := year_of (st_day (cp_time p)).
Definition trans_year (x : gtx) : Z := year_of (st_day (g_time x)).
(** written with the offset [z], in seconds *)
Definition in_zone (z : Z) (s : bytes) : Prop :=
  exists m, moment_ok m /\ s = moment_text m /\ signed (mo_neg m) (mo_zh m * 3600 + mo_zm m * 60) = z.
(** the price [c] is the price [p] of the book *)
Definition converted_price (cs : list gcommodity) (p : gprice) (c : cprice) : Prop :=
  written_at (gp_date p) (cp_time c) /\ book_commodity cs (gp_commodity p) (cp_commodity c) /\ book_commodity cs (gp_currency p) (a_com (cp_value c)) /\
  forall n d, fraction (gp_value p) n d -> 0 < d /\ largest_below n d (cp_value c).

(** ** What the files say, in terms of the book *)
Definition commodity_entry (g : gcommodity) (c : pcommodity) : Prop :=
  pc_id c = gc_id g /\ pc_name c = gc_name g /\ pc_nomarket c = false /\ pc_symbol c = [] /\
  (forall k, 0 <= k <= 18 -> gc_fraction g = 10 ^ k -> Z.of_nat (pc_dec c) = k).
Definition price_entry (cs : list gcommodity) (p : gprice) (i : pprice) : Prop :=
  (exists m, moment_ok m /\ gp_date p = moment_text m /\ pp_time i = moment_day m) /\
  pp_commodity i = gp_commodity p /\ pp_currency i = gp_currency p /\ book_commodity cs (gp_currency p) (a_com (pp_value i)) /\
  forall n d, fraction (gp_value p) n d -> 0 < d /\ largest_below n d (pp_value i).
(** the account of that guid has this full name *)
Definition named_account (l : list gaccount) (g n : bytes) : Prop :=
  exists a ns, In a l /\ ga_guid a = g /\ path l a ns /\ n = join (B ":") ns.
Definition account_commodity (a : gaccount) : bytes := if eqb_bytes (ga_commodity a) [] then B "CAD" else ga_commodity a.
Definition account_entry (l : list gaccount) (a : gaccount) (i : paccount) : Prop :=
  named_account l (ga_guid a) (pa_name i) /\ pa_desc i = ga_desc a /\ pa_commodity i = account_commodity a /\ pa_closed i = None /\ pa_csvid i = [] /\
  online (slot (B "online_id") (ga_slots a)) (pa_bankid i) (pa_acctid i).
Definition split_entry (b : book) (s : gsplit) (p : posting) : Prop :=
  named_account (bk_accounts b) (gs_account s) (ps_account p) /\ ps_balance p = None /\ memo_notes (gs_memo s) (ps_notes p) /\
  exists q a, ps_quantity p = Some q /\ In a (bk_accounts b) /\ ga_guid a = gs_account s /\ book_commodity (bk_commodities b) (account_commodity a) (a_com q) /\
    forall n d, fraction (gs_quantity s) n d -> 0 < d /\ largest_below n d q.
Definition trans_entry (b : book) (t : gtrans) (i : transaction) : Prop :=
  (exists m, moment_ok m /\ gt_posted t = moment_text m /\ t_posted i = moment_day m) /\ t_code i = gt_num t /\ described (gt_desc t) (t_desc i) (t_notes i) /\
  Forall2 (split_entry b) (gt_splits t) (t_postings i).
