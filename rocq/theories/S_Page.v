(** What it means that the page has the books: small specification for C103 and the views. *)
From Verif Require Import Base M_Amount M_Date M_Names M_Tags M_Ledger S_Books M_Page.
Local Open Scope Z_scope.

(** the same number of the same commodity; the page knows a commodity by its id and its decimals *)
Definition same_commodity (c k : commodity) : Prop := c_id k = c_id c /\ c_dec k = c_dec c.
Definition same_amount (a b : amount) : Prop := a_int b = a_int a /\ same_commodity (a_com a) (a_com b).
(** an absent text is an empty one *)
Definition or_empty {A} (o : option (list A)) : list A := match o with Some l => l | None => [] end.
(** the page's posting shows the posting [p] of the ledger *)
Definition shows (L : ledger) (p : nat) (pp : pposting) : Prop :=
  pp_date pp = rp_date (heap L p) /\ pp_account pp = rp_acc (heap L p) /\
  (exists q, rp_qty (heap L p) = Some q /\ same_amount q (pp_qty pp)) /\
  (exists b, rp_bal (heap L p) = Some b /\ same_amount b (pp_bal pp)) /\
  pp_asserted pp = rp_asserted (heap L p) /\ or_empty (pp_notes pp) = rp_notes (heap L p) /\
  (forall k v, In (k, v) (or_empty (pp_tags pp)) <-> tag_get k (parse_tags (rp_notes (heap L p))) = Some v).
Definition shows_tx (L : ledger) (x : rtx) (t : ptx) : Prop :=
  pt_posted t = x_posted x /\ pt_desc t = x_desc x /\ or_empty (pt_code t) = x_code x /\ or_empty (pt_notes t) = x_notes x /\
  Forall2 (shows L) (x_posts x) (pt_postings t).
(** the page's account shows the account [a]; accounts below Root are the page's roots *)
Definition page_parent (T : tree) (a : bytes) : option bytes :=
  match t_parent T a with Some p => if eqb_bytes p (B "Root") then None else Some p | None => None end.
Definition shows_account (T : tree) (info : bytes -> account_info) (a : bytes) (pa : pacct) : Prop :=
  pa_full pa = a /\ leaf_of a (pa_name pa) /\ same_commodity (in_com (info a)) (pa_com pa) /\ pa_parent pa = page_parent T a /\
  pa_closed pa = in_closed (info a) /\ or_empty (pa_location pa) = in_location (info a).

(** what can be exported: at most 50 decimals and 2^53 minor units, of a listed commodity; dates with a four-digit year *)
Definition exportable (coms : list commodity) (a : amount) : Prop := (a_dec a <= 50)%nat /\ Z.abs (a_int a) <= 2 ^ 53 /\ In (a_com a) coms.
Definition plain_year (d : Z) : Prop := 0 <= year_of d <= 9999.
Definition coms_ok (coms : list commodity) : Prop := NoDup (map c_id coms) /\ forall c x, In c coms -> In x (c_id c) -> x <> " "%char.
(** accounts as the program makes them (C38): every account but Root has its parent among them; no other account is called Root *)
Definition accounts_ok (coms : list commodity) (T : tree) (info : bytes -> account_info) (accounts : list bytes) : Prop :=
  NoDup accounts /\ In (B "Root") accounts /\ t_parent T (B "Root") = None /\
  (forall n, In n accounts -> n <> B "Root" -> exists p, t_parent T n = Some p /\ In p accounts /\ parent_of n p) /\
  (forall n, In n accounts -> leaf_of n (B "Root") -> n = B "Root") /\
  (forall n, In n accounts -> In (in_com (info n)) coms /\ forall d, in_closed (info n) = Some d -> plain_year d).
(** transactions after loading and checking: postings to known accounts, with quantity and balance *)
Definition posting_ok (coms : list commodity) (accounts : list bytes) (L : ledger) (p : nat) : Prop :=
  In (rp_acc (heap L p)) accounts /\ rp_acc (heap L p) <> B "Root" /\
  (exists q, rp_qty (heap L p) = Some q /\ exportable coms q) /\ (exists b, rp_bal (heap L p) = Some b /\ exportable coms b).
Definition tx_ok (coms : list commodity) (accounts : list bytes) (L : ledger) (x : rtx) : Prop :=
  plain_year (x_posted x) /\ x_posts x <> [] /\ forall p, In p (x_posts x) -> rp_date (heap L p) = x_posted x /\ posting_ok coms accounts L p.
