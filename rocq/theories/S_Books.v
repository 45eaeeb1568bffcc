(** Registers and books: what users mean. Said about lists of posting numbers and their dates. *)
From Coq Require Import Sorted.
From Verif Require Import Base.

(** every posting is dated no later than those after it *)
Definition in_date_order (date : nat -> Z) (l : list nat) : Prop := StronglySorted (fun p q => date p <= date q) l.
(** the postings of one day, in order *)
Definition of_day (date : nat -> Z) (d : Z) (l : list nat) : list nat := filter (fun p => date p =? d) l.
(** [l] is [made] brought into date order, same-day postings staying in the order of [made] *)
Definition dated_version (date : nat -> Z) (made l : list nat) : Prop :=
  in_date_order date l /\ forall d, of_day date d l = of_day date d made.

(** ** Transactions as read and as resolved *)
From Verif Require Import M_Amount M_Parser M_Ledger S_Amount.

(** the quantities written in a list of postings *)
Definition written (ps : list posting) : list amount :=
  flat_map (fun s => match ps_quantity s with Some q => [q] | None => [] end) ps.
Definition missing (ps : list posting) : nat :=
  List.length (filter (fun s => match ps_quantity s with None => true | _ => false end) ps).
(** the quantities of resolved postings *)
Definition quantities (L : ledger) (ids : list nat) : list amount :=
  flat_map (fun p => match rp_qty (heap L p) with Some q => [q] | None => [] end) ids.
(** the quantities add up to zero in commodity [c], amounts in other commodities converted by [conv] *)
Definition sums_to_zero (conv : conversion) (c : commodity) (qs : list amount) : Prop :=
  exists z, add_all conv (zero_amount c) qs = Ok z /\ a_int z = 0.
(** the resolved posting [p] is the written posting [s], in the account its name stands for, with a quantity *)
Definition resolves (find : bytes -> res bytes) (L : ledger) (date : Z) (s : posting) (p : nat) : Prop :=
  rp_date (heap L p) = date /\ rp_name (heap L p) = ps_account s /\ find (ps_account s) = Ok (rp_acc (heap L p)) /\
  rp_notes (heap L p) = ps_notes s /\
  (exists q, rp_qty (heap L p) = Some q /\ (forall q', ps_quantity s = Some q' -> q = q')) /\
  (forall b, ps_balance s = Some b -> rp_bal (heap L p) = Some b) /\
  rp_asserted (heap L p) = (match ps_balance s with Some _ => true | None => false end).
(** the accounts of the postings have one commodity *)
Definition one_commodity (comm : bytes -> commodity) (L : ledger) (ids : list nat) (c : commodity) : Prop :=
  ids <> [] /\ forall p, In p ids -> comm (rp_acc (heap L p)) = c.
Definition resolved (find : bytes -> res bytes) (comm : bytes -> commodity) (conv : conversion) (L : ledger)
    (t : transaction) (x : rtx) : Prop :=
  x_posted x = t_posted t /\ x_code x = t_code t /\ x_desc x = t_desc t /\ x_notes x = t_notes t /\
  Forall2 (resolves find L (t_posted t)) (t_postings t) (x_posts x) /\
  (forall c, one_commodity comm L (x_posts x) c ->
     (missing (t_postings t) <= 1)%nat /\ sums_to_zero conv c (quantities L (x_posts x)) /\
     forall s1 s s2 p1 p p2, t_postings t = s1 ++ s :: s2 -> x_posts x = p1 ++ p :: p2 -> List.length s1 = List.length p1 ->
       ps_quantity s = None ->
       exists sum, add_all conv (zero_amount c) (written (s1 ++ s2)) = Ok sum /\ rp_qty (heap L p) = Some (negated sum)) /\
  ((forall c, ~ one_commodity comm L (x_posts x) c) -> missing (t_postings t) = O).
(** reading a list of transactions into a ledger *)
Definition load_transactions (find : bytes -> res bytes) (comm : bytes -> commodity) (conv : conversion)
    (accounts : list bytes) (chk : bool) (L : ledger) (ts : list transaction) : res (ledger * list nat * list rtx) :=
  let '(L1, xs) := alloc_txs L ts in resolve_transactions find comm conv accounts chk L1 xs.
(** a ledger the program can be in: registers in date order, without repetitions, holding known postings of that account *)
Definition ledger_ok (L : ledger) : Prop :=
  forall a, in_date_order (dates L) (reg L a) /\ NoDup (reg L a) /\
            forall p, In p (reg L a) -> (p < nxt L)%nat /\ rp_acc (heap L p) = a.
Definition empty_ledger : ledger := mkLedger (fun _ => mkRP 0 [] [] None None false []) 0 (fun _ => []) (fun _ => None).
(** the postings made to account [a] *)
Definition made_to (L : ledger) (a : bytes) (xs : list rtx) : list nat :=
  filter (fun p => eqb_bytes (rp_acc (heap L p)) a) (flat_map x_posts xs).
(** the transaction asserts a balance *)
Definition asserts (L : ledger) (x : rtx) : Prop := exists p, In p (x_posts x) /\ rp_asserted (heap L p) = true.
(** transactions by date, those of a day asserting balances after the others *)
Definition in_ledger_order (L : ledger) (xs : list rtx) : Prop :=
  StronglySorted (fun x y => x_posted x < x_posted y \/ (x_posted x = x_posted y /\ (asserts L x -> asserts L y))) xs.

(** ** Changing registers *)
Inductive reg_op := Add (p : nat) | Delete (p : nat).
Definition do_op (date : nat -> Z) (ps : list nat) (o : reg_op) : list nat :=
  match o with Add p => add_posting date ps p | Delete p => delete_posting date ps p end.
(** is [q] in the register after the operations, given whether it was before *)
Fixpoint present (q : nat) (ops : list reg_op) (before : bool) : bool :=
  match ops with
  | [] => before
  | Add p :: r => present q r (if (p =? q)%nat then true else before)
  | Delete p :: r => present q r (if (p =? q)%nat then false else before)
  end.
(** [l'] is [l] with [p] put after the postings dated up to its day *)
Definition inserted (date : nat -> Z) (p : nat) (l l' : list nat) : Prop :=
  exists before after, l = before ++ after /\ l' = before ++ p :: after /\
    (forall q, In q before -> date q <= date p) /\ (forall q, In q after -> date p < date q).
(** [l'] is [l] without [p] *)
Definition removed (p : nat) (l l' : list nat) : Prop :=
  exists before after, l = before ++ p :: after /\ l' = before ++ after /\ ~ In p l'.

(** ** The account tree *)
From Verif Require Import S_Names.
(** account [p] is the parent of account [n]: the name without its last segment, the root if nothing else is left *)
Definition parent_of (n p : bytes) : Prop :=
  (exists leaf, n = p ++ B ":" ++ leaf /\ ~ In ":"%char leaf /\ p <> []) \/
  (p = B "Root" /\ (~ In ":"%char n \/ exists leaf, n = B ":" ++ leaf /\ ~ In ":"%char leaf)).
(** the accounts there are: the declared ones, the two built-in ones and everything above a declared one *)
Definition needed (names : list bytes) (n : bytes) : Prop :=
  In n names \/ n = B "Root" \/ n = B "Unbalanced" \/ (n <> [] /\ exists k, In k names /\ below n k).
(** the last segment of a name *)
Definition leaf_of (n leaf : bytes) : Prop := ~ In ":"%char leaf /\ (n = leaf \/ exists p, n = p ++ B ":" ++ leaf).
(** [a] is [p] or below it in the tree *)
Inductive under (parent : bytes -> option bytes) (p : bytes) : bytes -> Prop :=
| under_self : under parent p p
| under_step c q : parent c = Some q -> under parent p q -> under parent p c.
