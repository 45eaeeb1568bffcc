(** What importing statements means. *)
From Coq Require Import Sorted.
From Verif Require Import Base M_Amount M_Parser M_Ledger M_Rules S_Rules S_Amount S_Books M_Ofx.

(** two transactions that say the same: same time, code, and the same amounts in the same accounts *)
Definition same_quantity (a b : amount) : Prop := a_int a = a_int b /\ a_dec a = a_dec b.
Definition alike (L : ledger) (x y : rtx) : Prop :=
  x_posted x = x_posted y /\ x_code x = x_code y /\
  Forall2 (fun p q => rp_acc (heap L p) = rp_acc (heap L q) /\
                      exists a b, rp_qty (heap L p) = Some a /\ rp_qty (heap L q) = Some b /\ same_quantity a b) (x_posts x) (x_posts y).
(** all postings have quantities, those of an account with the same number of decimals *)
Definition one_scale (L : ledger) (xs : list rtx) : Prop :=
  exists dec : bytes -> nat, forall x p, In x xs -> In p (x_posts x) -> exists a, rp_qty (heap L p) = Some a /\ a_dec a = dec (rp_acc (heap L p)).
Definition by_time (xs : list rtx) : Prop := StronglySorted (fun x y => x_posted x <= x_posted y) xs.
(** [some_of xs ys]: ys are some of xs, in the same order *)
Inductive some_of {A} : list A -> list A -> Prop :=
| so_nil : some_of [] []
| so_keep x xs ys : some_of xs ys -> some_of (x :: xs) (x :: ys)
| so_drop x xs ys : some_of xs ys -> some_of (x :: xs) ys.
(** the de-duplicated [xs], given the transactions [old] of the ledger *)
Definition deduplicated (L : ledger) (old xs kept : list rtx) : Prop :=
  some_of xs kept /\
  (forall k o, In k kept -> In o old -> ~ alike L o k) /\
  (forall k1 x k2 y k3, kept = k1 ++ x :: k2 ++ y :: k3 -> ~ alike L x y) /\
  (forall x, In x xs -> In x kept \/ exists o, (In o old \/ In o kept) /\ alike L o x).

(** an amount [num]/[den] in a commodity of [dec] decimals, rounded down *)
Definition amount_down (num den : Z) (c : commodity) (a : amount) : Prop :=
  a_com a = c /\ a_int a * den <= num * 10 ^ Z.of_nat (c_dec c) < (a_int a + 1) * den.

(** ** what becomes of a record *)
(** a record of a statement: the account of the statement and its rules in effect, and, with the last record of a bank
    statement, the balance of the account *)
Record entry := mkEntry { e_account : bytes; e_rules : list rule; e_time : Z; e_payee : bytes; e_num : Z; e_den : Z; e_balance : option (Z * Z) }.
(** the two postings of an imported transaction: the amount in the account, the opposite in the other one; the larger
    comes first *)
Definition posted_as (L : ledger) (x : rtx) (time : Z) (account other : bytes) (am : amount) (bal : option amount) : Prop :=
  exists p q, p <> q /\ x_posts x = (if a_int am <? 0 then [q; p] else [p; q]) /\
  heap L p = mkRP time [] account (Some am) bal (match bal with Some _ => true | None => false end) [] /\
  heap L q = mkRP time [] other (Some (mkAmount (- a_int am) (a_com am))) None false [].
Definition becomes (matches : bytes -> bytes -> bool) (comm : bytes -> commodity) (L : ledger) (e : entry) (o : option rtx) : Prop :=
  exists found, first_match matches (e_payee e) (e_rules e) found /\
  match found with
  | Some (mkRule None _ _) => o = None
  | _ => exists x am bal, o = Some x /\ x_posted x = e_time e /\ x_code x = [] /\ x_desc x = e_payee e /\
      x_notes x = (match found with Some r => r_notes r | None => [] end) /\
      amount_down (e_num e) (e_den e) (comm (e_account e)) am /\
      match e_balance e, bal with None, None => True | Some (n, d), Some b => amount_down n d (comm (e_account e)) b | _, _ => False end /\
      posted_as L x (e_time e) (e_account e) (match found with Some (mkRule (Some a) _ _) => a | _ => unbalanced end) am bal
  end.
(** the records of statements, in order *)
Inductive entries_of (by_ofx_id : bytes -> option bytes) (ri : rindex) (bank : bool) : statement -> list entry -> Prop :=
| eo st acct rs : (exists ars, account_rules_for by_ofx_id ri (st_id st) = Ok ars /\ ar_account ars = acct /\ expands (ri_sets ri) (ar_rules ars) rs) ->
    entries_of by_ofx_id ri bank st
      ((fix go (l : list orec) : list entry :=
          match l with
          | [] => []
          | r :: rest => mkEntry acct rs (o_time r) (if bank then M_Commands.trim_ws (o_name r ++ o_memo r) else o_name r) (o_num r) (o_den r)
                           (match rest with [] => if bank then Some (st_balance st) else None | _ => None end) :: go rest
          end) (st_recs st)).
Definition entries_of_file (by_ofx_id : bytes -> option bytes) (ri : rindex) (f : ofx_file) (es : list entry) : Prop :=
  exists b c, Forall2 (entries_of by_ofx_id ri true) (of_bank f) b /\ Forall2 (entries_of by_ofx_id ri false) (of_card f) c /\ es = concat b ++ concat c.
Definition somes {A} (l : list (option A)) : list A := flat_map (fun o => match o with Some x => [x] | None => [] end) l.
(** amounts have denominators, as those of math/big *)
Definition dens_ok (f : ofx_file) : Prop := forall st, In st (of_bank f ++ of_card f) -> 0 < snd (st_balance st) /\ forall r, In r (st_recs st) -> 0 < o_den r.
