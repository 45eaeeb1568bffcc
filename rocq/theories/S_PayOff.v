(** Amounts taken from balances (gen2coin), said about the generated postings. *)
From Verif Require Import Base M_Amount S_Decimal S_Amount M_Parser M_Ledger S_Books.

(** what the transactions move into account [a]: the sum of their postings there *)
Definition moved_into (L : ledger) (a : bytes) (xs : list rtx) : Z :=
  zsum (map (fun p => match rp_qty (heap L p) with Some q => if eqb_bytes (rp_acc (heap L p)) a then a_int q else 0 | None => 0 end) (flat_map x_posts xs)).
(** [v] is [b] divided by [d], rounded so that the rest is not negative *)
Definition divided (b d v : Z) : Prop := exists rest, b = d * v + rest /\ 0 <= rest < Z.abs d.
