(** Small specifications for amounts. *)
From Verif Require Import Base M_Amount S_Decimal.

(** value of an amount, in units of its commodity *)
Definition value (a : amount) : Q := minor_value (a_int a) (c_dec (a_com a)).
Definition zsum (l : list Z) : Z := fold_right Z.add 0 l.

(** a.AddIn(b1); a.AddIn(b2); ... stopping at the first error *)
Fixpoint add_all (conv : conversion) (a : amount) (l : list amount) : res amount :=
  match l with [] => Ok a | b :: r => do a' <- add_in conv a b; add_all conv a' r end.
