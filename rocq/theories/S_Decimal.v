(** Independent reading of decimal literals, over the rationals. *)
From Verif Require Import Base.
From Coq Require Export QArith Qround.
Global Open Scope Z_scope.

(** positional value of a list of digits, most significant first *)
Fixpoint num (ds : list Z) : Z :=
  match ds with [] => 0 | d :: r => d * 10 ^ Z.of_nat (List.length r) + num r end.

(** a literal [-]digits[.digits] *)
Record literal := mkLit { l_neg : bool; l_int : list Z; l_frac : list Z }.
Definition digits_ok (ds : list Z) : Prop := Forall (fun d => 0 <= d <= 9) ds.
Definition lit_ok (l : literal) : Prop :=
  digits_ok (l_int l) /\ digits_ok (l_frac l) /\ l_int l <> [].

(** the characters '0'..'9' *)
Definition digit_char (d : Z) : ascii := nth (Z.to_nat d) (B "0123456789") "?"%char.
Definition lit_text (l : literal) : bytes :=
  (if l_neg l then B "-" else []) ++ map digit_char (l_int l) ++
  (match l_frac l with [] => [] | f => B "." ++ map digit_char f end).

(** the number obtained by ignoring the point, with its sign; and the int64 range *)
Definition lit_int (l : literal) : Z :=
  (if l_neg l then -1 else 1) * num (l_int l ++ l_frac l).
Definition fits64 (z : Z) : bool := (- 2 ^ 63 <=? z) && (z <=? 2 ^ 63 - 1).

Definition pow10Q (n : nat) : Q := inject_Z (10 ^ Z.of_nat n).
Definition lit_value (l : literal) : Q :=
  ((if l_neg l then -1 # 1 else 1 # 1) *
   (inject_Z (num (l_int l)) + inject_Z (num (l_frac l)) / pow10Q (List.length (l_frac l))))%Q.

(** value of [i] minor units with [d] decimals *)
Definition minor_value (i : Z) (d : nat) : Q := (inject_Z i / pow10Q d)%Q.
