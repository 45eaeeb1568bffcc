(** Shapes of date texts a user may type (README "Date Entry"); digits are given as lists of 0..9. *)
From Verif Require Import Base S_Decimal.

Definition dtext (ds : list Z) : bytes := map digit_char ds.
(** one or two digits *)
Definition d12_ok (ds : list Z) : Prop := digits_ok ds /\ (1 <= List.length ds <= 2)%nat.
Definition digits_n (n : nat) (ds : list Z) : Prop := digits_ok ds /\ List.length ds = n.
(** M/D *)
Definition md_text (ms ds : list Z) : bytes := dtext ms ++ B "/" ++ dtext ds.
(** Y/M/D *)
Definition ymd_text (ys ms ds : list Z) : bytes := dtext ys ++ B "/" ++ md_text ms ds.
(** an offset +N<unit> or -N<unit> *)
Definition offset_text (neg : bool) (ns : list Z) (u : ascii) : bytes :=
  (if neg then B "-" else B "+") ++ dtext ns ++ [u].
Definition signed (neg : bool) (n : Z) : Z := if neg then - n else n.
(** what may follow a date for it to end there: not a digit, '/', '+' or '-' *)
Definition ends_date (rest : bytes) : Prop :=
  match rest with
  | [] => True
  | c :: _ => is_digit c = false /\ c <> "/"%char /\ c <> "+"%char /\ c <> "-"%char
  end.
