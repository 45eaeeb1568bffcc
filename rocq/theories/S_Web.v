(** Small specifications for the page. *)
From Coq Require Import QArith Qabs Qpower.
From Verif Require Import Base M_Amount M_Web.
Local Open Scope Z_scope.

(** doubles: 53 bits, here without limits on the exponent; the doubles nearest to a number *)
Definition is_double (x : Q) : Prop := exists m e : Z, Z.abs m <= 2 ^ 53 /\ (x == inject_Z m * Qpower 2 e)%Q.
Definition nearest (q x : Q) : Prop := is_double x /\ forall y, is_double y -> (Qabs (x - q) <= Qabs (y - q))%Q.

(** a chain of commodities, each with a price in the next one; [D c] are the commodities in which [c] has prices *)
Fixpoint linked (D : commodity -> list commodity) (w : list commodity) : Prop :=
  match w with
  | a :: ((b :: _) as r) => In b (D a) /\ linked D r
  | _ => True
  end.
Definition chain (D : commodity -> list commodity) (from to : commodity) (w : list commodity) : Prop :=
  exists m, w = from :: m ++ [to] /\ linked D w.
Definition steps_of (w : list commodity) : nat := pred (List.length w).

(** what is remembered between the searches: for every commodity the direct conversions, one for each commodity it has prices in and
    in this order, and between them composed ones of at least two steps *)
Definition direct (e : commodity * way) : bool := (steps (snd e) =? 1)%nat.
Definition remembers (D : commodity -> list commodity) (W : ways) : Prop :=
  forall c, map fst (filter direct (W c)) = D c /\ NoDup (map fst (W c)) /\
    Forall (fun e => chain D c (fst e) (snd e) /\ (1 <= steps (snd e))%nat) (W c).
