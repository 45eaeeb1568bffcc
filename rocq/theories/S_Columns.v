(** Small specification of the columns of subaccounts (C116-C118). *)
From Verif Require Import Base M_Amount S_Amount M_Date M_Names M_Web M_Page M_Views S_Views M_Ui S_Ui.
Local Open Scope Z_scope.

(** postings of the range; those of the period beginning with day [d]; those of the periods of the range up to this one *)
Definition in_range (mid : Z -> Z) (start stop : Z) (p : pposting) : bool := (start <=? mid (pp_date p)) && (mid (pp_date p) <=? stop).
Definition of_period (mid : Z -> Z) (k : interval) (start stop d : Z) (ps : list pposting) : list pposting :=
  filter (fun p => in_range mid start stop p && (floor_day k (pp_date p) =? d)) ps.
Definition up_to (mid : Z -> Z) (k : interval) (start stop d : Z) (ps : list pposting) : list pposting :=
  filter (fun p => in_range mid start stop p && ((start <=? mid (floor_day k (pp_date p))) && (floor_day k (pp_date p) <=? d))) ps.
(** the registers of the accounts: by date, in one commodity, with numbers small enough for exact sums *)
Definition registers_ok (pg : page) (c : commodity) (M : Z) (accs : list bytes) : Prop :=
  (forall b, In b accs -> com_of pg b = c /\ by_day (pg_register pg b) /\ in_commodity c (pg_register pg b) /\
     forall p, In p (pg_register pg b) -> a_com (pp_bal p) = c /\ Z.abs (a_int (pp_bal p)) <= M) /\
  small (ints (concat (map (pg_register pg) accs))) /\ 0 <= M /\ M * Z.of_nat (List.length accs) <= 2 ^ 53.
(** [b] is [a] or reached from it through shown accounts that are not excluded *)
Definition reached (mid : Z -> Z) (pg : page) (show : bool) (stop : Z) (exclude : list bytes) (a b : bytes) : Prop :=
  exists vis, (forall x y, In y (vis x) <-> In y (pg_children pg x) /\ ~ In y exclude /\
     (show = true \/ forall py d, find_account (pg_accounts pg) y = Some py -> pa_closed py = Some d -> stop < mid d)) /\ beneath vis a b.

(** ** bars and details *)
(** bars (offset, width) laid end to end from [o], with widths that are not negative, ending at [e] *)
Inductive end_to_end : Z -> list (Z * Z) -> Z -> Prop :=
| bars_end o : end_to_end o [] o
| bars_next o w l e : 0 <= w -> end_to_end (o + w) l e -> end_to_end o ((o, w) :: l) e.
(** the whole units of an amount, none if it is negative *)
Definition whole_units (negated : bool) (c : commodity) (a : Z) : Z := Z.max 0 (Z.quot (if negated then - a else a) (10 ^ Z.of_nat (c_dec c))).

(** ** names *)
(** [q] is the beginning of [p], empty only if [p] is *)
Definition beginning (q p : bytes) : Prop := (exists r, p = q ++ r) /\ (q = [] -> p = []).
