(** What the table and the chart of balances show, said about the accounts of the page. *)
From Verif Require Import Base M_Amount S_Amount M_Date M_Names M_Ledger M_Web M_Page M_Views S_Views M_Ui S_Ui.
Local Open Scope Z_scope.

(** [b] is a subaccount of [x] that is shown *)
Definition shown_child (mid : Z -> Z) (pg : page) (show : bool) (t : Z) (x b : bytes) : Prop :=
  In b (pg_children pg x) /\ (show = true \/ ~ closed_by mid (pg_accounts pg) t b).
(** [b] is [n] levels beneath [a] *)
Inductive level (child : bytes -> bytes -> Prop) (a : bytes) : bytes -> nat -> Prop :=
| level_self : level child a a 0
| level_child b c n : level child a b n -> child b c -> level child a c (S n).
(** [l] are the accounts at most at a level satisfying [P], each once *)
Definition levels_shown (child : bytes -> bytes -> Prop) (a : bytes) (P : nat -> Prop) (l : list bytes) : Prop :=
  NoDup l /\ forall b, In b l <-> exists n, level child a b n /\ P n.
(** the accounts beneath [a], itself included, each once *)
Definition all_beneath (child : bytes -> bytes -> Prop) (a : bytes) (l : list bytes) : Prop := levels_shown child a (fun _ => True) l.
(** the title and the lines of the box of account [a]: the name, the total, and the own balance if there are subaccounts and it is not zero *)
Definition box_lines (pg : page) (name : bytes) (bal total : amount) (a title : bytes) (lines : list bytes) : Prop :=
  (pg_children pg a = [] \/ a_int bal = 0) /\ title = a ++ B " " ++ web_string true total /\ lines = [name; web_string true total] \/
  pg_children pg a <> [] /\ a_int bal <> 0 /\ title = a ++ B " " ++ web_string true total ++ B " [ " ++ web_string true bal ++ B " ]" /\
    lines = [name; web_string true total; web_string true bal].
(** the number of an amount in commodity [c]: its own, or that of its conversion *)
Definition worth (conv : conversion) (c : commodity) (x : amount) (n : Z) : Prop :=
  (a_com x = c /\ n = a_int x) \/ (a_com x <> c /\ a_int x = 0 /\ n = 0) \/
  (a_com x <> c /\ a_int x <> 0 /\ exists v, conv c x (a_com x) = Ok v /\ n = a_int v).
(** the size an account brings to the chart: amounts of the wrong sign bring nothing *)
Definition brings (negated : bool) (n : Z) : Z := if negated then Z.max (- n) 0 else Z.max n 0.
(** a page as the program makes them *)
Definition good_page (pg : page) : Prop := page_tree pg /\ forall a, NoDup (pg_children pg a).
