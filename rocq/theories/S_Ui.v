(** Small specification of the controls of the page (C114, C115). *)
From Verif Require Import Base M_Amount M_Date M_Names M_Web M_Page M_Views S_Views M_Ui.
Local Open Scope Z_scope.

(** the accounts of the page are a tree: a root has no parent, the children of an account are the accounts it is the parent of, and
    the name of an account is longer than that of its parent *)
Definition page_tree (pg : page) : Prop :=
  (forall r, In r (pg_roots pg) -> exists pa, find_account (pg_accounts pg) r = Some pa /\ pa_parent pa = None) /\
  (forall a b, In b (pg_children pg a) <-> exists pb, find_account (pg_accounts pg) b = Some pb /\ pa_parent pb = Some a) /\
  forall b pb a, find_account (pg_accounts pg) b = Some pb -> pa_parent pb = Some a ->
    (exists pa, find_account (pg_accounts pg) a = Some pa) /\ (List.length a < List.length b)%nat.
(** [b] is [a] or beneath it in the tree *)
Definition under (pg : page) (a b : bytes) : Prop := beneath (pg_children pg) a b.
(** [b] is above [a] *)
Definition strictly_above (pg : page) (b a : bytes) : Prop := exists c, In c (pg_children pg b) /\ under pg c a.
(** the root above an account *)
Definition root_above (pg : page) (a r : bytes) : Prop := under pg r a /\ exists pr, find_account (pg_accounts pg) r = Some pr /\ pa_parent pr = None.
(** from the root down to the account *)
Inductive path_to (pg : page) : bytes -> list bytes -> Prop :=
| path_root a pa : find_account (pg_accounts pg) a = Some pa -> pa_parent pa = None -> path_to pg a [a]
| path_child a pa p l : find_account (pg_accounts pg) a = Some pa -> pa_parent pa = Some p -> path_to pg p l -> path_to pg a (l ++ [a]).
(** the views of the categories *)
Definition category_views (name : bytes) (l : list view) : Prop :=
  (In name [B "Assets"; B "Liabilities"; B "Income"; B "Expenses"] /\ l = [Balances; Register; TreeChart; BarChart]) \/
  (In name [B "Equity"; B "Unbalanced"] /\ l = [Balances; Register]).
Definition known_roots (pg : page) : Prop := forall a pa, find_account (pg_accounts pg) a = Some pa -> pa_parent pa = None ->
  In (pa_name pa) [B "Assets"; B "Liabilities"; B "Income"; B "Expenses"; B "Equity"; B "Unbalanced"].

(** The controls agree with each other: an account is selected; the views offered are those of its category and the selected view is among them;
    the bar chart has an aggregation; the list shows accounts beneath its root, and the selected account is this root or beneath it; the path
    leads to the selected account; what is excluded is the selected account or beneath it. *)
Definition ui_ok (pg : page) (s : ui) : Prop := exists a r pr l,
  u_sel s = Some a /\ root_above pg a r /\ find_account (pg_accounts pg) r = Some pr /\ category_views (pa_name pr) (u_offered s) /\
  In (u_view s) (u_offered s) /\ (u_view s = BarChart -> u_agg s <> None) /\
  u_root s = Some l /\ under pg l a /\ Forall (under pg l) (u_list s) /\ path_to pg a (u_crumbs s) /\ Forall (under pg a) (u_exclude s).

(** What the page lets the user do: select a root; click on an account of the list or the path, a box of the chart, the head of a column, an
    excluded account; choose an offered view. "None" is not among the aggregations of the bar chart. *)
Definition possible (pg : page) (s : ui) (e : event) : Prop :=
  match e with
  | SelectRoot a => In a (pg_roots pg)
  | ClickAccount a | DoubleClick a => In a (u_list s)
  | Crumb a => In a (u_crumbs s)
  | ClickBox a | Exclude a => exists x, u_sel s = Some x /\ under pg x a
  | Include a => In a (u_exclude s)
  | SelectView v => In v (u_offered s)
  | Aggregate None => u_view s <> BarChart
  | _ => True
  end.
(** a history: each action possible when it happens *)
Inductive history (mid : Z -> Z) (pg : page) : ui -> list event -> ui -> Prop :=
| hist_nil s : history mid pg s [] s
| hist_cons s e es s' : possible pg s e -> history mid pg (fst (handle mid pg s e)) es s' -> history mid pg s (e :: es) s'.
