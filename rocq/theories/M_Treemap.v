(** Model of the table and of the chart of balances of the coin2html page: cmd/coin2html/js/src/viewsBalances.ts and viewsBalancesChart.ts,
    with what they use of d3-hierarchy (stratify, sum, the iteration of nodes). Not modelled: the layout (positions of the boxes), colours. *)
From Verif Require Import Base M_Amount M_Date M_Names M_Ledger M_Web M_Page M_Views M_Ui M_Columns.
Local Open Scope Z_scope.

(** ** d3-hierarchy *)
Section Hierarchy.
Variable A : Type.
(** stratify().id(..).parentId(..): the names given to the nodes and to their parents. Simplification: names are not empty. *)
Variable id : A -> bytes.
Variable pid : A -> option bytes.
Definition has_id (k : bytes) (x : A) : bool := eqb_bytes k (id x).
Definition has_parent (k : bytes) (x : A) : bool := match pid x with Some p => eqb_bytes p k | None => false end.
(** d3-hierarchy stratify.js:55-71: node.children in the order of the nodes *)
Definition node_children (l : list A) (x : A) : list A := filter (has_parent (id x)) l.
(** eachBefore from node [x]; [deep] bounds the depth *)
Fixpoint visit (deep : nat) (l : list A) (x : A) : list A :=
  match deep with O => [] | S f => x :: flat_map (visit f l) (node_children l x) end.
(** stratify.js:29-100: each parent there and with a name of its own, one root, all nodes reached from it; else an exception *)
Definition stratify (deep : nat) (l : list A) : res A :=
  if forallb (fun x => match pid x with None => true | Some k => (List.length (filter (has_id k) l) =? 1)%nat end) l then
    match filter (fun x => match pid x with None => true | Some _ => false end) l with
    | [r] => if (List.length (visit deep l r) =? List.length l)%nat then Ok r else Fail
    | _ => Fail
    end
  else Fail.
(** sum.js: a node's value is its own size and the values of its children *)
Fixpoint node_value (deep : nat) (l : list A) (size : A -> Z) (x : A) : Z :=
  match deep with O => 0 | S f => size x + fold_right Z.add 0 (map (node_value f l size) (node_children l x)) end.
(** iterator.js: level by level; viewsBalancesChart.ts:55-57 groups the nodes by their depth again *)
Fixpoint levels (deep : nat) (l cur : list A) : list (list A) :=
  match deep with O => [] | S f => match cur with [] => [] | _ => cur :: levels f l (flat_map (node_children l) cur) end end.
End Hierarchy.
Arguments has_id {A}. Arguments has_parent {A}. Arguments node_children {A}. Arguments visit {A}. Arguments stratify {A}. Arguments node_value {A}. Arguments levels {A}.
(** Array.slice(0, n): a negative n counts from the end *)
Definition slice0 {A} (n : Z) (l : list A) : list A := firstn (Z.to_nat (if n <? 0 then Z.of_nat (List.length l) + n else n)) l.

Section Balances.
Variable pg : page.
Definition parent_on_page (a : bytes) : option bytes := match find_account (pg_accounts pg) a with Some pa => pa_parent pa | None => None end.
(** account.ts:125-130 depthFrom; -1 if [a] is not beneath *)
Fixpoint depth_from (deep : nat) (top a : bytes) : Z :=
  match deep with
  | O => -1
  | S f => if eqb_bytes top a then 0
           else match parent_on_page a with None => -1 | Some p => let d := depth_from f top p in if d <? 0 then d else d + 1 end
  end.
(** viewsBalances.ts:23-41; [limit] is State.View.BalanceDepth *)
Definition table_rows (sel : bytes) (limit : Z) (rows : list row) : list row :=
  filter (fun r => depth_from (height (r_acc r)) sel (r_acc r) <=? limit) rows.
Definition table_cells (sel : bytes) (r : row) : list bytes := [web_string true (r_bal r); web_string true (r_total r); relative_name sel (r_acc r)].

(** commodity.ts:147-157 convert *)
Definition page_convert (conv : conversion) (c : commodity) (a : amount) : res amount :=
  if eq_commodity (a_com a) c then Ok a else if a_int a =? 0 then Ok (mkAmount 0 c) else conv c a (a_com a).
Record box := mkBox { bx_acc : bytes; bx_title : bytes; bx_texts : list bytes; bx_value : Z }.
(** viewsBalancesChart.ts:32-37; accounts are compared as objects, here by their names *)
Definition parent_id (sel a : bytes) : option bytes :=
  match parent_on_page a with
  | None => None
  | Some p => match parent_on_page sel with Some q => if eqb_bytes p q then None else Some p | None => Some p end
  end.
(** viewsBalancesChart.ts:39-45. Simplification: the size in units of the smallest decimal of the commodity, not a floating-point number *)
Fixpoint box_sizes (conv : conversion) (c : commodity) (negated : bool) (rows : list row) : res (list (row * Z)) :=
  match rows with
  | [] => Ok []
  | r :: rest => do v <- page_convert conv c (r_bal r); do l <- box_sizes conv c negated rest;
                 Ok ((r, Z.max (if negated then - a_int v else a_int v) 0) :: l)
  end.
(** viewsBalancesChart.ts:84-90, 111-116: own balances are shown if there are subaccounts *)
Definition shows_own (r : row) : bool := match pg_children pg (r_acc r) with [] => false | _ => negb (a_int (r_bal r) =? 0) end.
Definition box_title (r : row) : bytes :=
  r_acc r ++ B " " ++ web_string true (r_total r) ++ (if shows_own r then B " [ " ++ web_string true (r_bal r) ++ B " ]" else []).
Definition short_name (a : bytes) : bytes := match find_account (pg_accounts pg) a with Some pa => pa_name pa | None => [] end.
Definition box_texts (r : row) : list bytes :=
  [short_name (r_acc r); web_string true (r_total r)] ++ (if shows_own r then [web_string true (r_bal r)] else []).
(** viewsBalancesChart.ts:30-82: the boxes drawn, in this order *)
Definition chart (conv : conversion) (sel : bytes) (negated : bool) (limit : Z) (rows : list row) : res (list box) :=
  let deep := depth_of_page pg in
  let id := fun x : row * Z => r_acc (fst x) in
  let pid := fun x : row * Z => parent_id sel (r_acc (fst x)) in
  do sized <- box_sizes conv (com_of pg sel) negated rows;
  do root <- stratify id pid (S deep) sized;
  Ok (map (fun x => mkBox (r_acc (fst x)) (box_title (fst x)) (box_texts (fst x)) (node_value id pid (S deep) sized snd x))
          (concat (slice0 limit (levels id pid (S deep) sized [root])))).
End Balances.
