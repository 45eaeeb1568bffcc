(** Model of the controls of the coin2html page: cmd/coin2html/js/src/views.ts (State, the event handlers) and ui.ts (initializeUI).
    An event handler changes the state and then renders the selected view; the model has the state and whether the handler threw before
    the rendering. (Rendering is the last thing every handler does: what the views throw, C110 and C116, does not change the state.) *)
From Verif Require Import Base M_Amount M_Date M_Names M_Web M_Page M_Views.
Local Open Scope Z_scope.

(** views.ts:54-94 Views: the views offered by the name of the root account.
    Simplification: names every JavaScript object has (toString, constructor, ...) count as unknown. *)
Inductive view := Balances | Register | TreeChart | BarChart.
Definition view_eqb (v w : view) : bool :=
  match v, w with Balances, Balances | Register, Register | TreeChart, TreeChart | BarChart, BarChart => true | _, _ => false end.
Definition views_for (name : bytes) : option (list view) :=
  if existsb (eqb_bytes name) [B "Assets"; B "Liabilities"; B "Income"; B "Expenses"] then Some [Balances; Register; TreeChart; BarChart]
  else if existsb (eqb_bytes name) [B "Equity"; B "Unbalanced"] then Some [Balances; Register]
  else None.

(** views.ts:28-47 State, and what the page shows of it besides the main view: the views offered, the list of accounts, the path of the account.
    A date or number [None] is an invalid one: the input was emptied. *)
Record ui := mkUi { u_sel : option bytes; u_root : option bytes; u_list : list bytes; u_offered : list view; u_view : view; u_crumbs : list bytes;
                    u_start : option Z; u_end : option Z; u_closed : bool; u_sub : bool; u_exclude : list bytes; u_notes : bool;
                    u_agg : option interval; u_max : option Z; u_flows : bool; u_location : bool; u_depth : option Z }.
Definition set_sel s x := mkUi x (u_root s) (u_list s) (u_offered s) (u_view s) (u_crumbs s) (u_start s) (u_end s) (u_closed s) (u_sub s) (u_exclude s) (u_notes s) (u_agg s) (u_max s) (u_flows s) (u_location s) (u_depth s).
Definition set_list s r x := mkUi (u_sel s) r x (u_offered s) (u_view s) (u_crumbs s) (u_start s) (u_end s) (u_closed s) (u_sub s) (u_exclude s) (u_notes s) (u_agg s) (u_max s) (u_flows s) (u_location s) (u_depth s).
Definition set_offered s x := mkUi (u_sel s) (u_root s) (u_list s) x (u_view s) (u_crumbs s) (u_start s) (u_end s) (u_closed s) (u_sub s) (u_exclude s) (u_notes s) (u_agg s) (u_max s) (u_flows s) (u_location s) (u_depth s).
Definition set_view s x := mkUi (u_sel s) (u_root s) (u_list s) (u_offered s) x (u_crumbs s) (u_start s) (u_end s) (u_closed s) (u_sub s) (u_exclude s) (u_notes s) (u_agg s) (u_max s) (u_flows s) (u_location s) (u_depth s).
Definition set_crumbs s x := mkUi (u_sel s) (u_root s) (u_list s) (u_offered s) (u_view s) x (u_start s) (u_end s) (u_closed s) (u_sub s) (u_exclude s) (u_notes s) (u_agg s) (u_max s) (u_flows s) (u_location s) (u_depth s).
Definition set_start s x := mkUi (u_sel s) (u_root s) (u_list s) (u_offered s) (u_view s) (u_crumbs s) x (u_end s) (u_closed s) (u_sub s) (u_exclude s) (u_notes s) (u_agg s) (u_max s) (u_flows s) (u_location s) (u_depth s).
Definition set_end s x := mkUi (u_sel s) (u_root s) (u_list s) (u_offered s) (u_view s) (u_crumbs s) (u_start s) x (u_closed s) (u_sub s) (u_exclude s) (u_notes s) (u_agg s) (u_max s) (u_flows s) (u_location s) (u_depth s).
Definition set_closed s x := mkUi (u_sel s) (u_root s) (u_list s) (u_offered s) (u_view s) (u_crumbs s) (u_start s) (u_end s) x (u_sub s) (u_exclude s) (u_notes s) (u_agg s) (u_max s) (u_flows s) (u_location s) (u_depth s).
Definition set_sub s x := mkUi (u_sel s) (u_root s) (u_list s) (u_offered s) (u_view s) (u_crumbs s) (u_start s) (u_end s) (u_closed s) x (u_exclude s) (u_notes s) (u_agg s) (u_max s) (u_flows s) (u_location s) (u_depth s).
Definition set_exclude s x := mkUi (u_sel s) (u_root s) (u_list s) (u_offered s) (u_view s) (u_crumbs s) (u_start s) (u_end s) (u_closed s) (u_sub s) x (u_notes s) (u_agg s) (u_max s) (u_flows s) (u_location s) (u_depth s).
Definition set_notes s x := mkUi (u_sel s) (u_root s) (u_list s) (u_offered s) (u_view s) (u_crumbs s) (u_start s) (u_end s) (u_closed s) (u_sub s) (u_exclude s) x (u_agg s) (u_max s) (u_flows s) (u_location s) (u_depth s).
Definition set_agg s x := mkUi (u_sel s) (u_root s) (u_list s) (u_offered s) (u_view s) (u_crumbs s) (u_start s) (u_end s) (u_closed s) (u_sub s) (u_exclude s) (u_notes s) x (u_max s) (u_flows s) (u_location s) (u_depth s).
Definition set_max s x := mkUi (u_sel s) (u_root s) (u_list s) (u_offered s) (u_view s) (u_crumbs s) (u_start s) (u_end s) (u_closed s) (u_sub s) (u_exclude s) (u_notes s) (u_agg s) x (u_flows s) (u_location s) (u_depth s).
Definition set_flows s x := mkUi (u_sel s) (u_root s) (u_list s) (u_offered s) (u_view s) (u_crumbs s) (u_start s) (u_end s) (u_closed s) (u_sub s) (u_exclude s) (u_notes s) (u_agg s) (u_max s) x (u_location s) (u_depth s).
Definition set_location s x := mkUi (u_sel s) (u_root s) (u_list s) (u_offered s) (u_view s) (u_crumbs s) (u_start s) (u_end s) (u_closed s) (u_sub s) (u_exclude s) (u_notes s) (u_agg s) (u_max s) (u_flows s) x (u_depth s).
Definition set_depth s x := mkUi (u_sel s) (u_root s) (u_list s) (u_offered s) (u_view s) (u_crumbs s) (u_start s) (u_end s) (u_closed s) (u_sub s) (u_exclude s) (u_notes s) (u_agg s) (u_max s) (u_flows s) (u_location s) x.

(** views.ts:268-277 updateAggregationForTimeRange; days are counted from the difference of the instants, here in minutes. With an invalid
    date every comparison is false. *)
Definition range_interval (start stop : option Z) : interval :=
  match start, stop with
  | Some s, Some e => if e - s <? 180 * 1440 then Weekly else if e - s <? 3 * 180 * 1440 then Monthly else if e - s <? 5 * 365 * 1440 then Quarterly else Yearly
  | _, _ => Yearly
  end.
Definition update_aggregation (s : ui) : ui := match u_agg s with None => s | Some _ => set_agg s (Some (range_interval (u_start s) (u_end s))) end.

Section Ui.
Variable mid : Z -> Z.
Variable pg : page.
(** account.ts:108-110 getRootAccount, 105-107 withAllParents, 111-115 isParentOf; accounts are known by their full names, parents have
    shorter ones, [fuel] bounds the climb *)
Fixpoint root_account (fuel : nat) (a : bytes) : option pacct :=
  match fuel with
  | O => None
  | S f => match find_account (pg_accounts pg) a with
           | None => None
           | Some pa => match pa_parent pa with Some p => root_account f p | None => Some pa end
           end
  end.
Fixpoint with_all_parents (fuel : nat) (a : bytes) : list bytes :=
  match fuel with
  | O => []
  | S f => match find_account (pg_accounts pg) a with
           | Some pa => match pa_parent pa with Some p => with_all_parents f p ++ [a] | None => [a] end
           | None => [a]
           end
  end.
Fixpoint is_parent_of (fuel : nat) (x a : bytes) : bool :=
  match fuel with
  | O => false
  | S f => match find_account (pg_accounts pg) a with
           | Some pa => match pa_parent pa with Some p => eqb_bytes p x || is_parent_of f x p | None => false end
           | None => false
           end
  end.
Definition height (a : bytes) : nat := S (List.length a).
(** account.ts:30-41 allChildren; [deep] is more than the length of any name *)
Definition child_shown (show : bool) (stop : option Z) (exclude : list bytes) (b : bytes) : bool :=
  (show || match find_account (pg_accounts pg) b with
           | Some pa => match pa_closed pa with None => true | Some d => match stop with Some e => e <? mid d | None => false end end
           | None => true
           end) && negb (existsb (eqb_bytes b) exclude).
Fixpoint all_children (deep : nat) (show : bool) (stop : option Z) (exclude : list bytes) (a : bytes) : list bytes :=
  match deep with
  | O => []
  | S f => flat_map (fun b => if child_shown show stop exclude b then b :: all_children f show stop exclude b else []) (pg_children pg a)
  end.
Definition depth_of_page : nat := S (fold_right Nat.max 0%nat (map (fun pa => List.length (pa_full pa)) (pg_accounts pg))).

(** views.ts:261-266 updateView, up to the rendering; addAggregateInput (views.ts:192-196) of the bar chart chooses an aggregation *)
Definition root_views (s : ui) : option (list view) :=
  match u_sel s with
  | None => None
  | Some a => match root_account (height a) a with Some r => views_for (pa_name r) | None => None end
  end.
Definition update_view (s : ui) : ui * bool :=
  match root_views s with
  | None => (s, true)
  | Some l =>
      if existsb (view_eqb (u_view s)) l then
        (match u_view s, u_agg s with BarChart, None => update_aggregation (set_agg s (Some Weekly)) | _, _ => s end, false)
      else (s, true)
  end.
(** views.ts:279-299 updateAccount *)
Definition update_account (s : ui) : ui * bool :=
  let s := set_exclude s [] in
  match u_sel s with
  | None => (s, true)
  | Some a => update_view (set_crumbs s (with_all_parents (height a) a))
  end.
(** views.ts:301-318 addViewSelect, 321-339 addAccountList, 341-345 updateAccounts *)
Definition update_accounts (s : ui) : ui * bool :=
  let s := set_offered s [] in
  match root_views s with
  | None => (s, true)
  | Some l =>
      let s := if existsb (view_eqb (u_view s)) l then s else set_view s (hd Balances l) in
      let s := set_offered s l in
      let s := set_list s (u_sel s) (match u_sel s with Some a => all_children depth_of_page (u_closed s) (u_end s) [] a | None => [] end) in
      update_account s
  end.
(** ui.ts:25-83 initializeUI after the loading *)
Definition init_ui (start stop : Z) : ui * bool :=
  update_accounts (mkUi (match find_account (pg_accounts pg) (B "Assets") with Some pa => Some (pa_full pa) | None => None end)
                        None [] [] Balances [] (Some start) (Some stop) false false [] false None (Some 5) true false (Some 3)).

(** What the user can do. *)
Inductive event :=
| SelectRoot (a : bytes) | ClickAccount (a : bytes) | DoubleClick (a : bytes) | Crumb (a : bytes) | ClickBox (a : bytes)
| SelectView (v : view) | SetStart (d : option Z) | SetEnd (d : option Z) | ShowClosed (b : bool) | SubAccounts (b : bool) | Notes (b : bool)
| Location (b : bool) | Aggregate (k : option interval) | Style (flows : bool) | SubAccountMax (n : option Z) | Depth (n : option Z)
| Exclude (a : bytes) | Include (a : bytes).
(** splice(indexOf(a), 1); indexOf is never -1 here, it would remove the last *)
Fixpoint remove_first (a : bytes) (l : list bytes) : list bytes :=
  match l with [] => [] | x :: r => if eqb_bytes a x then r else x :: remove_first a r end.
Definition handle (s : ui) (e : event) : ui * bool :=
  match e with
  | SelectRoot a => update_accounts (set_sel s (Some a))                                           (* ui.ts:63-70 *)
  | ClickAccount a => update_account (set_sel s (Some a))                                          (* views.ts:330-333 *)
  | DoubleClick a => update_accounts (set_sel s (Some a))                                          (* views.ts:334-337 *)
  | Crumb a => let s := set_sel s (Some a) in                                                      (* views.ts:291-295 *)
      match u_root s with
      | None => (s, true)
      | Some r => if is_parent_of (height r) a r then update_accounts s else update_account s
      end
  | ClickBox a => update_account (set_sel s (Some a))                                              (* viewsBalancesChart.ts:98-101, 113-116 *)
  | SelectView v => update_view (set_view s v)                                                     (* views.ts:308-312 *)
  | SetStart d => update_view (update_aggregation (set_start s (option_map utc_midnight d)))       (* ui.ts:56-61 *)
  | SetEnd d => update_view (update_aggregation (set_end s (option_map utc_midnight d)))           (* ui.ts:46-51 *)
  | ShowClosed b => update_accounts (set_closed s b)                                               (* ui.ts:75-79 *)
  | SubAccounts b => update_view (set_sub s b)                                                     (* views.ts:106-110 *)
  | Notes b => update_view (set_notes s b)                                                         (* views.ts:121-125 *)
  | Location b => update_view (set_location s b)                                                   (* views.ts:139-143 *)
  | Aggregate k => update_view (set_agg s k)                                                       (* views.ts:182-187 *)
  | Style f => update_view (set_flows s f)                                                         (* views.ts:209-214 *)
  | SubAccountMax n => update_view (set_max s n)                                                   (* views.ts:156-160 *)
  | Depth n => update_view (set_depth s n)                                                         (* views.ts:170-174 *)
  | Exclude a => update_view (set_exclude s (u_exclude s ++ [a]))                                  (* viewsRegister.ts:168-172 *)
  | Include a => update_view (set_exclude s (remove_first a (u_exclude s)))                        (* views.ts:238-242 *)
  end.
End Ui.
