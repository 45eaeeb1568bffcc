(** C10-C14: conversion and prices. *)
From Coq Require Import Permutation Sorted.
From Verif Require Import Base M_Amount M_Convert S_Decimal S_Amount S_Convert L_Dec L_Amount L_Convert.

(** ** C10 *)
Theorem C10_convert_iff_chain : forall db o c am c2, order_ok o -> db_ok db ->
  ((exists v, convert db o c am c2 = Some (Ok v)) <-> exists ps, chain db c2 c ps).
Proof. exact convert_ok_iff. Qed.
Print Assumptions C10_convert_iff_chain.
Theorem C10_convert_terminates : forall db o c am c2, order_ok o -> convert db o c am c2 <> None.
Proof. exact convert_terminates. Qed.
Print Assumptions C10_convert_terminates.
(** otherwise it reports an error, it never panics *)
Theorem C10_convert_ok_or_error : forall db o c am c2, order_ok o -> db_ok db ->
  (exists v, convert db o c am c2 = Some (Ok v)) \/ convert db o c am c2 = Some Fail.
Proof. exact convert_iff. Qed.
Print Assumptions C10_convert_ok_or_error.
(** the databases the program builds are well formed *)
Theorem C10_db_ok_reachable : forall find ps db' ps',
  Forall (fun p => (c_dec (a_com (p_value p)) <= 50)%nat) ps -> resolve_prices find ps db' ps' -> db_ok db'.
Proof. exact resolve_db_ok. Qed.
Print Assumptions C10_db_ok_reachable.

(** a database with a cycle A -> B -> A, a self price C -> C, and two ways from A to D *)
Definition ka := mkCommodity 1 (B "A") 2.
Definition kb := mkCommodity 2 (B "B") 2.
Definition kc := mkCommodity 3 (B "C") 2.
Definition kd := mkCommodity 4 (B "D") 2.
Definition ke := mkCommodity 5 (B "E") 2.
Definition pr (x y : commodity) (v : Z) := mkPrice (c_id x) (c_id y) (mkAmount v y) 0.
Definition exdb : pricedb :=
  [(ka, [(kb, [pr ka kb 200]); (kc, [pr ka kc 300])]);
   (kb, [(ka, [pr kb ka 50]); (kd, [pr kb kd 100])]);
   (kc, [(kc, [pr kc kc 100]); (kd, [pr kc kd 100])])].
Definition fwd : map_order := fun _ _ m => m.
Definition bwd : map_order := fun _ _ m => rev m.
Ltac solve_nodup := repeat (constructor; [cbn; intuition (try discriminate)|]); try constructor.
Example C10_example : order_ok fwd /\ order_ok bwd /\ db_ok exdb /\
  convert exdb fwd kd (mkAmount 100 ka) ka = Some (Ok (mkAmount 200 ka)) /\
  convert exdb fwd ke (mkAmount 100 ka) ka = Some Fail /\
  convert exdb fwd ka (mkAmount 100 kd) kd = Some Fail.
Proof.
  split; [intros ? ? m; apply Permutation_refl|]. split; [intros ? ? m; apply Permutation_rev|].
  split; [|repeat split].
  split; [solve_nodup|]. intros a m [H|[H|[H|[]]]]; injection H as <- <-;
  (split; [solve_nodup|]); intros b ps [H|[H|[]]]; injection H as <- <-;
  (split; [discriminate|]); (constructor; [|constructor]); cbn; lia.
Qed.

(** ** C11 *)
Theorem C11_convert_along_chain : forall db o c am c2 v, order_ok o -> db_ok db ->
  convert db o c am c2 = Some (Ok v) -> exists ps, chain db c2 c ps /\ times_all am ps = Ok v.
Proof. exact (fun db o c am c2 v Ho Hdb H => convert_sound db o c Ho Hdb _ am c2 [] v H). Qed.
Print Assumptions C11_convert_along_chain.
Theorem C11_direct_price_preferred : forall db o c am c2 p, c <> c2 -> priced db c2 c p ->
  convert db o c am c2 = Some (times am (p_value p)).
Proof. exact convert_direct. Qed.
Print Assumptions C11_direct_price_preferred.
Theorem C11_nothing_to_convert : forall db o c am, convert db o c am c = Some (Ok am).
Proof. exact convert_same. Qed.
Print Assumptions C11_nothing_to_convert.
Example C11_example : priced exdb ka kb (pr ka kb 200) /\ chain exdb ka kd [pr ka kb 200; pr kb kd 100].
Proof. split; [exists []; reflexivity|]. apply (chain_cons _ ka kb); [exists []; reflexivity|]. apply (chain_cons _ kb kd); [exists []; reflexivity|constructor]. Qed.

(** ** C12: the same conversion can give two results *)
Theorem C12_order_independence_refuted : exists db o o' c am c2 v v',
  db_ok db /\ order_ok o /\ order_ok o' /\
  convert db o c am c2 = Some (Ok v) /\ convert db o' c am c2 = Some (Ok v') /\ v <> v'.
Proof.
  exists exdb, fwd, bwd, kd, (mkAmount 100 ka), ka, (mkAmount 200 ka), (mkAmount 300 ka).
  destruct C10_example as (A & A2 & D & _).
  split; [exact D|]. split; [exact A|]. split; [exact A2|]. split; [reflexivity|]. split; [reflexivity|discriminate].
Qed.
Print Assumptions C12_order_independence_refuted.
(** What is independent of the order: whether it succeeds; and the result itself with a direct price
    or when every commodity is priced in at most one currency. *)
Theorem C12_order_independence_partial : forall db o o' c am c2, order_ok o -> order_ok o' -> db_ok db ->
  ((exists v, convert db o c am c2 = Some (Ok v)) <-> (exists v, convert db o' c am c2 = Some (Ok v))) /\
  ((exists p, priced db c2 c p) \/ (forall a, (List.length (prices_of db a) <= 1)%nat) ->
   convert db o c am c2 = convert db o' c am c2).
Proof.
  intros db o o' c am c2 Ho Ho' Hdb. split.
  - rewrite (convert_ok_iff db o) by assumption. rewrite (convert_ok_iff db o') by assumption. reflexivity.
  - intros [[p H]|H]; [|exact (convert_deterministic_single db o o' c Ho Ho' H _ am c2 [])].
    destruct (commodity_dec c c2) as [->|N]; [rewrite !convert_same; reflexivity|].
    rewrite !(convert_direct db _ c am c2 p N H). reflexivity.
Qed.
Print Assumptions C12_order_independence_partial.

(** ** C13: the result keeps the label (and decimals) of the source commodity *)
Theorem C13_target_commodity_refuted : exists db o c am c2 v,
  db_ok db /\ order_ok o /\ a_com am = c2 /\ convert db o c am c2 = Some (Ok v) /\ a_com v <> c.
Proof.
  exists exdb, fwd, kb, (mkAmount 100 ka), ka, (mkAmount 200 ka).
  destruct C10_example as (A & A2 & D & _).
  split; [exact D|]. split; [exact A|]. split; [reflexivity|]. split; [reflexivity|discriminate].
Qed.
Print Assumptions C13_target_commodity_refuted.
Theorem C13_target_commodity_partial : forall db o c am c2 v, order_ok o -> db_ok db ->
  convert db o c am c2 = Some (Ok v) -> a_com v = a_com am.
Proof. exact convert_label. Qed.
Print Assumptions C13_target_commodity_partial.

(** ** C14 *)
Theorem C14_first_price_is_latest : forall find ps db' ps' a b p r, resolve_prices find ps db' ps' ->
  pair_prices db' a b = p :: r ->
  In p (recorded find ps a b) /\ forall q, In q (recorded find ps a b) -> p_time q <= p_time p.
Proof. exact resolve_latest. Qed.
Print Assumptions C14_first_price_is_latest.
Theorem C14_lists_complete : forall find ps db' ps' a b, resolve_prices find ps db' ps' ->
  sort_slice (fun x y => p_time y <? p_time x) (recorded find ps a b) (pair_prices db' a b).
Proof. exact resolve_prices_pairs. Qed.
Print Assumptions C14_lists_complete.
Theorem C14_reading_order_irrelevant : forall find ps qs db1 db2 ps1 ps2 a b p r q s, Permutation ps qs ->
  resolve_prices find ps db1 ps1 -> resolve_prices find qs db2 ps2 ->
  pair_prices db1 a b = p :: r -> pair_prices db2 a b = q :: s ->
  p_time p = p_time q /\
  ((forall x y, In x (recorded find ps a b) -> In y (recorded find ps a b) -> p_time x = p_time y -> x = y) -> p = q).
Proof. exact resolve_order_independent. Qed.
Print Assumptions C14_reading_order_irrelevant.
Theorem C14_global_list_sorted : forall find ps db' ps', resolve_prices find ps db' ps' ->
  Permutation ps ps' /\ StronglySorted (fun a b => p_time a <= p_time b) ps'.
Proof. exact resolve_global. Qed.
Print Assumptions C14_global_list_sorted.
Definition exfind : find_commodity := fun id => if eqb_bytes id (B "A") then Some ka else if eqb_bytes id (B "B") then Some kb else None.
Definition p1 := mkPrice (B "A") (B "B") (mkAmount 100 kb) 5.
Definition p2 := mkPrice (B "A") (B "B") (mkAmount 120 kb) 9.
Example C14_example : resolve_prices exfind [p1; p2] [(ka, [(kb, [p2; p1])])] [p1; p2].
Proof.
  eexists. split; [reflexivity|]. split.
  - constructor; [|constructor]. split; [reflexivity|]. constructor; [|constructor]. split; [reflexivity|].
    split; [apply perm_swap|]. repeat constructor.
  - split; [apply Permutation_refl|repeat constructor].
Qed.
