(** Lemmas: loading the exported prices. *)
From Coq Require Import Permutation Sorted.
From Verif Require Import Base M_Amount M_Convert M_Date M_Parser M_Writer M_Names M_Tags M_Ledger S_Books S_Names L_Sort L_Names L_Tags L_Dec L_Listing L_Resolve L_Entries L_Tree L_Listing2 M_Csv L_Csv2 M_Json L_Json M_Web L_Web M_Page S_Page L_Page M_Prices.
Local Open Scope Z_scope.

(** a price that can be exported: of listed commodities, small enough, on a day of a four-digit year *)
Definition price_ok (coms : list commodity) (p : price) : Prop :=
  exportable coms (p_value p) /\ p_cur_id p = c_id (a_com (p_value p)) /\ (exists c, In c coms /\ c_id c = p_com_id p) /\ plain_year (p_time p).
Section Load.
Variables (coms pcoms : list commodity) (location : price -> bytes).
Hypothesis Hc : coms_ok coms.
Hypothesis Hp : forall c, In c coms -> page_find pcoms (c_id c) = Some (page_com c).
(** the commodity of a price *)
Definition com_named (id : bytes) : commodity := match com_by_id coms id with Some c => c | None => mkCommodity 0 id 0 end.
(** what a price adds to the prices of the commodity called [id] *)
Definition pushed (id : bytes) (p : price) : list pprice :=
  (if eqb_bytes id (p_com_id p) then [mkPprice (page_com (com_named (p_com_id p))) (p_time p) (Some (a_int (p_value p))) (page_com (a_com (p_value p)))] else []) ++
  (if eqb_bytes id (p_cur_id p) then [reverse (page_com (com_named (p_com_id p))) (p_time p) (page_amount (p_value p))] else []).
Lemma price_step P p : price_ok coms p -> exists v P', price_json location p = Ok v /\ load_price pcoms P v = Ok P' /\ forall id, P' id = P id ++ pushed id p.
Proof.
  intros (X & Cur & (c & Ic & Ec) & Y). destruct X as (H1 & H2 & H3).
  assert (M : marshal_amount (p_value p) = Ok (web_string false (p_value p))) by (apply marshal_text, H1).
  assert (W : web_parse (page_find pcoms) (web_string false (p_value p)) = Ok (page_amount (p_value p))).
  { rewrite page_text, web_read.
    - change (a_int (page_amount (p_value p))) with (a_int (p_value p)). rewrite to_num_exact by exact H2. reflexivity.
    - intros x I. exact (proj2 Hc _ x H3 I).
    - exact (Hp _ H3).
    - left. reflexivity. }
  assert (N : com_named (p_com_id p) = c) by (unfold com_named; rewrite <- Ec, (com_by_id_found coms c (proj1 Hc) Ic); reflexivity).
  eexists. eexists. split; [unfold price_json; rewrite M; cbn [bind]; reflexivity|]. split.
  - unfold load_price, need_text, text_field, field.
    destruct (location p) as [|l1 l2]; cbn [entry]; jg; cbn [bind]; rewrite <- Ec, (Hp c Ic); jg; cbn [bind]; rewrite W; cbn [bind];
      rewrite <- page_text, eqb_bytes_refl; cbn [negb]; jg; cbn [bind]; rewrite (date_text _ Y); cbn [bind]; reflexivity.
  - intros id. unfold pushed, push_price, reverse, updb. cbn [q_com page_amount a_com a_int c_id page_com c_dec]. rewrite N, Cur, Ec.
    destruct (eqb_bytes id (p_com_id p)) eqn:E1, (eqb_bytes id (c_id (a_com (p_value p)))) eqn:E2; rewrite ?app_nil_r; try reflexivity.
    + apply eqb_bytes_eq in E1, E2. rewrite <- E2, E1, eqb_bytes_refl, <- app_assoc. reflexivity.
    + apply eqb_bytes_eq in E1. rewrite <- E1. reflexivity.
    + apply eqb_bytes_eq in E2. assert (X : eqb_bytes (c_id (a_com (p_value p))) (p_com_id p) = false) by (rewrite <- E2; exact E1). rewrite X, <- E2. reflexivity.
Qed.
Lemma prices_step ps : Forall (price_ok coms) ps -> forall P, exists vs P', all_json (price_json location) ps = Ok vs /\ List.length vs = List.length ps /\
  load_each_price pcoms P vs = Ok P' /\ forall id, P' id = P id ++ flat_map (pushed id) ps.
Proof.
  induction 1 as [|p ps X F IH]; intros P; [exists [], P; repeat split; intros; cbn [flat_map]; rewrite app_nil_r; reflexivity|].
  destruct (price_step P p X) as (v & P1 & E1 & E2 & E3). destruct (IH P1) as (vs & P2 & F1 & F2 & F3 & F4).
  exists (v :: vs), P2. cbn [all_json load_each_price]. rewrite E1, E2. cbn [bind]. rewrite F1. cbn [bind List.length]. split; [reflexivity|]. split; [congruence|]. split; [exact F3|].
  intros id. rewrite F4, E3. cbn [flat_map]. rewrite app_assoc. reflexivity.
Qed.
Lemma load_prices_spec ps : Forall (price_ok coms) ps -> exists src P, export_prices location ps = Ok src /\ load_prices pcoms src = Ok P /\ forall id, P id = flat_map (pushed id) ps.
Proof.
  intros F. destruct (prices_step ps F (fun _ => [])) as (vs & P & E1 & E2 & E3 & E4). unfold export_prices. rewrite E1. cbn [bind].
  exists (data_text (slice_json vs)). unfold load_prices. rewrite data_parse. destruct vs as [|v vs].
  - exists (fun _ => []). split; [reflexivity|]. split; [reflexivity|]. destruct ps; [reflexivity|discriminate].
  - exists P. split; [reflexivity|]. split; [exact E3|]. intros id. rewrite E4. reflexivity.
Qed.
End Load.
