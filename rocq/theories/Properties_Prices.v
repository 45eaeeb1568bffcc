(** C111-C113: the prices of the coin2html page. *)
From Coq Require Import Permutation Sorted.
From Verif Require Import Base M_Amount S_Amount M_Convert S_Convert L_Convert Properties_Convert M_Date M_Parser M_Writer M_Names M_Tags M_Ledger M_Csv M_Json M_Web S_Web L_Web L_WebQ L_WebPrice L_WebBfs Properties_Web M_Page S_Page L_Page L_Dec L_Amount L_Sort L_Resolve M_Prices L_Prices2 L_Prices3.
Local Open Scope Z_scope.

(** ** C111 *)
(** Every recorded price is loaded. The prices of a commodity on the page are, in the order of the record: for each price of the commodity the
    price itself - same day, same value, same currency - and for each price in the commodity its reverse. *)
Theorem C111_prices_loaded_partial : forall about coms location ps, coms_ok coms -> Forall (price_ok coms) ps ->
  exists pcoms src P, load_commodities (data_text (commodities_json about coms)) = Ok pcoms /\
    export_prices location ps = Ok src /\ load_prices pcoms src = Ok P /\
    forall id, exists ls, P id = concat ls /\ Forall2 (fun p l => exists c v, same_amount (p_value p) v /\ c_id c = p_com_id p /\
      (exists c', In c' coms /\ c_id c' = p_com_id p /\ same_commodity c' c) /\
      l = (if eqb_bytes id (p_com_id p) then [mkPprice c (p_time p) (Some (a_int v)) (a_com v)] else []) ++
          (if eqb_bytes id (p_cur_id p) then [reverse c (p_time p) v] else [])) ps ls.
Proof.
  intros about coms location ps Hc F. destruct (loaded_commodities about coms (proj1 Hc)) as (pcoms & E1 & E2).
  destruct (load_prices_spec coms pcoms location Hc E2 ps F) as (src & P & E3 & E4 & E5).
  exists pcoms, src, P. split; [exact E1|]. split; [exact E3|]. split; [exact E4|]. intros id. exists (map (pushed coms id) ps). split; [rewrite E5; apply flat_map_concat_map|].
  clear E3 E4 E5. induction F as [|p ps X F IH]; cbn [map]; constructor; [|exact IH].
  destruct X as (X & Cur & (c & Ic & Ec) & Y). exists (page_com (com_named coms (p_com_id p))), (page_amount (p_value p)).
  assert (N : com_named coms (p_com_id p) = c) by (unfold com_named; rewrite <- Ec, (com_by_id_found coms c (proj1 Hc) Ic); reflexivity).
  split; [apply page_same|]. rewrite N. split; [exact Ec|]. split; [exists c; repeat split; assumption|]. unfold pushed. rewrite N. reflexivity.
Qed.
(** One price of more than 2^53 minor units stops the loading of the page. *)
Definition big_price := mkPrice (B "BTC") (B "CAD") (mkAmount 9007199254740993 (mkCommodity 1 (B "CAD") 2)) (go_date 2024 3 1).
Theorem C111_large_price_refuted : exists src, export_prices (fun _ => []) [big_price] = Ok src /\
  load_prices [mkCommodity 0 (B "BTC") 8; mkCommodity 0 (B "CAD") 2] src = Fail.
Proof. eexists. split; [vm_compute; reflexivity|]. vm_compute. reflexivity. Qed.
Definition two_prices := [mkPrice (B "USD") (B "CAD") (mkAmount 135 (mkCommodity 1 (B "CAD") 2)) (go_date 2024 3 1); mkPrice (B "CAD") (B "USD") (mkAmount 75 (mkCommodity 2 (B "USD") 2)) (go_date 2024 3 4)].
Example C111_example :
  coms_ok [mkCommodity 1 (B "CAD") 2; mkCommodity 2 (B "USD") 2] /\ Forall (price_ok [mkCommodity 1 (B "CAD") 2; mkCommodity 2 (B "USD") 2]) two_prices /\
  match export_prices (fun _ => B "prices.coin:3") two_prices with
  | Ok src => match load_prices [mkCommodity 0 (B "CAD") 2; mkCommodity 0 (B "USD") 2] src with
              | Ok P => map (fun p => (q_date p - go_date 2024 3 1, q_val p)) (P (B "CAD")) = [(0, Some 74); (3, Some 75)] /\
                        map (fun p => (q_date p - go_date 2024 3 1, q_val p)) (P (B "USD")) = [(0, Some 135); (3, Some 133)]
              | _ => False end
  | _ => False end.
Proof.
  split; [|split].
  - split; [repeat constructor; cbn; intuition discriminate|]. intros c x [<-|[<-|[]]] I; cbn in I; intuition congruence.
  - assert (Y : forall y m d, 0 <= year_of (go_date y m d) <= 9999 -> plain_year (go_date y m d)) by (intros; assumption).
    constructor; [|constructor; [|constructor]]; (split; [split; [cbn; lia|split; [cbn; lia|cbn; tauto]]|split; [reflexivity|split]]); try (apply Y; vm_compute; split; discriminate).
    + exists (mkCommodity 2 (B "USD") 2). split; [right; left; reflexivity|reflexivity].
    + exists (mkCommodity 1 (B "CAD") 2). split; [left; reflexivity|reflexivity].
  - vm_compute. split; reflexivity.
Qed.

(** ** C112 *)
(** The reverse of a price: the number of minor units nearest to the exact reciprocal - although computed with two roundings - as long as the
    two commodities have at most 14 decimals together. *)
Theorem C112_reverse_is_nearest_partial : forall c d v, 0 < a_int v -> (a_dec v + c_dec c <= 14)%nat ->
  exists r, q_val (reverse c d v) = Some r /\ q_com (reverse c d v) = a_com v /\ q_cur (reverse c d v) = c /\ q_date (reverse c d v) = d /\
    (2 * r - 1) * a_int v <= 2 * 10 ^ Z.of_nat (a_dec v + c_dec c) <= (2 * r + 1) * a_int v.
Proof.
  intros c d v Hv Hd. destruct (reciprocal v (c_dec c)) as [r|] eqn:E.
  - exists r. unfold reverse. cbn [q_val q_com q_cur q_date]. repeat (split; [first [exact E|reflexivity]|]). apply (reciprocal_spec v (c_dec c) r Hv); [|exact E].
    assert (10 ^ Z.of_nat (a_dec v + c_dec c) <= 10 ^ 14) by (apply Z.pow_le_mono_r; lia). change (10 ^ 14) with 100000000000000 in *. change (2 ^ 51) with 2251799813685248. lia.
  - unfold reciprocal in E. destruct (Z.eqb_spec (a_int v) 0); [lia|discriminate].
Qed.
(** An amount [a] of the currency converted with the reversed price: [r] minor units of the commodity where the exact number is
    a * 10^dec / price. It is off by at most half a minor unit of the commodity for every unit of the currency, plus one half. *)
Theorem C112_convert_back_partial : forall c d v a r, 0 < a_int v -> (a_dec v + c_dec c <= 14)%nat -> a_com a = a_com v ->
  q_val (reverse c d v) = Some r -> Z.abs (a_int a * r) + 10 ^ Z.of_nat (a_dec a) < 2 ^ 53 ->
  let b := convert_to a (mkAmount r c) in a_com b = c /\
  2 * Z.abs (a_int b * a_int v - a_int a * 10 ^ Z.of_nat (c_dec c)) * 10 ^ Z.of_nat (a_dec a) <= a_int v * (Z.abs (a_int a) + 10 ^ Z.of_nat (a_dec a)).
Proof.
  intros c d v a r Hv Hd Ea Er Hl b. destruct (C112_reverse_is_nearest_partial c d v Hv Hd) as (r' & E & _ & _ & _ & R). rewrite Er in E. injection E as <-.
  destruct (C99_conversion_rounds_half_up_partial a (mkAmount r c) Hl) as [C1 C2]. fold b in C1, C2. cbn [a_com a_int] in C1, C2. split; [exact C1|].
  assert (Edec : a_dec a = a_dec v) by (unfold a_dec; rewrite Ea; reflexivity). rewrite Edec in *. rewrite Nat2Z.inj_add, Z.pow_add_r in R by lia.
  set (p := 10 ^ Z.of_nat (a_dec v)) in *. set (k := 10 ^ Z.of_nat (c_dec c)) in *. set (z := a_int v) in *. set (A := a_int a) in *. set (n := a_int b) in *.
  assert (Pp : 0 < p) by (apply Z.pow_pos_nonneg; lia). assert (Pk : 0 < k) by (apply Z.pow_pos_nonneg; lia). clearbody p k z A n. clear - R C2 Hv Pp Pk.
  assert (X1 : Z.abs (2 * r * z - 2 * (p * k)) <= z) by lia.
  assert (X2 : Z.abs (2 * n * p - 2 * (A * r)) <= p) by lia.
  assert (Y1 : Z.abs (A * (2 * r * z - 2 * (p * k))) <= Z.abs A * z) by (rewrite Z.abs_mul; apply Z.mul_le_mono_nonneg_l; lia).
  assert (Y2 : Z.abs (z * (2 * n * p - 2 * (A * r))) <= z * p) by (rewrite Z.abs_mul, (Z.abs_eq z) by lia; apply Z.mul_le_mono_nonneg_l; lia).
  assert (E : 2 * Z.abs (n * z - A * k) * p = Z.abs (z * (2 * n * p - 2 * (A * r)) + A * (2 * r * z - 2 * (p * k)))).
  { replace (z * (2 * n * p - 2 * (A * r)) + A * (2 * r * z - 2 * (p * k))) with (2 * p * (n * z - A * k)) by ring. rewrite Z.abs_mul. rewrite (Z.abs_eq (2 * p)) by lia. ring. }
  rewrite E. lia.
Qed.
(** A share of two decimals at 5000.00 CAD: the reverse price is zero, any amount of CAD is worth no shares. *)
Definition share := mkCommodity 0 (B "ACME") 2.
Definition page_cad := mkCommodity 0 (B "CAD") 2.
Theorem C112_small_unit_refuted : let p := reverse share 100 (mkAmount 500000 page_cad) in
  q_val p = Some 0 /\ forall z, a_int (convert_to (mkAmount z page_cad) (mkAmount 0 share)) = 0.
Proof. split; [vm_compute; reflexivity|]. intros z. unfold convert_to. cbn [a_int]. rewrite Z.mul_0_r. reflexivity. Qed.
Example C112_example : q_val (reverse share 100 (mkAmount 135 page_cad)) = Some 74 /\
  a_int (convert_to (mkAmount 100000 page_cad) (mkAmount 74 share)) = 74000 /\ q_val (reverse share 100 (mkAmount 8 page_cad)) = Some 1250.
Proof. vm_compute. auto. Qed.

(** ** C113 *)
(** the commodities linked by a price, in either direction *)
Definition linked_by (ps : list price) (a b : commodity) : Prop :=
  exists p, In p ps /\ ((c_id a = p_com_id p /\ c_id b = p_cur_id p) \/ (c_id b = p_com_id p /\ c_id a = p_cur_id p)).
Lemma pushed_in coms id p x : In x (flat_map finite (pushed coms id p)) ->
  (id = p_com_id p /\ a_com (wp_value x) = page_com (a_com (p_value p))) \/ (id = p_cur_id p /\ a_com (wp_value x) = page_com (com_named coms (p_com_id p))).
Proof.
  unfold pushed, finite, reverse. destruct (eqb_bytes id (p_com_id p)) eqn:E1, (eqb_bytes id (p_cur_id p)) eqn:E2; cbn [app flat_map q_val q_cur]; rewrite ?app_nil_r;
    try apply eqb_bytes_eq in E1; try apply eqb_bytes_eq in E2.
  - destruct (reciprocal _ _); cbn [app In]; [intros [<-|[<-|[]]]; auto|intros [<-|[]]; auto].
  - cbn [In]. intros [<-|[]]. auto.
  - destruct (reciprocal _ _); cbn [In]; [intros [<-|[]]; auto|intros []].
  - intros [].
Qed.
Lemma page_com_eq coms a b : coms_ok coms -> In a coms -> In b coms -> page_com a = page_com b -> a = b.
Proof.
  intros [N _] Ia Ib E. assert (c_id a = c_id b) by (unfold page_com in E; congruence). pose proof (com_by_id_found _ _ N Ia). pose proof (com_by_id_found _ _ N Ib). congruence.
Qed.
Lemma links coms ps P a b : coms_ok coms -> Forall (price_ok coms) ps -> Forall (fun p => a_int (p_value p) <> 0) ps ->
  (forall id, P id = flat_map (pushed coms id) ps) -> In a coms -> In b coms ->
  (In (page_com b) (priced_in (page_prices P) (page_com a)) <-> linked_by ps a b).
Proof.
  intros Hc F Z H Ia Ib. rewrite C101_priced_in. unfold page_prices. change (c_id (page_com a)) with (c_id a). rewrite H.
  assert (NC : forall c, In c coms -> com_named coms (c_id c) = c) by (intros c I; unfold com_named; rewrite (com_by_id_found coms c (proj1 Hc) I); reflexivity).
  split.
  - intros (x & Ix & Ex). apply in_flat_map in Ix as (pp & Ipp & Ix). apply in_flat_map in Ipp as (p & Ip & Ipp). exists p. split; [exact Ip|].
    rewrite Forall_forall in F. destruct (F p Ip) as (X & Cur & (c & Ic & Ec) & _). destruct X as (_ & _ & Iv).
    destruct (pushed_in coms (c_id a) p x) as [[E1 E2]|[E1 E2]]; [apply in_flat_map; eauto| |]; rewrite E2 in Ex; [left|right].
    + split; [exact E1|]. rewrite Cur. apply (page_com_eq coms) in Ex; auto. rewrite Ex. reflexivity.
    + split; [|exact E1]. rewrite <- Ec, (NC c Ic) in Ex. apply (page_com_eq coms) in Ex; auto. rewrite <- Ex. exact Ec.
  - intros (p & Ip & Hl). rewrite Forall_forall in F, Z. specialize (Z p Ip). destruct (F p Ip) as (X & Cur & (c & Ic & Ec) & _). destruct X as (_ & _ & Iv).
    assert (S : exists x, In x (flat_map finite (pushed coms (c_id a) p)) /\ a_com (wp_value x) = page_com b).
    { destruct Hl as [[E1 E2]|[E1 E2]].
      - exists (mkWprice (p_time p) (mkAmount (a_int (p_value p)) (page_com (a_com (p_value p))))). split.
        + unfold pushed. rewrite E1, eqb_bytes_refl. cbn [app flat_map finite q_val q_date q_cur]. left. reflexivity.
        + cbn [wp_value a_com]. rewrite Cur in E2. f_equal. pose proof (com_by_id_found _ _ (proj1 Hc) Iv) as Y1. pose proof (com_by_id_found _ _ (proj1 Hc) Ib) as Y2. congruence.
      - assert (Ecb : c = b). { pose proof (com_by_id_found _ _ (proj1 Hc) Ic) as Y1. pose proof (com_by_id_found _ _ (proj1 Hc) Ib) as Y2. congruence. } subst c.
        destruct (reciprocal (page_amount (p_value p)) (c_dec (page_com b))) as [r|] eqn:Er.
        2: { unfold reciprocal in Er. cbn [page_amount a_int] in Er. destruct (Z.eqb_spec (a_int (p_value p)) 0); [contradiction|discriminate]. }
        exists (mkWprice (p_time p) (mkAmount r (page_com b))). split; [|reflexivity].
        unfold pushed. rewrite E2, eqb_bytes_refl, flat_map_app. apply in_or_app. right. rewrite <- E1, (NC b Ib). unfold reverse. rewrite Er. cbn [flat_map finite q_val q_date q_cur app]. left. reflexivity. }
    destruct S as (x & Ix & Ex). exists x. split; [|exact Ex]. apply in_flat_map in Ix as (pp & I1 & I2). apply in_flat_map. exists pp. split; [|exact I2]. apply in_flat_map. eauto.
Qed.
(** a chain of links *)
Inductive connected (ps : list price) (coms : list commodity) : commodity -> commodity -> Prop :=
| conn_one a b : In a coms -> In b coms -> linked_by ps a b -> connected ps coms a b
| conn_more a b c : In a coms -> In b coms -> linked_by ps a b -> connected ps coms b c -> connected ps coms a c.
Lemma linked_chain ps coms P a b : coms_ok coms -> Forall (price_ok coms) ps -> Forall (fun p => a_int (p_value p) <> 0) ps ->
  (forall id, P id = flat_map (pushed coms id) ps) -> connected ps coms a b -> exists w, S_Web.chain (priced_in (page_prices P)) (page_com a) (page_com b) w.
Proof.
  intros Hc F Z H. induction 1 as [a b Ia Ib Hl|a b c Ia Ib Hl _ IH].
  - exists [page_com a; page_com b]. exists []. split; [reflexivity|]. cbn [linked]. split; [|exact I]. apply (links coms ps); auto.
  - destruct IH as (w & m & -> & Hw). exists (page_com a :: (page_com b :: m) ++ [page_com c]). exists (page_com b :: m). split; [reflexivity|].
    cbn [app] in *. cbn [linked] in *. split; [|exact Hw]. apply (links coms ps); auto.
Qed.
(** The page converts one commodity into another exactly if they are linked by a chain of prices, whatever their direction and whatever was
    converted before. *)
Theorem C113_page_converts : forall about coms location ps a b, coms_ok coms -> Forall (price_ok coms) ps -> Forall (fun p => a_int (p_value p) <> 0) ps ->
  In a coms -> In b coms -> a <> b ->
  exists pcoms src P, load_commodities (data_text (commodities_json about coms)) = Ok pcoms /\ export_prices location ps = Ok src /\ load_prices pcoms src = Ok P /\
    forall W, searched (page_prices P) (map page_com coms) W ->
    ((exists w, fst (find_conversion (S (List.length coms)) W (page_com a) (page_com b)) = Some w) <-> connected ps coms a b).
Proof.
  intros about coms location ps a b Hc F Z Ia Ib N. destruct (loaded_commodities about coms (proj1 Hc)) as (pcoms & E1 & E2).
  destruct (load_prices_spec coms pcoms location Hc E2 ps F) as (src & P & E3 & E4 & E5).
  exists pcoms, src, P. split; [exact E1|]. split; [exact E3|]. split; [exact E4|]. intros W HW.
  assert (All : forall c x, In x (priced_in (page_prices P) c) -> In x (map page_com coms)).
  { intros c x I. apply C101_priced_in in I as (y & Iy & <-). unfold page_prices in Iy. rewrite E5 in Iy. apply in_flat_map in Iy as (pp & Ipp & Iy). apply in_flat_map in Ipp as (p & Ip & Ipp).
    rewrite Forall_forall in F. destruct (F p Ip) as (X & Cur & (c' & Ic & Ec) & _). destruct X as (_ & _ & Iv).
    destruct (pushed_in coms (c_id c) p y) as [[_ E]|[_ E]]; [apply in_flat_map; eauto| |]; rewrite E; apply in_map; [exact Iv|].
    unfold com_named. rewrite <- Ec, (com_by_id_found coms c' (proj1 Hc) Ic). exact Ic. }
  assert (N' : page_com a <> page_com b) by (intros X; apply N, (page_com_eq coms); assumption).
  assert (IM : In (page_com a) (map page_com coms)) by (apply in_map, Ia).
  pose proof (C101_shortest_chain (page_prices P) (map page_com coms) W (page_com a) (page_com b) All IM N' HW) as C. rewrite map_length in C.
  destruct (fst (find_conversion (S (List.length coms)) W (page_com a) (page_com b))) as [w|].
  - split; [intros _|eauto]. destruct C as [(m & Ew & Hw) _]. rewrite Ew in Hw. clear Ew w HW N N' IM. revert a Ia Hw. induction m as [|x m IH]; intros a Ia Hw.
    + cbn [app linked] in Hw. destruct Hw as [Hw _]. apply conn_one; auto. apply (links coms ps P); auto.
    + cbn [app] in Hw. cbn [linked] in Hw. destruct Hw as [H1 H2]. pose proof (All _ _ H1) as Ix. apply in_map_iff in Ix as (x' & <- & Ix).
      apply conn_more with x'; auto. apply (links coms ps P); auto.
  - split; [intros (w & X); discriminate|]. intros K. exfalso. destruct (linked_chain ps coms P a b Hc F Z E5 K) as (w & Hw). exact (C w Hw).
Qed.
(** In particular: what coin converts the page converts. *)
Theorem C113_coin_converts : forall find coms ps db ps' o a b am v, coms_ok coms -> (forall id c, find id = Some c <-> In c coms /\ c_id c = id) ->
  Forall (price_ok coms) ps -> resolve_prices find ps db ps' -> order_ok o -> a <> b -> In a coms ->
  convert db o b am a = Some (Ok v) -> connected ps' coms a b.
Proof.
  intros find coms ps db ps' o a b am v Hc Hf F R Ho N Ia C.
  assert (D : db_ok db). { eapply resolve_db_ok; [|exact R]. rewrite Forall_forall in *. intros p Ip. destruct (F p Ip) as ((H & _) & _). exact H. }
  assert (X : exists qs, S_Convert.chain db a b qs) by (apply (convert_ok_iff db o b am a Ho D); eauto).
  destruct X as (qs & X). destruct (C14_global_list_sorted _ _ _ _ R) as [PM _].
  assert (L : forall x y p, priced db x y p -> linked_by ps' x y /\ In x coms /\ In y coms).
  { intros x y p (r & Hr). destruct (C14_first_price_is_latest find ps db ps' x y p r R) as [I _]; [unfold pair_prices; rewrite Hr; reflexivity|].
    unfold recorded in I. apply filter_In in I as [I E]. destruct (find (p_com_id p)) as [c1|] eqn:F1; [|discriminate]. destruct (find (p_cur_id p)) as [c2|] eqn:F2; [|discriminate].
    apply andb_true_iff in E as [E1 E2]. apply eq_commodity_eq in E1, E2. subst c1 c2. apply Hf in F1 as [I1 G1]. apply Hf in F2 as [I2 G2].
    split; [|auto]. exists p. split; [eapply Permutation_in; [exact PM|exact I]|]. left. auto. }
  clear C D. induction X as [a|a b c p qs Hp Hq IH]; [contradiction|]. destruct (L a b p Hp) as (L1 & L2 & L3).
  destruct (commodity_dec b c) as [<-|Nb]; [apply conn_one; auto|]. apply conn_more with b; auto.
Qed.
(** and if it converts one way it converts the other way *)
Theorem C113_both_ways : forall ps coms a b, connected ps coms a b -> connected ps coms b a.
Proof.
  assert (S : forall ps a b, linked_by ps a b -> linked_by ps b a) by (intros ps a b (p & I & H); exists p; tauto).
  assert (A : forall ps coms a b c, connected ps coms a b -> connected ps coms b c -> connected ps coms a c).
  { intros ps coms a b c H. induction H; intros K; [eapply conn_more; eauto|eapply conn_more; eauto]. }
  intros ps coms a b H. induction H; [apply conn_one; auto|]. eapply A; [exact IHconnected|]. apply conn_one; auto.
Qed.
Example C113_example : connected two_prices [mkCommodity 1 (B "CAD") 2; mkCommodity 2 (B "USD") 2] (mkCommodity 1 (B "CAD") 2) (mkCommodity 2 (B "USD") 2) /\
  Forall (fun p => a_int (p_value p) <> 0) two_prices.
Proof.
  split; [|repeat constructor; discriminate]. apply conn_one; [left; reflexivity|right; left; reflexivity|]. exists (hd big_price two_prices). split; [left; reflexivity|]. right. split; reflexivity.
Qed.
