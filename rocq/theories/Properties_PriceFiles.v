(** C130: the price lines of the files are what amounts are converted by. *)
From Coq Require Import Permutation Sorted.
From Verif Require Import Base M_Amount M_Date M_Names M_Parser M_Convert S_Convert L_Convert Properties_Convert M_Ledger M_Database S_Database L_Database L_Database2 Properties_Database L_Resolve L_Dec L_Amount M_Coin Properties_Parser Properties_Coin S_PriceFiles.

Lemma prices_of_files limit w DB compile fuel comm b es : load_all limit w DB compile fuel comm b -> all_entries w [] (database_files w DB) es ->
  exists prices', resolve_prices (known es) (map to_price (ev_prices es)) (b_prices b) prices'.
Proof.
  intros (d & Hl & prices' & known0 & o1 & o2 & o3 & o & Rp & _) Hes.
  rewrite load_files_list in Hl. destruct (C76_in_place _ _ _ _ Hl) as (es' & A1 & A2 & A3). assert (es' = es) by (eapply C76_unique; eassumption). subst es'.
  destruct A3 as (_ & _ & Ep & _ & _ & _ & Hk & _). exists prices'. cbn [app] in Ep, Hk. rewrite <- Ep.
  clear - Rp Hk. destruct Rp as (db & E & R). exists db. split; [|exact R]. rewrite <- E. clear - Hk. generalize (@nil (commodity * pmap)). induction (map to_price (d_prices d)) as [|p ps IH]; intros db0; [reflexivity|].
  cbn [add_prices]. unfold must_find_commodity. rewrite <- !Hk. destruct (find_comm d (p_com_id p)); [|reflexivity]. destruct (find_comm d (p_cur_id p)); [|reflexivity]. cbn [bind]. apply IH.
Qed.
Lemma recorded_lines es a b q : In q (recorded (known es) (map to_price (ev_prices es)) a b) <-> exists p, q = to_price p /\ price_line es a b p.
Proof.
  unfold recorded, price_line. rewrite filter_In, in_map_iff. split.
  - intros ((p & <- & Ip) & H). exists p. split; [reflexivity|]. cbn [to_price p_com_id p_cur_id] in H.
    destruct (known es (pp_commodity p)) as [x|]; [|discriminate]. destruct (known es (pp_currency p)) as [y|]; [|discriminate].
    apply andb_true_iff in H as [H1 H2]. apply eq_commodity_eq in H1, H2. subst. auto.
  - intros (p & -> & Ip & E1 & E2). split; [eauto|]. cbn [to_price p_com_id p_cur_id]. rewrite E1, E2. apply andb_true_iff. split; apply eq_commodity_refl.
Qed.
Lemma priced_lines es db prices' a b p : resolve_prices (known es) (map to_price (ev_prices es)) db prices' -> priced db a b p ->
  exists q, p = to_price q /\ latest_line es a b q.
Proof.
  intros R (ps & E). destruct (C14_first_price_is_latest _ _ _ _ a b p ps R) as [I L]; [unfold pair_prices; rewrite E; reflexivity|].
  apply recorded_lines in I as (q & -> & Hq). exists q. split; [reflexivity|]. split; [exact Hq|]. intros q' Hq'.
  apply (L (to_price q')). apply recorded_lines. eauto.
Qed.
Lemma lines_priced es db prices' a b q : resolve_prices (known es) (map to_price (ev_prices es)) db prices' -> price_line es a b q -> exists p, priced db a b p.
Proof.
  intros R Hq. destruct (C14_lists_complete _ _ _ _ a b R) as [P _].
  assert (I : In (to_price q) (pair_prices db a b)) by (eapply Permutation_in; [exact P|]; apply recorded_lines; eauto).
  unfold pair_prices, priced in *. destruct (assoc b (prices_of db a)) as [[|p ps]|]; [destruct I|eauto|destruct I].
Qed.
Definition small_prices (es : list event) : Prop := forall p, In p (ev_prices es) -> (c_dec (a_com (pp_value p)) <= 50)%nat.
Lemma files_db_ok es db prices' : small_prices es -> resolve_prices (known es) (map to_price (ev_prices es)) db prices' -> db_ok db.
Proof.
  intros Hs R. eapply resolve_db_ok; [|exact R]. apply Forall_forall. intros p Ip. apply in_map_iff in Ip as (q & <- & Iq). apply (Hs q Iq).
Qed.

(** ** C130 *)
(** If there are price lines from commodity [a] to commodity [c], an amount of [a] is converted to [c] by multiplying it with the
    price of a latest such line, whatever the other lines and orders are *)
Theorem C130_direct : forall limit w DB compile fuel comm b es o a c p am,
  load_all limit w DB compile fuel comm b -> all_entries w [] (database_files w DB) es -> a <> c -> price_line es a c p ->
  exists q, latest_line es a c q /\ book_conv (b_prices b) o c am a = times am (pp_value q).
Proof.
  intros limit w DB compile fuel comm b es o a c p am Hl He N Hp. destruct (prices_of_files _ _ _ _ _ _ _ _ Hl He) as [prices' R].
  destruct (lines_priced _ _ _ _ _ _ R Hp) as (x & Hx). destruct (priced_lines _ _ _ _ _ _ R Hx) as (q & -> & Hq). exists q. split; [exact Hq|].
  unfold book_conv. rewrite (C11_direct_price_preferred _ o c am a _ ltac:(congruence) Hx). reflexivity.
Qed.
Print Assumptions C130_direct.
(** In general it is converted exactly if lines lead from [a] to [c], by latest prices along such lines; else it is an error *)
Theorem C130_linked : forall limit w DB compile fuel comm b es o a c am,
  load_all limit w DB compile fuel comm b -> all_entries w [] (database_files w DB) es -> order_ok o -> small_prices es ->
  (linked es c a -> exists v, book_conv (b_prices b) o c am a = Ok v /\ priced_along es c a am v) /\
  (~ linked es c a -> book_conv (b_prices b) o c am a = Fail).
Proof.
  intros limit w DB compile fuel comm b es o a c am Hl He Ho Hs. destruct (prices_of_files _ _ _ _ _ _ _ _ Hl He) as [prices' R].
  assert (D := files_db_ok _ _ _ Hs R).
  assert (CL : forall x y ps, S_Convert.chain (b_prices b) x y ps -> linked es y x).
  { induction 1 as [x|x m y p ps Hp Hc IH]; [constructor|]. destruct (priced_lines _ _ _ _ _ _ R Hp) as (q & _ & Hq & _). eapply ln_step; eassumption. }
  assert (LC : forall x, linked es c x -> exists ps, S_Convert.chain (b_prices b) x c ps).
  { induction 1 as [|x m p Hp _ [ps IH]]; [exists []; constructor|]. destruct (lines_priced _ _ _ _ _ _ R Hp) as (y & Hy). exists (y :: ps). econstructor; eassumption. }
  assert (CP : forall x y ps, S_Convert.chain (b_prices b) x y ps -> forall am v, times_all am ps = Ok v -> priced_along es y x am v).
  { induction 1 as [x|x m y p ps Hp Hc IH]; intros am0 v E; cbn [times_all] in E; [injection E as <-; constructor|].
    destruct (priced_lines _ _ _ _ _ _ R Hp) as (q & -> & Hq). destruct (times am0 (p_value (to_price q))) as [x0| |] eqn:Et; try discriminate E. cbn [bind] in E.
    eapply pa_step; [exact Hq|exact Et|]. apply IH, E. }
  unfold book_conv. split; intros L.
  - destruct (proj2 (C10_convert_iff_chain (b_prices b) o c am a Ho D) (LC a L)) as [v E]. rewrite E. exists v. split; [reflexivity|].
    destruct (C11_convert_along_chain _ _ _ _ _ _ Ho D E) as (ps & C1 & C2). eapply CP; eassumption.
  - destruct (C10_convert_ok_or_error (b_prices b) o c am a Ho D) as [[v E]|E]; rewrite E; [|reflexivity].
    exfalso. apply L. destruct (proj1 (C10_convert_iff_chain (b_prices b) o c am a Ho D) (ex_intro _ v E)) as [ps C]. eapply CL; eassumption.
Qed.
Print Assumptions C130_linked.
(** Three commodities, prices from bitcoins to US dollars and from these to Canadian dollars, the later one first *)
Definition pdb : world := small_world
  [(B "commodities.coin", nls ["commodity CAD"; "  format 1.00 CAD"; ""; "commodity USD"; "  format 1.00 USD"; ""; "commodity BTC"; "  format 1.0000 BTC"]%string);
   (B "prices.coin", nls ["P 2020/02/01 USD 1.50 CAD"; "P 2020/01/01 USD 1.25 CAD"; "P 2020/01/05 BTC 200.00 USD"]%string);
   (B "accounts.coin", nls ["account Assets:Bank"; "  commodity CAD"; ""; "account Expenses:Food"]%string);
   (B "transactions.coin", nls ["2020/01/02 late"; "  Expenses:Food  2.50 CAD"; "  Assets:Bank"]%string)] [].
Definition pcad := mkCommodity 0 (B "CAD") 2.
Definition pusd := mkCommodity 1 (B "USD") 2.
Definition pbtc := mkCommodity 2 (B "BTC") 4.
Definition pdb_db : db := match load_files_all 5 pdb [] with Some (Ok d) => d | _ => empty_db end.
Lemma pdb_loaded : load_files_all 5 pdb [] = Some (Ok pdb_db).
Proof. vm_compute. reflexivity. Qed.
Definition porder : list bytes := base_accounts (map fst (d_accounts pdb_db)).
Definition pprices : pricedb := match add_prices (find_comm pdb_db) (map to_price (d_prices pdb_db)) [] with Ok x => x | _ => [] end.
Lemma load_any limit w DB compile comm d fuel names known o prices prices' : load_files_all limit w DB = Some (Ok d) ->
  resolve_prices (find_comm d) (map to_price (d_prices d)) prices prices' -> order_ok o ->
  Permutation known (base_accounts (map fst (d_accounts d))) ->
  match resolve_accounts fuel (map fst (d_accounts d)) known names names with Ok (_, n) => n = names | _ => False end -> commodities_known d names comm ->
  match (let '(L1, xs) := alloc_txs (mkLedger (fun _ => mkRP 0 [] [] None None false []) 0 (fun _ => []) (fun _ => None)) (map snd (d_txs d)) in
         resolve_transactions (must_find_account compile names) comm (book_conv prices o) names true L1 xs) with Ok _ => True | _ => False end ->
  exists b, load_all limit w DB compile fuel comm b /\ b_prices b = prices.
Proof.
  intros H1 H2 H3 H4 H5 H6 H7.
  destruct (resolve_accounts fuel _ known names names) as [[T n]| |] eqn:ET; try contradiction. subst n.
  match type of H7 with match ?r with Ok _ => _ | Fail => _ | Panic => _ end => destruct r as [[[L ws] xs]| |] eqn:E; [|contradiction|contradiction] end.
  exists (mkBook d prices T names L ws xs). split; [|reflexivity]. exists d. split; [exact H1|]. exists prices', known, names, names, names, o. cbn [b_prices b_names b_tree b_ledger b_warned b_txs b_db].
  split; [exact H2|]. split; [exact H4|]. do 3 (split; [reflexivity|]). split; [exact ET|]. split; [exact H6|]. split; [exact H3|]. split; [exact E|reflexivity].
Qed.
Definition p0 : price := to_price (mkPPrice 0 [] [] (mkAmount 0 pcad) 0).
Definition ppr : list price := map to_price (d_prices pdb_db).
Lemma sorted2 {A} (R : A -> A -> Prop) x y : R x y -> StronglySorted R [x; y].
Proof. intros H. repeat constructor. exact H. Qed.
Lemma sorted3 {A} (R : A -> A -> Prop) x y z : R x y -> R x z -> R y z -> StronglySorted R [x; y; z].
Proof. intros H1 H2 H3. repeat constructor; assumption. Qed.
Lemma presolved : resolve_prices (find_comm pdb_db) (map to_price (d_prices pdb_db)) pprices [nth 1 ppr p0; nth 2 ppr p0; nth 0 ppr p0].
Proof.
  assert (E1 : pprices = [(pusd, [(pcad, [nth 0 ppr p0; nth 1 ppr p0])]); (pbtc, [(pusd, [nth 2 ppr p0])])]) by (vm_compute; reflexivity).
  assert (E2 : map to_price (d_prices pdb_db) = [nth 0 ppr p0; nth 1 ppr p0; nth 2 ppr p0]) by (vm_compute; reflexivity).
  assert (T1 : (p_time (nth 0 ppr p0) <? p_time (nth 1 ppr p0)) = false) by (vm_compute; reflexivity).
  assert (T2 : (p_time (nth 2 ppr p0) <? p_time (nth 1 ppr p0)) = false) by (vm_compute; reflexivity).
  assert (T3 : (p_time (nth 0 ppr p0) <? p_time (nth 2 ppr p0)) = false) by (vm_compute; reflexivity).
  exists pprices. split; [vm_compute; reflexivity|]. rewrite E1, E2. clear E1 E2. generalize dependent (nth 0 ppr p0). generalize dependent (nth 2 ppr p0). generalize (nth 1 ppr p0). intros y z T2 x T1 T3. split.
  - constructor; [|constructor; [|constructor]].
    + split; [reflexivity|]. constructor; [|constructor]. split; [reflexivity|]. split; [apply Permutation_refl|]. apply sorted2. exact T1.
    + split; [reflexivity|]. constructor; [|constructor]. split; [reflexivity|]. split; [apply Permutation_refl|]. repeat constructor.
  - split; [eapply perm_trans; [apply perm_swap|]; apply perm_skip, perm_swap|]. apply sorted3; assumption.
Qed.
Example C130_hypotheses : exists b es, load_all 5 pdb [] xcompile 5 (fun _ => pcad) b /\ all_entries pdb [] (database_files pdb []) es /\ small_prices es /\
  (exists p, price_line es pusd pcad p) /\ linked es pcad pbtc /\ ~ linked es pbtc pcad /\
  book_conv (b_prices b) xo pcad (mkAmount 100 pusd) pusd = Ok (mkAmount 150 pusd) /\
  book_conv (b_prices b) xo pcad (mkAmount 20000 pbtc) pbtc = Ok (mkAmount 6000000 pbtc).
Proof.
  destruct (load_any 5 pdb [] xcompile (fun _ => pcad) pdb_db 5 xnames porder xo pprices [nth 1 ppr p0; nth 2 ppr p0; nth 0 ppr p0] pdb_loaded) as (b & Hb & Ep).
  { exact presolved. }
  { intros ? ? ?; reflexivity. }
  { reflexivity. }
  { vm_compute. reflexivity. }
  { intros n I. unfold xnames in I. repeat (destruct I as [<-|I]; [vm_compute; reflexivity|]). destruct I. }
  { match goal with |- match ?r with _ => _ end => assert (X : match r with Ok _ => true | _ => false end = true) by (vm_compute; reflexivity); destruct r; [exact I|discriminate|discriminate] end. }
  assert (H := pdb_loaded). rewrite load_files_list in H. destruct (C76_in_place _ _ _ _ H) as (es & A1 & _ & A3). destruct A3 as (_ & _ & A3 & _ & _ & _ & Kn & _). cbn [app] in *.
  assert (K1 : known es (B "CAD") = Some pcad) by (rewrite <- Kn; vm_compute; reflexivity).
  assert (K2 : known es (B "USD") = Some pusd) by (rewrite <- Kn; vm_compute; reflexivity).
  assert (K3 : known es (B "BTC") = Some pbtc) by (rewrite <- Kn; vm_compute; reflexivity).
  assert (Hp : forall n p, nth_error (d_prices pdb_db) n = Some p -> In p (ev_prices es)) by (intros n p E; rewrite <- A3; eapply nth_error_In; exact E).
  exists b, es. split; [exact Hb|]. split; [exact A1|]. split.
  { intros p Ip. rewrite <- A3 in Ip. vm_compute in Ip. repeat (destruct Ip as [<-|Ip]; [cbn; lia|]). destruct Ip. }
  assert (P0 : exists p, price_line es pusd pcad p).
  { eexists. split; [apply (Hp 0%nat); vm_compute; reflexivity|]. split; [exact K2|exact K1]. }
  assert (P2 : exists p, price_line es pbtc pusd p).
  { eexists. split; [apply (Hp 2%nat); vm_compute; reflexivity|]. split; [exact K3|exact K2]. }
  split; [exact P0|]. split. { destruct P0, P2. eapply ln_step; [eassumption|]. eapply ln_step; [eassumption|]. constructor. }
  split.
  { assert (G : forall x, linked es pbtc x -> x = pbtc \/ x <> pcad); [|intros C; destruct (G _ C) as [E|E]; [discriminate E|apply E; reflexivity]].
    intros x [|a m p (Ip & E1 & _) _]; [left; reflexivity|]. right. intros ->. rewrite <- A3 in Ip. vm_compute in Ip.
    destruct Ip as [Ip|[Ip|[Ip|[]]]]; apply (f_equal pp_commodity) in Ip; cbn [pp_commodity] in Ip; rewrite <- Ip in E1; [change (known es (B "USD") = Some pcad) in E1|change (known es (B "USD") = Some pcad) in E1|change (known es (B "BTC") = Some pcad) in E1]; rewrite ?K2, ?K3 in E1; discriminate E1. }
  rewrite Ep. split; vm_compute; reflexivity.
Qed.
