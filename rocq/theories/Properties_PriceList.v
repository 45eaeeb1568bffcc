(** C155: coin commodities with an argument lists the price lines of the files. *)
From Coq Require Import Permutation Sorted.
From Verif Require Import Base L_RoundTrip L_Entries M_Amount M_Date M_Convert S_Convert L_Convert Properties_Convert M_Regex M_Parser M_Writer M_Output M_Listing M_Database S_Database L_Database L_Database2 Properties_Database
  M_Flags M_Main S_Flags S_Main Properties_Flags S_Output L_Output2 L_Dec L_Amount L_Gnucash2 L_Entries S_RegLine Properties_RegLine Properties_Listing Properties_Consistent S_PriceFiles Properties_PriceFiles Properties_Main Properties_Parser M_PriceList S_PriceList.

Lemma load_price_list limit w DB : load_prices limit w DB empty_db = load_list limit w (price_files w DB) empty_db.
Proof.
  unfold load_prices, price_files. change (load_list limit w (?a :: ?l) empty_db) with (obind (load_file limit w empty_db a) (load_list limit w l)).
  apply obind_ext. intros d. destruct (w_file w (in_dir DB (B "prices.coin"))); [symmetry; apply load_one|reflexivity].
Qed.
(** the currency of a price line is the commodity of its amount *)
Lemma known_from_id es : forall n f id c, (f = Some c -> c_id c = id) -> known_from n f es id = Some c -> c_id c = id.
Proof.
  induction es as [|v es IH]; intros n f id c Hf H; cbn [known_from] in H; [auto|]. destruct (ev_item v); try (eapply IH; eassumption).
  eapply IH; [|exact H]. destruct (eqb_bytes id (pc_id c0)) eqn:E; [|exact Hf]. apply eqb_bytes_eq in E. intros [= <-]. symmetry. exact E.
Qed.
Lemma known_has_id es id c : known es id = Some c -> c_id c = id.
Proof. apply known_from_id. discriminate. Qed.
Lemma parse_amount_com s c a : parse_amount s c = Ok a -> a_com a = c.
Proof.
  unfold parse_amount. destruct (split_on _ s) as [|s0 [|s1 [|]]]; try discriminate.
  - intros H. apply bind_ok in H as (i & _ & H). destruct (0 <? c_dec c)%nat; [apply bind_ok in H as (p & _ & H)|]; injection H as <-; reflexivity.
  - intros H. apply bind_ok in H as (i & _ & H). destruct (negb _); [apply bind_ok in H as (p & _ & H); apply bind_ok in H as (q & _ & H)|]; injection H as <-; reflexivity.
Qed.
Lemma next_price_com e p t d q : next e p = Ok (Some (IPrice t, d, q)) -> e_find e (pp_currency t) = Some (a_com (pp_value t)).
Proof.
  destruct p as [lines nr]. unfold next. cbn [p_lines p_nr]. revert nr. induction lines as [|l rest IH]; intros nr H; [discriminate|]. cbn [next_lines] in H.
  destruct (blank l); [eapply IH; eassumption|]. destruct l as [|c l]; [discriminate|]. destruct (existsb (eqc c) (B ";#%|*")); [eapply IH; eassumption|]. clear IH.
  destruct (has_prefix (B "include") (c :: l)).
  { unfold parse_include in H. destruct (rsearch includeHead (c :: l)) as [[rs cs]|]; discriminate. }
  destruct (has_prefix (B "account") (c :: l)); [unbind H; discriminate|]. destruct (has_prefix (B "commodity ") (c :: l)); [unbind H; discriminate|].
  destruct (has_prefix (B "test ") (c :: l)); [unbind H; discriminate|]. destruct (has_prefix (B "P ") (c :: l)); [|destruct (is_digit c); [unbind H|]; discriminate].
  unbind H. injection H as <- _ _. unfold parse_price in E. destruct (rsearch priceREX (c :: l)) as [[rs cs]|]; [|discriminate].
  apply bind_ok in E as (date & _ & E). apply bind_ok in E as (cm & E1 & E). apply bind_ok in E as (am & E2 & E). injection E as <-. cbn [fst pp_currency pp_value].
  apply parse_amount_com in E2. rewrite E2. unfold must_find in E1. destruct (e_find e (cap "commodity2" cs)); [injection E1 as <-; reflexivity|discriminate].
Qed.
Definition own_currency (es : list event) : Prop := forall p, In p (ev_prices es) -> c_id (a_com (pp_value p)) = pp_currency p.
Lemma own_app l1 l2 : own_currency l1 -> own_currency l2 -> own_currency (l1 ++ l2).
Proof. intros H1 H2 p I. unfold ev_prices in I. rewrite flat_map_app, in_app_iff in I. destruct I; auto. Qed.
Lemma entries_own w :
  (forall before fn es, file_entries w before fn es -> own_currency es) /\
  (forall before fn p es, text_entries w before fn p es -> own_currency es) /\
  (forall before files es, all_entries w before files es -> own_currency es).
Proof.
  apply entries_ind; auto using own_app.
  - intros before fn p _ q [].
  - intros before fn p i dflt p' es En Ei _ IH. change (mkEvent fn i dflt :: es) with ([mkEvent fn i dflt] ++ es). apply own_app; [|exact IH].
    intros q I. unfold ev_prices in I. cbn [flat_map ev_item] in I. rewrite app_nil_r in I. destruct i; try contradiction. destruct I as [->|[]].
    apply next_price_com in En. cbn [env_after e_find] in En. exact (known_has_id _ _ _ En).
  - intros before q [].
Qed.
Lemma add_prices_found find ps : forall db db', add_prices find ps db = Ok db' -> forall p, In p ps -> find (p_com_id p) <> None /\ find (p_cur_id p) <> None.
Proof.
  induction ps as [|p ps IH]; intros db db' H q I; [destruct I|]. cbn [add_prices] in H. unfold must_find_commodity in H.
  destruct (find (p_com_id p)) eqn:E1; [|discriminate]. destruct (find (p_cur_id p)) eqn:E2; [|discriminate]. cbn [bind] in H.
  destruct I as [<-|I]; [split; congruence|exact (IH _ _ H q I)].
Qed.
Lemma resolve_same find1 find2 ps db ps' : (forall id, find1 id = find2 id) -> resolve_prices find1 ps db ps' -> resolve_prices find2 ps db ps'.
Proof.
  intros Hf (db0 & E & R). exists db0. split; [|exact R]. rewrite <- E. clear E R. generalize (@nil (commodity * pmap)). induction ps as [|p ps IH]; intros db1; [reflexivity|].
  cbn [add_prices]. unfold must_find_commodity. rewrite <- !Hf. destruct (find1 (p_com_id p)); [|reflexivity]. destruct (find1 (p_cur_id p)); [|reflexivity]. cbn [bind]. apply IH.
Qed.
(** grouping a list by a key *)
Lemma filter_both {A} (f g : A -> bool) l : filter f (filter g l) = filter (fun x => g x && f x) l.
Proof. induction l as [|x l IH]; [reflexivity|]. cbn [filter]. destruct (g x); cbn [filter andb]; [destruct (f x)|]; rewrite IH; reflexivity. Qed.
Lemma filter_all {A} (f : A -> bool) l : (forall x, In x l -> f x = true) -> filter f l = l.
Proof. induction l as [|x l IH]; intros H; [reflexivity|]. cbn [filter]. rewrite (H x (or_introl eq_refl)), IH; [reflexivity|]. intros y I. apply H. right; exact I. Qed.
Lemma filter_halves {A} (f : A -> bool) l : Permutation (filter f l ++ filter (fun x => negb (f x)) l) l.
Proof.
  induction l as [|x l IH]; [constructor|]. cbn [filter]. destruct (f x); cbn [negb app]; [apply perm_skip, IH|].
  eapply perm_trans; [apply Permutation_sym, Permutation_middle|]. apply perm_skip, IH.
Qed.
Lemma filter_same {A} (f g : A -> bool) l : (forall x, In x l -> f x = g x) -> filter f l = filter g l.
Proof. induction l as [|x l IH]; intros H; [reflexivity|]. cbn [filter]. rewrite (H x (or_introl eq_refl)), IH; [reflexivity|]. intros y I. apply H. right; exact I. Qed.
Lemma flat_map_same {A C} (f g : A -> list C) l : (forall x, In x l -> f x = g x) -> flat_map f l = flat_map g l.
Proof. induction l as [|x l IH]; intros H; [reflexivity|]. cbn [flat_map]. rewrite (H x (or_introl eq_refl)), IH; [reflexivity|]. intros y I. apply H. right; exact I. Qed.
Lemma by_key {A K} (is : K -> A -> bool) : forall ks l, NoDup ks -> (forall k k' x, is k x = true -> is k' x = true -> k = k') ->
  (forall x, In x l -> exists k, In k ks /\ is k x = true) -> Permutation (flat_map (fun k => filter (is k) l) ks) l.
Proof.
  induction ks as [|k ks IH]; intros l Nd U H; cbn [flat_map].
  - destruct l as [|x l]; [constructor|]. destruct (H x (or_introl eq_refl)) as (k & [] & _).
  - inversion Nd as [|? ? N1 N2]; subst. eapply perm_trans; [|apply (filter_halves (is k) l)]. apply Permutation_app_head.
    rewrite (flat_map_same _ (fun k' => filter (is k') (filter (fun x => negb (is k x)) l)) ks).
    + apply IH; [exact N2|exact U|]. intros x I. apply filter_In in I as [I Nx]. destruct (H x I) as (k' & [<-|Ik] & E); [rewrite E in Nx; discriminate|eauto].
    + intros k' Ik. rewrite filter_both. apply filter_same. intros x _. destruct (is k' x) eqn:E1, (is k x) eqn:E2; try reflexivity.
      exfalso. apply N1. rewrite (U _ _ _ E2 E1). exact Ik.
Qed.

(** the lists kept are the price lines, currency by currency *)
Lemma permuted_lines (l : list pprice) m : Permutation (map to_price l) m -> exists l', Permutation l l' /\ m = map to_price l'.
Proof. intros P. apply Permutation_sym, Permutation_map_inv in P as (l' & -> & P). exists l'. auto using Permutation_sym. Qed.
Lemma sorted_map (R : Z -> Z -> Prop) l : StronglySorted (fun a b => R (p_time a) (p_time b)) (map to_price l) -> StronglySorted (fun p q => R (pp_time p) (pp_time q)) l.
Proof.
  induction l as [|p l IH]; intros H; [constructor|]. cbn [map] in H. inversion H as [|? ? H1 H2]; subst. constructor; [auto|].
  apply Forall_forall. intros q I. rewrite Forall_forall in H2. exact (H2 (to_price q) (in_map to_price _ _ I)).
Qed.
Lemma sorted_weaken {A} (R S : A -> A -> Prop) l : (forall x y, R x y -> S x y) -> StronglySorted R l -> StronglySorted S l.
Proof. intros H. induction 1 as [|x l Hs IH Hf]; constructor; [exact IH|]. eapply Forall_impl; [|exact Hf]. auto. Qed.
Definition in_currency (es : list event) (cur : commodity) (p : pprice) : bool :=
  match known es (pp_currency p) with Some y => eq_commodity cur y | None => false end.
Lemma recorded_of es x a cur : known es x = Some a ->
  recorded (known es) (map to_price (ev_prices es)) a cur = map to_price (filter (in_currency es cur) (lines_of es x)).
Proof.
  intros Ka. unfold recorded, lines_of. rewrite filter_both. induction (ev_prices es) as [|p l IH]; [reflexivity|]. cbn [map filter to_price p_com_id p_cur_id].
  assert (E : (match known es (pp_commodity p), known es (pp_currency p) with Some x, Some y => eq_commodity a x && eq_commodity cur y | _, _ => false end)
     = eqb_bytes (pp_commodity p) x && in_currency es cur p).
  { unfold in_currency. destruct (eqb_bytes (pp_commodity p) x) eqn:E.
    - apply eqb_bytes_eq in E. rewrite E, Ka, eq_commodity_refl. destruct (known es (pp_currency p)); reflexivity.
    - destruct (known es (pp_commodity p)) as [y|] eqn:Ky; [|reflexivity]. destruct (eq_commodity a y) eqn:Ea; [|destruct (known es (pp_currency p)); reflexivity].
      apply eq_commodity_eq in Ea. subst y. apply known_has_id in Ka, Ky. exfalso. assert (X : pp_commodity p = x) by congruence. rewrite X, eqb_bytes_refl in E. discriminate. }
  rewrite E, IH. destruct (_ && _); reflexivity.
Qed.
Lemma blocks_exist es x a db prices' : known es x = Some a -> resolve_prices (known es) (map to_price (ev_prices es)) db prices' ->
  forall order, NoDup order -> (forall cur, In cur order -> pair_prices db a cur <> [] /\ known es (c_id cur) = Some cur) ->
  exists blocks : list (bytes * list pprice), map fst blocks = map c_id order /\
    flat_map (pair_prices db a) order = map to_price (concat (map snd blocks)) /\
    Permutation (concat (map snd blocks)) (flat_map (fun cur => filter (in_currency es cur) (lines_of es x)) order) /\
    forall cur l, In (cur, l) blocks -> l <> [] /\ (forall p, In p l -> pp_currency p = cur) /\ StronglySorted (fun p q => pp_time q <= pp_time p) l.
Proof.
  intros Ka R. induction order as [|cur order IH]; intros Nd H; [exists []; split; [reflexivity|]; split; [reflexivity|]; split; [constructor|intros ? ? []]|].
  inversion Nd as [|? ? N1 N2]; subst. destruct IH as (blocks & B1 & B2 & B3 & B4); [exact N2|intros c I; apply H; right; exact I|].
  destruct (C14_lists_complete _ _ _ _ a cur R) as [P S]. rewrite (recorded_of es x a cur Ka) in P. destruct (permuted_lines _ _ P) as (l & Pl & El).
  destruct (H cur (or_introl eq_refl)) as [Ne Kc].
  exists ((c_id cur, l) :: blocks). cbn [map fst snd concat flat_map]. split; [rewrite B1; reflexivity|]. split; [rewrite B2, El, map_app; reflexivity|].
  split; [apply Permutation_app; [apply Permutation_sym, Pl|exact B3]|].
  intros c0 l0 [E|I]; [injection E as <- <-|exact (B4 _ _ I)]. split; [intros ->; apply Ne; exact El|]. split.
  - intros p I. eapply Permutation_in in I; [|apply Permutation_sym, Pl]. apply filter_In in I as [_ I]. unfold in_currency in I.
    destruct (known es (pp_currency p)) as [y|] eqn:Ky; [|discriminate]. apply eq_commodity_eq in I. subst y. symmetry. exact (known_has_id _ _ _ Ky).
  - rewrite El in S. apply (sorted_map (fun s t => (s <? t) = false)) in S. eapply sorted_weaken; [|exact S]. cbv beta. intros p q E. apply Z.ltb_ge in E. exact E.
Qed.
Lemma rows_of ps : (forall p, In p ps -> (c_dec (a_com (pp_value p)) <= 50)%nat /\ c_id (a_com (pp_value p)) = pp_currency p) ->
  exists rows, res_map price_text (map to_price ps) = Ok rows /\ Forall2 price_row ps rows.
Proof.
  induction ps as [|p ps IH]; intros H; [exists []; split; [reflexivity|constructor]|]. destruct IH as (rows & E & F); [intros q I; apply H; right; exact I|].
  destruct (H p (or_introl eq_refl)) as [D C]. destruct (amount_text _ D) as (s & E1 & S1 & _).
  eexists (_ :: rows). cbn [map res_map]. unfold price_text at 1, string_amount. cbn [to_price p_value p_time]. unfold a_dec in *. rewrite E1. cbn [bind]. rewrite E. cbn [bind].
  split; [reflexivity|]. constructor; [|exact F]. exists s. split; [exact S1|]. rewrite C. reflexivity.
Qed.
Lemma keys_known es db prices' a cur l : resolve_prices (known es) (map to_price (ev_prices es)) db prices' -> pair_prices db a cur = l -> l <> [] ->
  known es (c_id cur) = Some cur.
Proof.
  intros R E Ne. destruct (C14_lists_complete _ _ _ _ a cur R) as [P _]. rewrite E in P. destruct l as [|q l]; [contradiction|].
  assert (I : In q (recorded (known es) (map to_price (ev_prices es)) a cur)) by (eapply Permutation_in; [apply Permutation_sym, P|left; reflexivity]).
  apply recorded_lines in I as (p & _ & _ & _ & K). rewrite (known_has_id _ _ _ K). exact K.
Qed.
(** whatever the order of the currencies, the list is one of the price lines *)
Lemma list_of_lines w files es x a db prices' order : all_entries w [] files es -> small_prices es -> known es x = Some a ->
  resolve_prices (known es) (map to_price (ev_prices es)) db prices' -> Permutation order (map fst (prices_of db a)) ->
  exists ps texts, price_list db a order = map to_price ps /\ res_map price_text (price_list db a order) = Ok texts /\
    Permutation ps (lines_of es x) /\ in_blocks ps /\ Forall2 price_row ps texts.
Proof.
  intros Hes Hs Ka R Po. pose proof (files_db_ok es db prices' Hs R) as Dok.
  destruct (C96_price_list_partial _ _ _ _ a order R Po) as (El & _ & Eout & _). rewrite El.
  assert (Nd : NoDup order) by (eapply Permutation_NoDup; [apply Permutation_sym, Po|apply db_ok_nodup, Dok]).
  assert (Hk : forall cur, In cur order -> pair_prices db a cur <> [] /\ known es (c_id cur) = Some cur).
  { intros cur I. assert (Ne : pair_prices db a cur <> []).
    { eapply Permutation_in in I; [|exact Po]. apply assoc_keys in I as (l & E). unfold pair_prices. rewrite E. apply assoc_in in E. exact (db_ok_lists _ Dok _ _ _ E). }
    split; [exact Ne|]. eapply keys_known; [exact R|reflexivity|exact Ne]. }
  destruct (blocks_exist es x a db prices' Ka R order Nd Hk) as (blocks & B1 & B2 & B3 & B4).
  assert (Pm : Permutation (concat (map snd blocks)) (lines_of es x)).
  { eapply perm_trans; [exact B3|]. apply by_key; [exact Nd| |].
    - intros k k' p E1 E2. unfold in_currency in *. destruct (known es (pp_currency p)) as [y|]; [|discriminate]. apply eq_commodity_eq in E1, E2. congruence.
    - intros p I. destruct R as (db0 & Ea & R0). assert (R : resolve_prices (known es) (map to_price (ev_prices es)) db prices') by (exists db0; auto).
      assert (Ip : In p (ev_prices es)) by (apply filter_In in I; tauto).
      destruct (add_prices_found _ _ _ _ Ea (to_price p) (in_map to_price _ _ Ip)) as [_ K]. cbn [to_price p_cur_id] in K.
      destruct (known es (pp_currency p)) as [cur|] eqn:Kc; [|congruence]. exists cur. split; [|unfold in_currency; rewrite Kc; apply eq_commodity_refl].
      destruct (C14_lists_complete _ _ _ _ a cur R) as [P _]. rewrite (recorded_of es x a cur Ka) in P.
      assert (Iq : In (to_price p) (pair_prices db a cur)).
      { eapply Permutation_in; [exact P|]. apply in_map, filter_In. split; [exact I|]. unfold in_currency. rewrite Kc. apply eq_commodity_refl. }
      assert (Dec : In cur order \/ ~ In cur order).
      { clear. induction order as [|c order IH]; [right; intros []|]. destruct (eq_commodity cur c) eqn:E; [apply eq_commodity_eq in E; left; left; auto|]. apply eq_commodity_neq in E. destruct IH; [left; right; assumption|right; intros [X|X]; [apply E; auto|auto]]. }
      destruct Dec as [Io|No]; [exact Io|].
      rewrite (Eout cur No) in Iq. destruct Iq. }
  rewrite B2. destruct (rows_of (concat (map snd blocks))) as (rows & E & F).
  { intros p I. eapply Permutation_in in I; [|exact Pm]. apply filter_In in I as [I _]. split; [apply Hs, I|]. exact (proj2 (proj2 (entries_own w)) _ _ _ Hes p I). }
  exists (concat (map snd blocks)), rows. split; [reflexivity|]. split; [exact E|]. split; [exact Pm|]. split; [|exact F].
  exists blocks. split; [reflexivity|]. split; [|exact B4]. rewrite B1. clear - Nd Hk. induction order as [|c order IH]; cbn [map]; [constructor|].
  inversion Nd; subst. constructor; [|apply IH; [assumption|intros d I; apply Hk; right; exact I]]. intros I. apply in_map_iff in I as (d & E & I).
  destruct (Hk c (or_introl eq_refl)) as [_ K1], (Hk d (or_intror I)) as [_ K2]. assert (c = d) by congruence. subst d. contradiction.
Qed.

(** ** C155 *)
Lemma find_known limit w DB es d : all_entries w [] (price_files w DB) es -> load_prices limit w DB empty_db = Some (Ok d) ->
  d_prices d = ev_prices es /\ forall id, find_comm d id = known es id.
Proof.
  intros Hes Hl. rewrite load_price_list in Hl. destruct (C76_in_place _ _ _ _ Hl) as (es' & A1 & _ & A3). assert (es' = es) by (eapply C76_unique; eassumption). subst es'.
  destruct A3 as (_ & _ & Ep & _ & _ & _ & Hk & _). auto.
Qed.
(** For a commodity of the files coin commodities lists its price lines, each once, one block for each currency and the latest first
    in each; for any other name it lists nothing *)
Theorem C155_price_lines : forall limit w DB es, all_entries w [] (price_files w DB) es -> small_prices es ->
  forall x out, coin_prices limit w DB x out ->
  (known es x <> None -> lists_prices es x out) /\ (known es x = None -> out = []).
Proof.
  intros limit w DB es Hes Hs x out (d & db & prices' & Hl & R & H). destruct (find_known _ _ _ _ _ Hes Hl) as [Ep Hk].
  rewrite Ep in R. apply (resolve_same _ _ _ _ _ Hk) in R. rewrite Hk in H. destruct (known es x) as [a|] eqn:Ka; [|split; [congruence|auto]].
  split; [|discriminate]. intros _. destruct H as (order & Po & E).
  destruct (list_of_lines _ _ _ _ _ _ _ _ Hes Hs Ka R Po) as (ps & texts & _ & E1 & L1 & L2 & L3). rewrite E1 in E. cbn [bind] in E. injection E as <-. exists ps, texts. auto.
Qed.
Print Assumptions C155_price_lines.
(** and it does so exactly if the commodities of all price lines are known: else the program ends with an error *)
Theorem C155_listed : forall w DB es, all_entries w [] (price_files w DB) es -> Forall named es -> small_prices es ->
  exists limit0, forall limit, (limit0 <= limit)%nat -> forall x,
  (exists out, coin_prices limit w DB x out) <-> (forall p, In p (ev_prices es) -> known es (pp_commodity p) <> None /\ known es (pp_currency p) <> None).
Proof.
  intros w DB es Hes Hn Hs. destruct (C76_loads _ _ _ Hes Hn) as (k & K). exists k. intros limit Hlim x. destruct (K limit Hlim) as (d & E & _).
  assert (Hl : load_prices limit w DB empty_db = Some (Ok d)) by (rewrite load_price_list; exact E).
  destruct (find_known _ _ _ _ _ Hes Hl) as [Ep Hk]. split.
  - intros (out & d' & db & prices' & Hl' & (db0 & R & _) & _) p I. assert (d' = d) by congruence. subst d'. rewrite <- !Hk, Ep in *.
    exact (add_prices_found _ _ _ _ R (to_price p) (in_map to_price _ _ I)).
  - intros H. destruct (resolve_prices_total (known es) (map to_price (ev_prices es))) as (db & prices' & R).
    { intros q I. apply in_map_iff in I as (p & <- & I). exact (H p I). }
    assert (R' : resolve_prices (find_comm d) (map to_price (d_prices d)) db prices').
    { rewrite Ep. eapply resolve_same; [|exact R]. intros id. symmetry. apply Hk. }
    destruct (known es x) as [a|] eqn:Ka.
    + destruct (list_of_lines _ _ _ x a db prices' _ Hes Hs Ka R (Permutation_refl _)) as (ps & texts & _ & E1 & _).
      exists (concat texts), d, db, prices'. split; [exact Hl|]. split; [exact R'|]. rewrite Hk, Ka. exists (map fst (prices_of db a)). split; [apply Permutation_refl|].
      rewrite E1. reflexivity.
    + exists [], d, db, prices'. split; [exact Hl|]. split; [exact R'|]. rewrite Hk, Ka. reflexivity.
Qed.
Print Assumptions C155_listed.
(** if the price lines of the commodity are in one currency and of different days, there is only one possible listing *)
Lemma sorted_once {A} (key : A -> Z) : forall l l', NoDup (map key l) -> Permutation l l' ->
  StronglySorted (fun p q => key q <= key p) l -> StronglySorted (fun p q => key q <= key p) l' -> l = l'.
Proof.
  induction l as [|x l IH]; intros l' Nd P S S'; [apply Permutation_nil in P; auto|]. destruct l' as [|y l']; [apply Permutation_sym, Permutation_nil in P; discriminate|].
  inversion S as [|? ? S1 S2]; inversion S' as [|? ? S3 S4]; subst. cbn [map] in Nd. inversion Nd as [|? ? N1 N2]; subst. rewrite Forall_forall in S2, S4.
  assert (E : x = y).
  { assert (I1 : In x (y :: l')) by (eapply Permutation_in; [exact P|left; reflexivity]). assert (I2 : In y (x :: l)) by (eapply Permutation_in; [apply Permutation_sym, P|left; reflexivity]).
    destruct I1 as [->|I1]; [reflexivity|]. destruct I2 as [->|I2]; [reflexivity|]. exfalso. apply N1. replace (key x) with (key y); [apply in_map, I2|].
    specialize (S2 y I2). specialize (S4 x I1). lia. }
  subst y. f_equal. apply IH; auto. eapply Permutation_cons_inv, P.
Qed.
Lemma one_block ps cur : in_blocks ps -> (forall p, In p ps -> pp_currency p = cur) -> StronglySorted (fun p q => pp_time q <= pp_time p) ps.
Proof.
  intros (blocks & -> & Nd & H) Hc. destruct blocks as [|(c1, l1) [|(c2, l2) blocks]]; cbn [map snd concat] in *.
  - constructor.
  - rewrite app_nil_r. apply (H c1 l1). left; reflexivity.
  - exfalso. destruct (H c1 l1 (or_introl eq_refl)) as (N1 & K1 & _), (H c2 l2 (or_intror (or_introl eq_refl))) as (N2 & K2 & _).
    destruct l1 as [|p1 l1]; [congruence|]. destruct l2 as [|p2 l2]; [congruence|].
    assert (c1 = cur) by (rewrite <- (K1 p1 (or_introl eq_refl)); apply Hc; left; reflexivity).
    assert (c2 = cur) by (rewrite <- (K2 p2 (or_introl eq_refl)); apply Hc; apply in_or_app; right; left; reflexivity).
    subst. cbn [map fst] in Nd. inversion Nd as [|? ? N _]. apply N. left; reflexivity.
Qed.
Theorem C155_one_listing : forall limit limit' w DB es, all_entries w [] (price_files w DB) es -> small_prices es ->
  forall x cur, (forall p, In p (lines_of es x) -> pp_currency p = cur) -> NoDup (map pp_time (lines_of es x)) ->
  forall out out', coin_prices limit w DB x out -> coin_prices limit' w DB x out' -> out = out'.
Proof.
  intros limit limit' w DB es Hes Hs x cur Hc Nd out out' H H'.
  assert (K : forall limit out, coin_prices limit w DB x out -> known es x <> None ->
    exists ps texts, res_map price_text (map to_price ps) = Ok texts /\ out = concat texts /\ Permutation ps (lines_of es x) /\ in_blocks ps).
  { clear - Hes Hs. intros limit out (d & db & prices' & Hl & R & H) Kx. destruct (find_known _ _ _ _ _ Hes Hl) as [Ep Hk].
    rewrite Ep in R. apply (resolve_same _ _ _ _ _ Hk) in R. rewrite Hk in H. destruct (known es x) as [a|] eqn:Ka; [|congruence]. destruct H as (order & Po & E).
    destruct (list_of_lines _ _ _ _ _ _ _ _ Hes Hs Ka R Po) as (ps & texts & E0 & E1 & P & B & _). rewrite E1 in E. injection E as <-. rewrite E0 in E1. eauto 8. }
  destruct (known es x) as [a|] eqn:Ka.
  - assert (Kx : Some a <> None) by discriminate. destruct (K _ _ H Kx) as (ps & ts & E & -> & P & Bl). destruct (K _ _ H' Kx) as (ps' & ts' & E' & -> & P' & Bl').
    assert (ps = ps').
    { apply (sorted_once pp_time).
      - eapply Permutation_NoDup; [apply Permutation_sym, Permutation_map, P|exact Nd].
      - eapply perm_trans; [exact P|apply Permutation_sym, P'].
      - apply (one_block _ cur Bl). intros p I. apply Hc. exact (Permutation_in _ P I).
      - apply (one_block _ cur Bl'). intros p I. apply Hc. exact (Permutation_in _ P' I). }
    subst ps'. congruence.
  - rewrite (proj2 (C155_price_lines _ _ _ _ Hes Hs _ _ H) Ka), (proj2 (C155_price_lines _ _ _ _ Hes Hs _ _ H') Ka). reflexivity.
Qed.
Print Assumptions C155_one_listing.
(** the command line: options first, then the commodity; what follows it is not looked at *)
Theorem C155_command_line : forall limit w DB es, all_entries w [] (price_files w DB) es -> small_prices es ->
  forall line out, commodity_prices_line limit w DB line out ->
  exists given x more, command_line commodities_options given (x :: more) line /\ switched given "f" false /\
    ((known es x <> None -> lists_prices es x out) /\ (known es x = None -> out = [])).
Proof.
  intros limit w DB es Hes Hs line out (given & x & more & C & Hf & Ho). apply commodities_accepts in C. exists given, x, more. split; [exact C|].
  split; [|exact (C155_price_lines limit w DB es Hes Hs x out Ho)].
  assert (S : exists y, switched given "f" y).
  { apply value_exists. intros v I. destruct (given_taken _ _ _ _ C _ _ I) as (o & Io & Eo & T). destruct Io as [<-|[<-|[<-|[]]]]; exact T. }
  destruct S as (y & S). rewrite (switch_value _ _ _ S) in Hf. subst y. exact S.
Qed.
Print Assumptions C155_command_line.
(** the files of C130: bitcoins in US dollars and these in Canadian dollars *)
Definition pdb_prices : db := match load_prices 5 pdb [] empty_db with Some (Ok d) => d | _ => empty_db end.
Example C155_example : commodity_prices_line 5 pdb [] [B "-p"; B "USD"; B "more"] (nls ["2020/02/01 1.50 CAD"; "2020/01/01 1.25 CAD"]%string) /\
  commodity_prices_line 5 pdb [] [B "EUR"] [].
Proof.
  assert (L : load_prices 5 pdb [] empty_db = Some (Ok pdb_prices)) by (vm_compute; reflexivity).
  assert (E1 : d_prices pdb_prices = d_prices pdb_db) by (vm_compute; reflexivity).
  assert (E2 : d_comms pdb_prices = d_comms pdb_db) by (vm_compute; reflexivity).
  assert (R : resolve_prices (find_comm pdb_prices) (map to_price (d_prices pdb_prices)) pprices [nth 1 ppr p0; nth 2 ppr p0; nth 0 ppr p0]).
  { rewrite E1. eapply resolve_same; [|exact presolved]. intros id. unfold find_comm. rewrite E2. reflexivity. }
  split.
  - exists [(B "p", B "true")], (B "USD"), [B "more"]. split; [vm_compute; reflexivity|]. split; [reflexivity|].
    exists pdb_prices, pprices. eexists. split; [exact L|]. split; [exact R|]. replace (find_comm pdb_prices (B "USD")) with (Some pusd) by (vm_compute; reflexivity).
    exists [pcad]. split; [|vm_compute; reflexivity]. replace (map fst (prices_of pprices pusd)) with [pcad] by (vm_compute; reflexivity). apply Permutation_refl.
  - exists [], (B "EUR"), []. split; [vm_compute; reflexivity|]. split; [reflexivity|]. exists pdb_prices, pprices. eexists. split; [exact L|]. split; [exact R|].
    replace (find_comm pdb_prices (B "EUR")) with (@None commodity) by (vm_compute; reflexivity). reflexivity.
Qed.
Example C155_hypotheses : exists es, all_entries pdb [] (price_files pdb []) es /\ Forall named es /\ small_prices es /\ known es (B "USD") <> None /\ known es (B "EUR") = None /\
  List.length (lines_of es (B "USD")) = 2%nat /\ lists_prices es (B "USD") (nls ["2020/02/01 1.50 CAD"; "2020/01/01 1.25 CAD"]%string).
Proof.
  assert (L : load_prices 5 pdb [] empty_db = Some (Ok pdb_prices)) by (vm_compute; reflexivity).
  assert (H := L). rewrite load_price_list in H. destruct (C76_in_place _ _ _ _ H) as (es & A1 & Nm & _).
  destruct (find_known _ _ _ _ _ A1 L) as [Ep Hk]. exists es. split; [exact A1|]. split; [exact Nm|].
  assert (Sm : small_prices es). { intros p Ip. rewrite <- Ep in Ip. vm_compute in Ip. repeat (destruct Ip as [<-|Ip]; [cbn; lia|]). destruct Ip. }
  assert (Ku : known es (B "USD") <> None) by (rewrite <- Hk; vm_compute; discriminate).
  split; [exact Sm|]. split; [exact Ku|]. split; [rewrite <- Hk; vm_compute; reflexivity|]. split; [unfold lines_of; rewrite <- Ep; vm_compute; reflexivity|].
  destruct C155_example as [(given & x & more & C & _ & Ho) _].
  assert (Ex : x = B "USD") by (vm_compute in C; injection C as _ <- _; reflexivity). subst x.
  exact (proj1 (C155_price_lines _ _ _ _ A1 Sm _ _ Ho) Ku).
Qed.
Example C155_one_hypotheses : exists es, all_entries pdb [] (price_files pdb []) es /\ (forall p, In p (lines_of es (B "USD")) -> pp_currency p = B "CAD") /\
  NoDup (map pp_time (lines_of es (B "USD"))).
Proof.
  assert (L : load_prices 5 pdb [] empty_db = Some (Ok pdb_prices)) by (vm_compute; reflexivity).
  assert (H := L). rewrite load_price_list in H. destruct (C76_in_place _ _ _ _ H) as (es & A1 & _).
  destruct (find_known _ _ _ _ _ A1 L) as [Ep _]. exists es. split; [exact A1|]. unfold lines_of. rewrite <- Ep. split.
  - intros p I. vm_compute in I. repeat (destruct I as [<-|I]; [reflexivity|]). destruct I.
  - vm_compute. constructor; [intros [C|[]]; discriminate|]. constructor; [intros []|constructor].
Qed.
