(** C156: coin commodities -p sums up the price lines of the files. *)
From Coq Require Import Permutation Sorted.
From Verif Require Import Base M_Amount M_Date M_Convert S_Convert L_Convert Properties_Convert M_Regex M_Names M_Parser M_Writer M_Output M_Listing M_Database S_Database L_Database L_Database2 Properties_Database
  M_Flags M_Main S_Flags S_Main Properties_Flags S_Output L_Output2 L_Dec L_Amount L_Gnucash2 S_RegLine Properties_RegLine L_Listing S_Listing L_Sort Properties_Listing Properties_Consistent Properties_Lists
  S_PriceFiles Properties_PriceFiles Properties_Main Properties_Parser S_PriceList Properties_PriceList M_PriceStats S_PriceStats.

Lemma same_currency es cur p : known es (c_id cur) = Some cur -> in_currency es cur p = eqb_bytes (pp_currency p) (c_id cur).
Proof.
  intros K. unfold in_currency. destruct (eqb_bytes (pp_currency p) (c_id cur)) eqn:E.
  - apply eqb_bytes_eq in E. rewrite E, K. apply eq_commodity_refl.
  - destruct (known es (pp_currency p)) as [y|] eqn:Ky; [|reflexivity]. destruct (eq_commodity cur y) eqn:Ec; [|reflexivity]. apply eq_commodity_eq in Ec. subst y.
    apply known_has_id in Ky. rewrite <- Ky, eqb_bytes_refl in E. discriminate.
Qed.
Lemma recorded_between es x a cur : known es x = Some a -> known es (c_id cur) = Some cur ->
  recorded (known es) (map to_price (ev_prices es)) a cur = map to_price (lines_between es x (c_id cur)).
Proof. intros Ka Kc. rewrite (recorded_of es x a cur Ka). f_equal. apply filter_same. intros p _. apply same_currency, Kc. Qed.
Lemma one_entry es x a cur p n : known es x = Some a -> known es (c_id cur) = Some cur -> small_prices es -> settled es ->
  n = List.length (recorded (known es) (map to_price (ev_prices es)) a cur) -> In p (recorded (known es) (map to_price (ev_prices es)) a cur) ->
  (forall q, In q (recorded (known es) (map to_price (ev_prices es)) a cur) -> p_time q <= p_time p) ->
  exists t, stat_text (cur, p, n) = Ok t /\ stat_entry es x (c_id cur) t.
Proof.
  intros Ka Kc Hs Hse Hn Ip Hl. rewrite (recorded_between es x a cur Ka Kc) in *. apply in_map_iff in Ip as (q & <- & Iq).
  assert (Ie : In q (ev_prices es)) by (apply filter_In in Iq as [Iq _]; apply filter_In in Iq; tauto).
  assert (Ec : a_com (pp_value q) = cur).
  { specialize (Hse q Ie). apply filter_In in Iq as [_ Iq]. apply eqb_bytes_eq in Iq. rewrite Iq, Kc in Hse. congruence. }
  destruct (amount_text _ (Hs q Ie)) as (s & E1 & S1 & _).
  eexists. unfold stat_text. cbn [to_price p_value p_time]. assert (D : (if (0 <? c_dec cur)%nat then c_dec cur else a_dec (pp_value q)) = a_dec (pp_value q)).
  { unfold a_dec. rewrite Ec. destruct (0 <? c_dec cur)%nat; reflexivity. }
  rewrite D, E1. cbn [bind]. split; [reflexivity|]. exists q, s. split; [exact Iq|]. split.
  - intros q' I. exact (Hl (to_price q') (in_map to_price _ _ I)).
  - split; [exact S1|]. rewrite Hn, map_length. reflexivity.
Qed.
Lemma one_row es x a db prices' order : known es x = Some a -> small_prices es -> settled es ->
  resolve_prices (known es) (map to_price (ev_prices es)) db prices' -> Permutation order (map fst (prices_of db a)) ->
  exists s, commodity_string a (prices_of db a) order = Ok s /\ stat_row es x (s ++ [chr 10]).
Proof.
  intros Ka Hs Hse R Po. pose proof (files_db_ok es db prices' Hs R) as Dok. pose proof (known_has_id _ _ _ Ka) as Ex.
  assert (Nd : NoDup order) by (eapply Permutation_NoDup; [apply Permutation_sym, Po|apply db_ok_nodup, Dok]).
  assert (Hk : forall cur, In cur order <-> pair_prices db a cur <> []).
  { intros cur. transitivity (In cur (map fst (prices_of db a))); [split; apply Permutation_in; [exact Po|apply Permutation_sym, Po]|]. rewrite assoc_keys. unfold pair_prices. split.
    - intros (l & E). rewrite E. apply assoc_in in E. exact (db_ok_lists _ Dok _ _ _ E).
    - destruct (assoc cur (prices_of db a)) as [l|]; [eauto|congruence]. }
  assert (Kk : forall cur, In cur order -> known es (c_id cur) = Some cur) by (intros cur I; eapply keys_known; [exact R|reflexivity|apply Hk, I]).
  assert (Bt : forall cur, known es (c_id cur) = Some cur -> (pair_prices db a cur = [] <-> lines_between es x (c_id cur) = [])).
  { intros cur Kc. destruct (C14_lists_complete _ _ _ _ a cur R) as [P _]. rewrite (recorded_between es x a cur Ka Kc) in P. split; intros E; rewrite E in P.
    - apply Permutation_sym, Permutation_nil in P. apply map_eq_nil in P. exact P.
    - apply Permutation_nil in P. exact P. }
  assert (All : forall p, In p (lines_of es x) -> exists cur, In cur order /\ c_id cur = pp_currency p).
  { intros p I. assert (Ie : In p (ev_prices es)) by (apply filter_In in I; tauto). pose proof (Hse p Ie) as Kc. pose proof (known_has_id _ _ _ Kc) as Ei. exists (a_com (pp_value p)). split; [|exact Ei].
    apply Hk. rewrite <- Ei in Kc. intros E. apply (Bt _ Kc) in E. assert (X : In p (lines_between es x (c_id (a_com (pp_value p))))).
    { apply filter_In. split; [exact I|]. rewrite Ei. apply eqb_bytes_refl. } rewrite E in X. destruct X. }
  unfold commodity_string. destruct (prices_of db a) as [|e m] eqn:Em.
  - exists (c_id a). split; [reflexivity|]. left. split; [|rewrite Ex; reflexivity]. destruct (lines_of es x) as [|p l]; [reflexivity|].
    destruct (All p (or_introl eq_refl)) as (cur & I & _). apply Permutation_sym, Permutation_nil in Po. subst order. destruct I.
  - rewrite <- Em in *. destruct (C96_price_stats _ _ _ _ a order R Hk) as (rows & E & M & Hr). rewrite E. cbn [bind].
    assert (G : forall rs, (forall cur p n, In (cur, p, n) rs -> In (cur, p, n) rows) ->
      exists ts, res_map stat_text rs = Ok ts /\ Forall2 (stat_entry es x) (map (fun r => c_id (fst (fst r))) rs) ts).
    { induction rs as [|((cur, p), n) rs IH]; intros Hin; [exists []; split; [reflexivity|constructor]|]. destruct IH as (ts & E1 & F1); [intros ? ? ? I; apply Hin; right; exact I|].
      pose proof (Hin _ _ _ (or_introl eq_refl)) as I. destruct (Hr _ _ _ I) as (Hn & Hp & Hl).
      assert (Ic : In cur order) by (rewrite <- M; apply in_map_iff; exists (cur, p, n); auto).
      destruct (one_entry es x a cur p n Ka (Kk cur Ic) Hs Hse Hn Hp Hl) as (t & E2 & St). exists (t :: ts). cbn [res_map map fst]. rewrite E2. cbn [bind]. rewrite E1. cbn [bind].
      split; [reflexivity|]. constructor; assumption. }
    destruct (G rows (fun _ _ _ I => I)) as (ts & E1 & F1). rewrite E1. cbn [bind]. eexists. split; [reflexivity|]. right.
    exists (map c_id order), ts. rewrite <- (map_map (fun r => fst (fst r)) c_id), M in F1. split; [|split; [|split; [|split; [exact F1|]]]].
    + intros E0. apply map_eq_nil in E0. rewrite E0, Em in Po. apply Permutation_nil in Po. discriminate.
    + clear - Nd Kk. induction order as [|c order IH]; cbn [map]; [constructor|]. inversion Nd; subst. constructor; [|apply IH; [assumption|intros d I; apply Kk; right; exact I]].
      intros I. apply in_map_iff in I as (d & E & I). pose proof (Kk c (or_introl eq_refl)) as K1. pose proof (Kk d (or_intror I)) as K2. assert (c = d) by congruence. subst d. contradiction.
    + intros cur. rewrite in_map_iff. split.
      * intros (c & <- & I). intros E0. apply (Bt c (Kk c I)) in E0. exact (proj1 (Hk c) I E0).
      * intros Ne. destruct (lines_between es x cur) as [|p l] eqn:El; [congruence|]. assert (I : In p (lines_between es x cur)) by (rewrite El; left; reflexivity).
        apply filter_In in I as [I Ec]. apply eqb_bytes_eq in Ec. destruct (All p I) as (c & Ic & Ei). exists c. split; [congruence|exact Ic].
    + rewrite Ex, <- !app_assoc. reflexivity.
Qed.

Lemma forall2_weaken {A C} (P Q : A -> C -> Prop) l m : (forall x y, P x y -> Q x y) -> Forall2 P l m -> Forall2 Q l m.
Proof. intros H. induction 1; constructor; auto. Qed.

(** ** C156 *)
(** coin commodities -p prints a line for each commodity, in the order of the ids, with an entry for each currency that it has price
    lines in: a latest price and how many there are *)
Theorem C156_price_stats : forall limit w DB es, all_entries w [] (price_files w DB) es -> small_prices es -> settled es ->
  forall out, coin_price_stats limit w DB out ->
  exists ids rows, ascending ids /\ (forall id, In id ids <-> In id (map pc_id (ev_comms es))) /\ Forall2 (stat_row es) ids rows /\ out = concat rows.
Proof.
  intros limit w DB es Hes Hs Hse out (d & db & prices' & order & orders & Hl & R & Po & Pc & E). destruct (find_known _ _ _ _ _ Hes Hl) as [Ep Hk].
  rewrite load_price_list in Hl. destruct (C76_in_place _ _ _ _ Hl) as (es' & A1 & _ & Hh). assert (es' = es) by (eapply C76_unique; eassumption). subst es'.
  pose proof (comm_keys _ _ Hh) as Kc. destruct Hh as (_ & _ & _ & _ & _ & _ & _ & _ & Nc & _).
  rewrite Ep in R. apply (resolve_same _ _ _ _ _ Hk) in R. exists (sort_strings order). unfold stats_lines in E.
  destruct (res_map _ (sort_strings order)) as [ts| |] eqn:E1; try discriminate E. cbn [bind] in E. injection E as <-. exists ts.
  split; [apply nodup_ascending; exact (Permutation_NoDup (Permutation_sym Po) Nc)|]. split.
  { intros id. rewrite <- Kc. split; intros I.
    - eapply Permutation_in; [exact Po|]. eapply Permutation_in; [apply Permutation_sym, sort_strings_perm|exact I].
    - eapply Permutation_in; [apply sort_strings_perm|]. eapply Permutation_in; [apply Permutation_sym, Po|exact I]. }
  split; [|reflexivity]. apply res_map_forall2 in E1. eapply forall2_weaken; [|exact E1]. cbv beta. intros id row H. rewrite Hk in H.
  destruct (known es id) as [a|] eqn:Ka; [|discriminate]. destruct (one_row es id a db prices' (orders a) Ka Hs Hse R (Pc a)) as (s & E2 & S). rewrite E2 in H. cbn [bind] in H. injection H as <-. exact S.
Qed.
Print Assumptions C156_price_stats.
(** and it does so exactly if the commodities of all price lines are known *)
Theorem C156_listed : forall w DB es, all_entries w [] (price_files w DB) es -> Forall named es -> small_prices es -> settled es ->
  exists limit0, forall limit, (limit0 <= limit)%nat ->
  (exists out, coin_price_stats limit w DB out) <-> (forall p, In p (ev_prices es) -> known es (pp_commodity p) <> None).
Proof.
  intros w DB es Hes Hn Hs Hse. destruct (C76_loads _ _ _ Hes Hn) as (k & K). exists k. intros limit Hlim. destruct (K limit Hlim) as (d & E & Hh).
  assert (Hl : load_prices limit w DB empty_db = Some (Ok d)) by (rewrite load_price_list; exact E).
  destruct (find_known _ _ _ _ _ Hes Hl) as [Ep Hk]. split.
  - intros (out & d' & db & prices' & order & orders & Hl' & (db0 & R & _) & _) p I. assert (d' = d) by congruence. subst d'. rewrite <- Hk, Ep in *.
    exact (proj1 (add_prices_found _ _ _ _ R (to_price p) (in_map to_price _ _ I))).
  - intros H. destruct (resolve_prices_total (known es) (map to_price (ev_prices es))) as (db & prices' & R).
    { intros q I. apply in_map_iff in I as (p & <- & I). split; [exact (H p I)|]. cbn [to_price p_cur_id]. rewrite (Hse p I). discriminate. }
    assert (R' : resolve_prices (find_comm d) (map to_price (d_prices d)) db prices').
    { rewrite Ep. eapply resolve_same; [|exact R]. intros id. symmetry. apply Hk. }
    assert (T : exists ts, res_map (fun id => match find_comm d id with
                              | Some c => do s <- commodity_string c (prices_of db c) (map fst (prices_of db c)); Ok (s ++ [nl])
                              | None => Panic end) (sort_strings (map fst (d_comms d))) = Ok ts).
    { apply res_map_total. intros id I. eapply Permutation_in in I; [|apply Permutation_sym, sort_strings_perm]. apply lookup_key in I. unfold find_comm at 1.
      assert (Kn : find_comm d id <> None) by (unfold find_comm; destruct (lookup id (d_comms d)) as [[c pc]|]; [discriminate|congruence]).
      change (exists y, match find_comm d id with Some c => do s <- commodity_string c (prices_of db c) (map fst (prices_of db c)); Ok (s ++ [nl]) | None => Panic end = Ok y).
      destruct (find_comm d id) as [a|] eqn:Ka; [|congruence]. rewrite Hk in Ka. destruct (one_row es id a db prices' _ Ka Hs Hse R (Permutation_refl _)) as (s & E2 & _). rewrite E2. cbn [bind]. eauto. }
    destruct T as (ts & T). exists (concat ts), d, db, prices', (map fst (d_comms d)), (fun c => map fst (prices_of db c)). split; [exact Hl|]. split; [exact R'|]. split; [apply Permutation_refl|].
    split; [intros c; apply Permutation_refl|]. unfold stats_lines. rewrite T. reflexivity.
Qed.
Print Assumptions C156_listed.
Theorem C156_command_line : forall limit w DB es, all_entries w [] (price_files w DB) es -> small_prices es -> settled es ->
  forall line out, price_stats_line limit w DB line out ->
  (exists given, command_line commodities_options given [] line /\ switched given "q" false /\ switched given "p" true) /\
  exists ids rows, ascending ids /\ (forall id, In id ids <-> In id (map pc_id (ev_comms es))) /\ Forall2 (stat_row es) ids rows /\ out = concat rows.
Proof.
  intros limit w DB es Hes Hs Hse line out (given & C & Hq & Hp & Ho). apply commodities_accepts in C. split; [|exact (C156_price_stats limit w DB es Hes Hs Hse out Ho)].
  exists given. split; [exact C|].
  assert (S : forall n, In (B n) [B "q"; B "p"; B "f"] -> exists x, switched given n x).
  { intros n In_. apply value_exists. intros v I. destruct (given_taken _ _ _ _ C _ _ I) as (o & Io & _ & T). destruct Io as [<-|[<-|[<-|[]]]]; exact T. }
  destruct (S "q"%string (or_introl eq_refl)) as (x & Sx), (S "p"%string (or_intror (or_introl eq_refl))) as (y & Sy).
  rewrite (switch_value _ _ _ Sx) in Hq. rewrite (switch_value _ _ _ Sy) in Hp. subst x y. auto.
Qed.
Print Assumptions C156_command_line.
(** the files of C130 *)
Example C156_example : price_stats_line 5 pdb [] [B "-p"] (nls ["BTC: 2020/01/05 200.00 USD [1]"; "CAD"; "USD: 2020/02/01 1.50 CAD [2]"]%string).
Proof.
  assert (L : load_prices 5 pdb [] empty_db = Some (Ok pdb_prices)) by (vm_compute; reflexivity).
  assert (E1 : d_prices pdb_prices = d_prices pdb_db) by (vm_compute; reflexivity).
  assert (E2 : d_comms pdb_prices = d_comms pdb_db) by (vm_compute; reflexivity).
  exists [(B "p", B "true")]. split; [vm_compute; reflexivity|]. split; [reflexivity|]. split; [vm_compute; reflexivity|].
  exists pdb_prices, pprices. eexists. exists (map fst (d_comms pdb_prices)), (fun c => map fst (prices_of pprices c)). split; [exact L|]. split.
  { rewrite E1. eapply resolve_same; [|exact presolved]. intros id. unfold find_comm. rewrite E2. reflexivity. }
  split; [apply Permutation_refl|]. split; [intros c; apply Permutation_refl|]. vm_compute. reflexivity.
Qed.
Example C156_hypotheses : exists es, all_entries pdb [] (price_files pdb []) es /\ Forall named es /\ small_prices es /\ settled es /\
  (forall p, In p (ev_prices es) -> known es (pp_commodity p) <> None) /\ List.length (ev_prices es) = 3%nat.
Proof.
  assert (L : load_prices 5 pdb [] empty_db = Some (Ok pdb_prices)) by (vm_compute; reflexivity).
  assert (H := L). rewrite load_price_list in H. destruct (C76_in_place _ _ _ _ H) as (es & A1 & Nm & _).
  destruct (find_known _ _ _ _ _ A1 L) as [Ep Hk]. exists es. split; [exact A1|]. split; [exact Nm|].
  split. { intros p Ip. rewrite <- Ep in Ip. vm_compute in Ip. repeat (destruct Ip as [<-|Ip]; [cbn; lia|]). destruct Ip. }
  split. { intros p Ip. rewrite <- Ep in Ip. rewrite <- Hk. vm_compute in Ip. repeat (destruct Ip as [<-|Ip]; [vm_compute; reflexivity|]). destruct Ip. }
  split. { intros p Ip. rewrite <- Ep in Ip. rewrite <- Hk. vm_compute in Ip. repeat (destruct Ip as [<-|Ip]; [vm_compute; discriminate|]). destruct Ip. }
  rewrite <- Ep. vm_compute. reflexivity.
Qed.
