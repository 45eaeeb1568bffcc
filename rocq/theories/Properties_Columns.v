(** C116, C117: the aggregation chosen for a range and the table of subaccounts of the coin2html page. *)
From Coq Require Import Permutation Sorted.
From Verif Require Import Base M_Amount S_Amount L_Amount L_Dec M_Date S_Date L_Date M_Parser M_Names M_Ledger L_Sort L_Resolve Properties_Ledger M_Json M_Web L_Web M_Page M_Views S_Views L_Views L_Views2
  Properties_Views M_Ui S_Ui L_Ui Properties_Ui M_Columns S_Columns L_Columns L_Columns2.
Local Open Scope Z_scope.

(** ** C116 *)
(** a new range replaces the aggregation, and so does opening the bar chart without one *)
Definition new_range (s : ui) (e : event) : Prop :=
  (u_agg s <> None /\ exists d, e = SetStart d \/ e = SetEnd d) \/ (u_agg s = None /\ e = SelectView BarChart).
Lemma range_agg mid pg s e : new_range s e -> snd (handle mid pg s e) = false ->
  u_agg (fst (handle mid pg s e)) = Some (range_interval (u_start (fst (handle mid pg s e))) (u_end (fst (handle mid pg s e)))).
Proof.
  intros [[N (d & [-> | ->])]|[N ->]] H; cbn [handle] in *.
  - unfold update_view in *. destruct (root_views pg _); [|discriminate H]. destruct (existsb _ _); [|discriminate H]. clear H. cbn [fst]. unfold update_aggregation, set_start. cbn [u_agg].
    destruct (u_agg s) as [k|]; [|congruence]. cbn. destruct (u_view s); reflexivity.
  - unfold update_view in *. destruct (root_views pg _); [|discriminate H]. destruct (existsb _ _); [|discriminate H]. clear H. cbn [fst]. unfold update_aggregation, set_end. cbn [u_agg].
    destruct (u_agg s) as [k|]; [|congruence]. cbn. destruct (u_view s); reflexivity.
  - unfold update_view in *. destruct (root_views pg _); [|discriminate H]. destruct (existsb _ _); [|discriminate H]. clear H. cbn [fst set_view u_view u_agg]. rewrite N. reflexivity.
Qed.
(** the periods of a range with the automatic aggregation *)
Lemma range_periods mid st en : zone_ok mid ->
  (range_interval (Some st) (Some en) = Yearly -> 5 * 365 * 1440 <= en - st) /\
  (range_interval (Some st) (Some en) <> Yearly -> (List.length (ticks mid (range_interval (Some st) (Some en)) st en) <= 26)%nat) /\
  (9 * 1440 <= en - st -> ticks mid (range_interval (Some st) (Some en)) st en <> []).
Proof.
  intros Z. unfold range_interval. assert (F : forall k, ticks mid k st en = [] \/ gap_min k * (Z.of_nat (List.length (ticks mid k st en)) - 1) * 1440 < en - st + 2 * 1440).
  { intros k. destruct (ticks mid k st en) eqn:E; [left; reflexivity|]. right. rewrite <- E. apply ticks_few; [exact Z|]. rewrite E. discriminate. }
  destruct (Z.ltb_spec (en - st) (180 * 1440)); [|destruct (Z.ltb_spec (en - st) (3 * 180 * 1440)); [|destruct (Z.ltb_spec (en - st) (5 * 365 * 1440))]].
  - split; [discriminate|]. split; [intros _|intros; apply ticks_some; [exact Z|cbn [gap_max]; lia]]. destruct (F Weekly) as [->|X]; [cbn; lia|]. cbn [gap_min] in X. lia.
  - split; [discriminate|]. split; [intros _|intros; apply ticks_some; [exact Z|cbn [gap_max]; lia]]. destruct (F Monthly) as [->|X]; [cbn; lia|]. cbn [gap_min] in X. lia.
  - split; [discriminate|]. split; [intros _|intros; apply ticks_some; [exact Z|cbn [gap_max]; lia]]. destruct (F Quarterly) as [->|X]; [cbn; lia|]. cbn [gap_min] in X. lia.
  - split; [intros _; lia|]. split; [congruence|]. intros _. apply ticks_some; [exact Z|cbn [gap_max]; lia].
Qed.
(** partial: ranges shorter than nine days may have no period at all *)
Theorem C116_automatic_aggregation_partial : forall mid pg s e s', zone_ok mid -> new_range s e -> handle mid pg s e = (s', false) ->
  exists k, u_agg s' = Some k /\ forall st en, u_start s' = Some st -> u_end s' = Some en ->
    (k = Yearly -> 5 * 365 * 1440 <= en - st) /\ (k <> Yearly -> (List.length (ticks mid k st en) <= 26)%nat) /\
    (9 * 1440 <= en - st -> ticks mid k st en <> []).
Proof.
  intros mid pg s e s' Z N H. pose proof (range_agg mid pg s e N) as R. rewrite H in R. cbn [fst snd] in R. specialize (R eq_refl). eexists. split; [exact R|].
  intros st en Es Ee. rewrite Es, Ee. apply range_periods, Z.
Qed.
Print Assumptions C116_automatic_aggregation_partial.
(** without periods the table and the chart of subaccounts throw as soon as an account has a posting, whatever the other settings *)
Theorem C116_no_period_refuted : (forall mid conv order pg show ex max k start stop a, ticks mid k start stop = [] ->
    columns_accounts mid pg show stop ex a <> [] -> sub_columns mid conv order pg show ex max k start stop a = Panic) /\
  range_interval (Some (utc_midnight (go_date 2024 3 5))) (Some (utc_midnight (go_date 2024 3 9))) = Weekly /\
  ticks london_utc Weekly (utc_midnight (go_date 2024 3 5)) (utc_midnight (go_date 2024 3 9)) = [].
Proof.
  split; [|vm_compute; split; reflexivity]. intros mid conv order pg show ex max k start stop a T N. unfold sub_columns.
  assert (G : forall accs, exists l, groups_of mid conv pg k start stop accs = Ok l /\ map fst l = accs /\ Forall (fun x => snd x = []) l).
  { induction accs as [|b r (l & E & F & G)]; [exists []; repeat split; constructor|]. cbn [groups_of]. unfold group_by. rewrite T. cbn [group_loop bind]. rewrite E. cbn [bind]. eexists. split; [reflexivity|].
    split; [cbn [map fst]; f_equal; exact F|constructor; [reflexivity|exact G]]. }
  destruct (G (columns_accounts mid pg show stop ex a)) as ([|[b gs] l] & E & F & H); [exact (False_ind _ (N (eq_sym F)))|]. rewrite E. cbn [bind]. inversion H as [|? ? H1 _]; subst. cbn [snd] in H1. subst gs. reflexivity.
Qed.

(** ** C117 *)
Section Shown.
Variables (mid : Z -> Z) (pg : page) (show : bool) (stop : Z).
Hypothesis T : page_tree pg.
Lemma child_shown_spec ex b : child_shown mid pg show (Some stop) ex b = true <-> ~ In b ex /\
  (show = true \/ forall pb d, find_account (pg_accounts pg) b = Some pb -> pa_closed pb = Some d -> stop < mid d).
Proof.
  unfold child_shown. rewrite andb_true_iff, orb_true_iff, negb_true_iff. split.
  - intros [C E]. split.
    + intros I. assert (X : existsb (eqb_bytes b) ex = true) by (apply existsb_exists; exists b; split; [exact I|apply eqb_bytes_refl]). congruence.
    + destruct C as [C|C]; [left; exact C|right]. intros pb d F Cl. rewrite F, Cl in C. apply Z.ltb_lt in C. lia.
  - intros [N C]. split.
    + destruct C as [C|C]; [left; exact C|right]. destruct (find_account (pg_accounts pg) b) as [pb|] eqn:F; [|reflexivity]. destruct (pa_closed pb) as [d|] eqn:Cl; [|reflexivity]. specialize (C pb d eq_refl Cl). lia.
    + destruct (existsb (eqb_bytes b) ex) eqn:E; [|reflexivity]. apply existsb_exists in E as (y & I & Q). apply eqb_bytes_eq in Q. subst y. contradiction.
Qed.
Lemma shown_in ex a b : In b (a :: all_children mid pg (depth_of_page pg) show (Some stop) ex a) <-> beneath (listed mid pg show (Some stop) ex) a b.
Proof.
  assert (R : rows_of (listed mid pg show (Some stop) ex) a (a :: all_children mid pg (depth_of_page pg) show (Some stop) ex a)) by (constructor; apply all_children_rows; [exact T|lia]).
  split; [apply (rows_in _ _ _ R)|intros H; exact (proj1 (rows_below _ _ _ R b H))].
Qed.
Lemma beneath_ext (v w : bytes -> list bytes) a b : (forall x y, In y (v x) <-> In y (w x)) -> beneath v a b -> beneath w a b.
Proof. intros E H. induction H; [constructor|]. econstructor; [eassumption|]. apply E. assumption. Qed.
End Shown.
(** the accounts with columns: the selected one and those beneath it that are shown and not excluded, as far as they have postings *)
Theorem C117_accounts : forall mid pg show stop ex a b, page_tree pg ->
  (In b (columns_accounts mid pg show stop ex a) <-> reached mid pg show stop ex a b /\ pg_register pg b <> []).
Proof.
  intros mid pg show stop ex a b T. unfold columns_accounts. rewrite filter_In, (shown_in mid pg show stop T). split.
  - intros [H1 H2]. split; [|destruct (pg_register pg b); congruence]. exists (listed mid pg show (Some stop) ex). split; [|exact H1].
    intros x y. unfold listed. rewrite filter_In, child_shown_spec. tauto.
  - intros [(vis & V & H) N]. split; [|destruct (pg_register pg b); congruence]. apply (beneath_ext vis); [|exact H]. intros x y. rewrite V. unfold listed. rewrite filter_In, child_shown_spec. tauto.
Qed.
(** excluding an account beneath the selected one removes exactly the accounts under it *)
Theorem C117_exclude : forall mid pg show stop ex a b x, page_tree pg -> under pg a b -> a <> b ->
  (In x (columns_accounts mid pg show stop (ex ++ [b]) a) <-> In x (columns_accounts mid pg show stop ex a) /\ ~ under pg b x).
Proof.
  intros mid pg show stop ex a b x T U N. unfold columns_accounts. rewrite !filter_In, !(shown_in mid pg show stop T).
  assert (V : forall y z, In z (listed mid pg show (Some stop) (ex ++ [b]) y) <-> In z (listed mid pg show (Some stop) ex y) /\ z <> b).
  { intros y z. unfold listed. rewrite !filter_In, !child_shown_spec, in_app_iff. cbn [In]. split; [intros (H1 & H2 & H3)|intros ((H1 & H2 & H3) & H4)]; intuition congruence. }
  assert (Q : beneath (listed mid pg show (Some stop) (ex ++ [b])) a x <-> beneath (listed mid pg show (Some stop) ex) a x /\ ~ under pg b x).
  { split.
    - intros H. induction H as [|y z H IH I].
      + split; [constructor|]. intros K. pose proof (under_length pg T _ _ U). pose proof (under_length pg T _ _ K). destruct (under_cases pg _ _ U) as [E|(c & Ic & Uc)]; [contradiction|].
        pose proof (under_length pg T _ _ Uc). apply (child_parent pg T) in Ic as (pc & F & P). destruct (proj2 (proj2 T) _ _ _ F P). lia.
      + apply V in I as [I Nz]. destruct IH as [IH1 IH2]. split; [econstructor; eassumption|]. intros K. inversion K as [E|y' z' K' I']; [congruence|]. subst z'.
        unfold listed in I. apply filter_In in I as [I _]. apply (child_parent pg T) in I as (p1 & F1 & P1). apply (child_parent pg T) in I' as (p2 & F2 & P2). assert (y' = y) by congruence. subst y'. exact (IH2 K').
    - intros [H K]. induction H as [|y z H IH I]; [constructor|]. econstructor; [apply IH|apply V; split; [exact I|]].
      + intros X. apply K. unfold listed in I. apply filter_In in I as [I _]. econstructor; eassumption.
      + intros ->. apply K. constructor. }
  tauto.
Qed.
(** but excluding the selected account itself, which its own column offers, changes nothing *)
Theorem C117_exclude_self_refuted : forall mid pg show stop ex a x, page_tree pg ->
  (In x (columns_accounts mid pg show stop (ex ++ [a]) a) <-> In x (columns_accounts mid pg show stop ex a)).
Proof.
  intros mid pg show stop ex a x T. unfold columns_accounts. rewrite !filter_In, !(shown_in mid pg show stop T).
  assert (Q : beneath (listed mid pg show (Some stop) (ex ++ [a])) a x <-> beneath (listed mid pg show (Some stop) ex) a x); [|tauto].
  split; intros H; induction H as [|y z H IH I]; try constructor.
  - econstructor; [exact IH|]. unfold listed in *. rewrite filter_In, child_shown_spec in *. rewrite in_app_iff in I. tauto.
  - econstructor; [exact IH|]. unfold listed in *. rewrite filter_In, child_shown_spec in *. rewrite in_app_iff. cbn [In]. destruct I as (I & N & C). split; [exact I|]. split; [|exact C].
    intros [K|[K|[]]]; [contradiction|]. subst z. assert (U : under pg a y) by (clear - H; induction H as [|u v H IH I]; [constructor|]; econstructor; [exact IH|]; apply filter_In in I; apply I).
    pose proof (under_length pg T _ _ U). apply (child_parent pg T) in I as (pc & F & P). destruct (proj2 (proj2 T) _ _ _ F P). lia.
Qed.

(** what a row shows for an account: the sum of its period, or its balance after the period *)
Definition row_amount (mid : Z -> Z) (pg : page) (flows : bool) (c : commodity) (k : interval) (start stop d : Z) (b : bytes) : Z :=
  if flows then zsum (ints (of_period mid k start stop d (pg_register pg b))) else a_int (last_balance c (up_to mid k start stop d (pg_register pg b))).
(** the table: a row for each period; its total is that of all the accounts; a named column shows its account.
    partial: for a number of columns that is a number other than zero (or negative without accounts), and a range with a period *)
Theorem C117_table_partial : forall mid conv order pg show flows ex n k start stop a M,
  let accs := columns_accounts mid pg show stop ex a in
  zone_ok mid -> (forall l, Permutation l (order l)) -> n <> 0 -> (0 < n \/ accs <> []) -> registers_ok pg (com_of pg a) M accs -> ticks mid k start stop <> [] ->
  exists cols rows, sub_columns mid conv order pg show ex (Some n) k start stop a = Ok cols /\
    sub_table mid conv order pg show flows ex (Some n) k start stop a = Ok rows /\ map tr_date rows = ticks mid k start stop /\
    forall i r, nth_error rows i = Some r ->
      a_int (tr_total r) = zsum (map (row_amount mid pg flows (com_of pg a) k start stop (tr_date r)) accs) /\
      a_int (tr_total r) = zsum (map a_int (tr_cells r)) /\
      forall j b gs, nth_error cols j = Some (Some b, gs) -> In b accs /\
        nth_error (tr_cells r) j = Some (mkAmount (row_amount mid pg flows (com_of pg a) k start stop (tr_date r) b) (com_of pg a)).
Proof.
  intros mid conv order pg show flows ex n k start stop a M accs Z P Hn Hne (R & Sm & M0 & MB) Tk. set (c := com_of pg a) in *.
  assert (W : zsum (map (weight pg) accs) <= 2 ^ 53) by (rewrite weight_all; exact Sm).
  assert (W0 : forall b, In b accs -> weight pg b <= 2 ^ 53).
  { intros b I. etransitivity; [|exact W]. clear - I. unfold zsum. induction accs as [|x l IH]; [destruct I|]. cbn [map fold_right]. assert (N : forall l, 0 <= fold_right Z.add 0 (map (weight pg) l)).
    { clear. induction l as [|y l IH]; cbn [map fold_right]; [lia|]. pose proof (zsum_nonneg (ints (pg_register pg y))) as X. change (0 <= weight pg y) in X. lia. }
    destruct I as [->|I]; [specialize (N l); lia|]. specialize (IH I). pose proof (zsum_nonneg (ints (pg_register pg x))) as X. change (0 <= weight pg x) in X. lia. }
  destruct (groups_of_spec mid conv pg k start stop c Z accs) as (l & G1 & G2 & G3).
  { intros b I. destruct (R b I) as (R1 & R2 & R3 & R4). split; [exact R1|]. split; [exact R2|]. split; [exact R3|]. split; [exact (W0 b I)|]. intros p Ip. exact (proj1 (R4 p Ip)). }
  assert (Rs : rows_small (map snd l)).
  { apply (facts_small mid conv pg k start stop c M l G3); [rewrite G2; exact W|exact M0|rewrite <- G2, map_length in MB; exact MB|].
    intros x p Ix Ip. assert (I : In (fst x) accs) by (rewrite <- G2; apply in_map, Ix). destruct (R _ I) as (_ & _ & _ & R4). exact (proj2 (R4 p Ip)). }
  pose proof (P l) as Pl. assert (G3' : Forall (fun x => col_facts mid pg k start stop c (fst x) (snd x)) (order l)) by (eapply Permutation_Forall; eassumption).
  assert (Rs' : rows_small (map snd (order l))) by (eapply rows_small_perm; [apply Permutation_map; exact Pl|exact Rs]).
  assert (F' : Forall (fun x => column_ok c (ticks mid k start stop) (snd x)) (order l)) by (eapply Forall_impl; [|exact G3']; intros x X; apply X).
  destruct (top_other_spec mid conv c (ticks mid k start stop) n (order l) Hn) as (cols & C1 & C2 & C3 & C7 & C6); [|exact F'|exact Rs'|].
  { destruct Hne as [H|H]; [left; exact H|right]. intros X. rewrite X in Pl. apply Permutation_sym, Permutation_nil in Pl. rewrite Pl in G2. exact (H (eq_sym G2)). }
  assert (SC : sub_columns mid conv order pg show ex (Some n) k start stop a = Ok cols).
  { unfold sub_columns. fold accs. fold c. rewrite G1. cbn [bind]. rewrite (averages_spec mid conv pg k start stop c l Tk G3). cbn [bind]. exact C1. }
  destruct (table_spec mid conv flows c (ticks mid k start stop) (map snd cols)) with (l := ticks mid k start stop) (i := 0%nat) (cum := mkAmount 0 c) as (rows & T1 & T2 & T3);
    [rewrite Forall_map; exact C2|exact C3|reflexivity|reflexivity|].
  exists cols, rows. split; [exact SC|]. split; [unfold sub_table; rewrite SC; cbn [bind]; exact T1|]. split; [exact T2|].
  intros i r Er. destruct (T3 i r Er) as (Q1 & Q2 & _). cbn [Nat.add] in Q1, Q2.
  assert (Ed : nth_error (ticks mid k start stop) i = Some (tr_date r)) by (rewrite <- T2, nth_error_map, Er; reflexivity).
  assert (Am : forall x, In x (order l) -> at_row (if flows then g_sum else g_bal) i (snd x) = row_amount mid pg flows c k start stop (tr_date r) (fst x)).
  { intros x Ix. rewrite Forall_forall in G3'. pose proof (facts_row mid conv pg k start stop c (fst x) (snd x) i (G3' x Ix)) as X. rewrite Ed in X. destruct X as (X1 & _ & X3 & _). unfold row_amount. destruct flows; assumption. }
  split; [|split].
  - rewrite Q2. cbn [a_int]. rewrite map_map. transitivity (zsum (map (fun x => at_row (if flows then g_sum else g_bal) i (snd x)) (order l))).
    + destruct (C6 i) as (S1 & S2 & _). destruct flows; assumption.
    + rewrite (map_ext_in _ (fun x => row_amount mid pg flows c k start stop (tr_date r) (fst x))) by exact Am. rewrite <- (map_map fst (row_amount mid pg flows c k start stop (tr_date r))).
      rewrite <- G2. apply zsum_perm. apply Permutation_map, Permutation_map, Permutation_sym, Pl.
  - rewrite Q1, Q2, !map_map. reflexivity.
  - intros j b gs Ej. assert (Ib : In (b, gs) (order l)) by (apply (C7 j b gs); assumption).
    split; [rewrite <- G2; apply in_map_iff; exists (b, gs); split; [reflexivity|]; eapply Permutation_in; [apply Permutation_sym, Pl|exact Ib]|].
    rewrite Q1, nth_error_map, nth_error_map, Ej. cbn [option_map snd]. f_equal. f_equal. exact (Am (b, gs) Ib).
Qed.
Print Assumptions C117_table_partial.

(** an example: Assets with two accounts *)
Definition col_posts (b : bytes) : list pposting :=
  if eqb_bytes b (B "Assets:Bank") then [gp (go_date 2024 1 10) 100 100; gp (go_date 2024 2 20) 7 107]
  else if eqb_bytes b (B "Assets:Cash") then [gp (go_date 2024 2 5) 30 30]
  else if eqb_bytes b (B "Assets:Loan") then [gp (go_date 2024 1 7) (-50) (-50)] else [].
Definition col_page : page := mkPage [cad]
  [ui_acct (B "Assets") None None; ui_acct (B "Assets:Bank") (Some (B "Assets")) None; ui_acct (B "Assets:Cash") (Some (B "Assets")) None; ui_acct (B "Assets:Loan") (Some (B "Assets")) None]
  [B "Assets"] (fun a => if eqb_bytes a (B "Assets") then [B "Assets:Bank"; B "Assets:Cash"; B "Assets:Loan"] else []) col_posts [].
Lemma col_page_tree : page_tree col_page.
Proof.
  assert (Fd : forall a pa, find_account (pg_accounts col_page) a = Some pa -> In pa (pg_accounts col_page) /\ pa_full pa = a).
  { intros a pa H. unfold find_account in H. apply find_some in H as [I E]. split; [exact I|]. apply eqb_bytes_eq. exact E. }
  split; [|split].
  - intros r [<-|[]]. eexists. split; vm_compute; reflexivity.
  - intros a b. cbn [col_page pg_children]. split.
    + destruct (eqb_bytes a (B "Assets")) eqn:E; [|intros []]. apply eqb_bytes_eq in E. subst a. intros [<-|[<-|[<-|[]]]]; (eexists; split; vm_compute; reflexivity).
    + intros (pb & F & P). apply Fd in F as [I <-]. destruct I as [<-|[<-|[<-|[<-|[]]]]]; cbn [ui_acct pa_parent pa_full] in *; try discriminate; injection P as <-; vm_compute; tauto.
  - intros b pb a F P. apply Fd in F as [I <-]. destruct I as [<-|[<-|[<-|[<-|[]]]]]; cbn [ui_acct pa_parent pa_full] in *; try discriminate; injection P as <-; (split; [eexists; vm_compute; reflexivity|cbn; lia]).
Qed.
Definition cols_2024 (max : option Z) (rng : Z * Z) : res (list table_row) :=
  sub_table london_utc (fun _ => ex_conv) (fun l => l) col_page false true [] max Monthly (london_utc (fst rng)) (london_utc (snd rng)) (B "Assets").
Definition jan_feb : Z * Z := (go_date 2024 1 1, go_date 2024 3 1).
Definition table_ints (r : res (list table_row)) : res (list (Z * list Z * Z)) := do rows <- r; Ok (map (fun r => (tr_date r, map a_int (tr_cells r), a_int (tr_total r))) rows).
Example C117_example : page_tree col_page /\ columns_accounts london_utc col_page false (london_utc (go_date 2024 3 1)) [] (B "Assets") = [B "Assets:Bank"; B "Assets:Cash"; B "Assets:Loan"] /\
  registers_ok col_page cad 107 [B "Assets:Bank"; B "Assets:Cash"; B "Assets:Loan"] /\
  table_ints (cols_2024 (Some 2) jan_feb) = Ok [(go_date 2024 1 1, [100; -50], 50); (go_date 2024 2 1, [7; 30], 37)].
Proof.
  split; [exact col_page_tree|]. split; [vm_compute; reflexivity|]. split; [|vm_compute; reflexivity]. split; [|split; [vm_compute; discriminate|split; [lia|vm_compute; discriminate]]].
  intros b [<-|[<-|[<-|[]]]]; (split; [vm_compute; reflexivity|split; [|split]]); cbn [col_page pg_register].
  1, 4, 7: vm_compute; repeat (constructor; [|repeat (constructor; [discriminate|]); constructor]); constructor.
  1, 3, 5: vm_compute; repeat constructor.
  all: intros q I; vm_compute in I; repeat (destruct I as [<-|I]; [cbn; split; [reflexivity|lia]|]); destruct I.
Qed.
(** a maximum of zero shows one account as Other, an empty maximum nothing: the totals are wrong *)
Theorem C117_maximum_refuted :
  table_ints (cols_2024 (Some 0) jan_feb) = Ok [(go_date 2024 1 1, [-50], -50); (go_date 2024 2 1, [0], 0)] /\
  table_ints (cols_2024 None jan_feb) = Ok [(go_date 2024 1 1, [], 0); (go_date 2024 2 1, [], 0)] /\
  sub_table london_utc (fun _ => ex_conv) (fun l => l) col_page false true [] (Some (-1)) Monthly (london_utc (go_date 2024 1 1)) (london_utc (go_date 2024 3 1)) (B "Nothing") = Panic.
Proof. split; [vm_compute; reflexivity|]. split; vm_compute; reflexivity. Qed.
(** postings of the range before its first period are in no row *)
Theorem C117_first_period_refuted : table_ints (cols_2024 (Some 5) (go_date 2024 1 9, go_date 2024 3 1)) = Ok [(go_date 2024 2 1, [7; 30; 0], 37)].
Proof. vm_compute. reflexivity. Qed.
Definition c116_ui : ui := fst (handle london_utc ui_page (fst (init_ui london_utc ui_page 0 (1440 * 200))) (Aggregate (Some Monthly))).
Example C116_example : new_range c116_ui (SetEnd (Some 90)) /\ snd (handle london_utc ui_page c116_ui (SetEnd (Some 90))) = false /\
  u_agg (fst (handle london_utc ui_page c116_ui (SetEnd (Some 90)))) = Some Weekly.
Proof. split; [left; split; [vm_compute; discriminate|eauto]|]. split; vm_compute; reflexivity. Qed.
