(** Lemmas for the table of subaccounts. *)
From Coq Require Import Permutation Sorted.
From Verif Require Import Base M_Amount S_Amount L_Amount M_Date L_Date M_Names M_Ledger M_Web M_Page M_Views S_Views L_Views L_Views2 Properties_Views M_Ui S_Ui L_Ui M_Columns S_Columns L_Columns.
Local Open Scope Z_scope.

Lemma zsum_le {A} (f g : A -> Z) l : (forall x, In x l -> f x <= g x) -> zsum (map f l) <= zsum (map g l).
Proof. unfold zsum. induction l as [|x l IH]; intros H; cbn [map fold_right]; [lia|]. pose proof (H x (or_introl eq_refl)). specialize (IH (fun y I => H y (or_intror I))). lia. Qed.
Lemma abs_filter f ps : zsum (map Z.abs (ints (filter f ps))) <= zsum (map Z.abs (ints ps)).
Proof. unfold ints, zsum. induction ps as [|p ps IH]; cbn [filter map fold_right]; [lia|]. destruct (f p); cbn [map fold_right]; lia. Qed.
Lemma last_balance_in c ps : last_balance c ps = mkAmount 0 c \/ exists p, In p ps /\ last_balance c ps = pp_bal p.
Proof. unfold last_balance. destruct (rev ps) as [|p r] eqn:E; [left; reflexivity|]. right. exists p. split; [|reflexivity]. apply in_rev. rewrite E. left. reflexivity. Qed.

Lemma sorted_app_l {A} (R : A -> A -> Prop) l l' : StronglySorted R (l ++ l') -> StronglySorted R l.
Proof. induction l as [|x l IH]; intros H; [constructor|]. inversion H as [|? ? S F]; subst. constructor; [auto|]. apply Forall_app in F. apply F. Qed.
Lemma sorted_app_lt {A} (R : A -> A -> Prop) l l' : StronglySorted R (l ++ l') -> forall x y, In x l -> In y l' -> R x y.
Proof.
  induction l as [|z l IH]; intros H x y Ix Iy; [destruct Ix|]. inversion H as [|? ? S F]; subst. destruct Ix as [->|Ix]; [|eauto].
  rewrite Forall_forall in F. apply F. apply in_app_iff. right. exact Iy.
Qed.

Lemma account_column mid conv k c reg start stop : zone_ok mid -> by_day reg -> in_commodity c reg -> small (ints reg) ->
  exists gs, group_by mid conv k (trim_range mid reg start stop) c start stop = Ok gs /\ map g_date gs = ticks mid k start stop /\
    forall i g d, nth_error gs i = Some g -> nth_error (ticks mid k start stop) i = Some d ->
      g_date g = d /\ g_posts g = of_period mid k start stop d reg /\ g_sum g = mkAmount (zsum (ints (of_period mid k start stop d reg))) c /\
      g_total g = mkAmount (zsum (ints (up_to mid k start stop d reg))) c /\ g_bal g = last_balance c (up_to mid k start stop d reg).
Proof.
  intros Z S Hc Hs. assert (E : trim_range mid reg start stop = filter (in_range mid start stop) reg) by (rewrite trim_filter_key by (apply by_day_posted; assumption); reflexivity).
  rewrite E. clear E. set (ps := filter (in_range mid start stop) reg).
  assert (S' : by_day ps) by (apply filter_ssorted; exact S).
  assert (Hc' : in_commodity c ps) by (unfold in_commodity in *; rewrite Forall_forall in *; intros p I; apply Hc; apply filter_In in I; apply I).
  destruct (C108_groups mid conv k ps c start stop Z S' Hc' (small_filter _ _ Hs)) as (gs & E1 & E2 & _ & E4). exists gs. split; [exact E1|]. split; [exact E2|].
  intros i g d Hg Hd. destruct (nth_error_split gs i Hg) as (g1 & g2 & Eg & Lg). destruct (E4 g1 g g2 Eg) as (P1 & P2 & P3 & P4).
  assert (Ed : g_date g = d) by (rewrite <- E2, nth_error_map, Hg in Hd; injection Hd as <-; reflexivity).
  assert (Eo : filter (fun p => floor_day k (pp_date p) =? d) ps = of_period mid k start stop d reg) by (unfold ps, of_period; rewrite filter_twice; reflexivity).
  assert (Eu : concat (map g_posts (g1 ++ [g])) = up_to mid k start stop d reg).
  { assert (G : map g_posts (g1 ++ [g]) = map (fun d => filter (in_period k d) ps) (map g_date (g1 ++ [g]))).
    { rewrite map_map. apply map_ext_in. intros x I. assert (I' : In x gs) by (rewrite Eg; apply in_app_iff; apply in_app_iff in I as [I|[<-|[]]]; [left; exact I|right; left; reflexivity]).
      apply in_split in I' as (h1 & h2 & I'). apply (E4 _ _ _ I'). }
    rewrite G. assert (TS : StronglySorted Z.lt (ticks mid k start stop)) by apply ticks_sorted. rewrite <- E2, Eg in TS.
    replace (g1 ++ g :: g2) with ((g1 ++ [g]) ++ g2) in TS by (rewrite <- app_assoc; reflexivity). rewrite map_app in TS.
    assert (TS1 : StronglySorted Z.lt (map g_date (g1 ++ [g]))) by (eapply sorted_app_l; exact TS).
    rewrite concat_periods by assumption. unfold ps, up_to. rewrite filter_twice. apply filter_ext_in. intros p _.
    destruct (in_range mid start stop p) eqn:R; [cbn [andb]|reflexivity].
    assert (Tk : forall x, In x (map g_date gs) <-> floor_day k x = x /\ start <= mid x < stop) by (intros x; rewrite E2; apply (ticks_in mid k start stop x Z)).
    assert (Md : forall x, In x (map g_date gs) -> (In x (map g_date (g1 ++ [g])) <-> x <= d)).
    { intros x Ix. rewrite Eg in Ix. replace (g1 ++ g :: g2) with ((g1 ++ [g]) ++ g2) in Ix by (rewrite <- app_assoc; reflexivity). rewrite map_app in Ix.
      rewrite map_app in TS, Ix. rewrite map_app. cbn [map] in *. rewrite Ed in *. clear -TS Ix. split.
      - intros I. apply in_app_iff in I as [I|[<-|[]]]; [|lia]. rewrite <- app_assoc in TS. pose proof (sorted_app_lt _ _ _ TS x d I (or_introl eq_refl)). lia.
      - intros Le. apply in_app_iff in Ix as [I|I]; [exact I|]. exfalso. assert (Dl : In d (map g_date g1 ++ [d])) by (apply in_app_iff; right; left; reflexivity).
        pose proof (sorted_app_lt _ _ _ TS d x Dl I). lia. }
    destruct (existsb (Z.eqb (floor_day k (pp_date p))) (map g_date (g1 ++ [g]))) eqn:X.
    - apply existsb_exists in X as (x & Ix & Ex). apply Z.eqb_eq in Ex. assert (Ix' : In x (map g_date gs)).
      { rewrite Eg. replace (g1 ++ g :: g2) with ((g1 ++ [g]) ++ g2) by (rewrite <- app_assoc; reflexivity). rewrite map_app. apply in_app_iff. left. exact Ix. }
      pose proof (proj1 (Md x Ix') Ix). apply Tk in Ix' as [_ Ix']. rewrite Ex. lia.
    - symmetry. apply not_true_is_false. intros H. assert (Dd : In d (map g_date gs)) by (rewrite <- Ed; apply in_map; eapply nth_error_In; exact Hg). pose proof (proj1 (Tk d) Dd) as [_ Rd].
      assert (If : In (floor_day k (pp_date p)) (map g_date gs)).
      { apply Tk. split; [apply floor_idem|]. assert (floor_day k (pp_date p) <= d) by lia. pose proof (proj2 (mid_le mid Z _ _) H0). lia. }
      assert (Y : existsb (Z.eqb (floor_day k (pp_date p))) (map g_date (g1 ++ [g])) = true); [|congruence].
      apply existsb_exists. exists (floor_day k (pp_date p)). split; [|apply Z.eqb_refl]. apply (Md _ If). lia. }
  rewrite Ed in P1. rewrite Eo in P1. rewrite Eu in P3, P4. rewrite P1 in P2. auto.
Qed.
Section Table.
Variable mid : Z -> Z.
Variable conv : Z -> conversion.
Variable pg : page.
Variables (k : interval) (start stop : Z) (c : commodity) (M : Z).
Hypothesis Zn : zone_ok mid.
Notation reg := (pg_register pg).
Definition col_facts (b : bytes) (gs : list group) : Prop := column_ok c (ticks mid k start stop) gs /\
  forall i g d, nth_error gs i = Some g -> nth_error (ticks mid k start stop) i = Some d ->
      g_date g = d /\ g_posts g = of_period mid k start stop d (reg b) /\ g_sum g = mkAmount (zsum (ints (of_period mid k start stop d (reg b)))) c /\
      g_total g = mkAmount (zsum (ints (up_to mid k start stop d (reg b)))) c /\ g_bal g = last_balance c (up_to mid k start stop d (reg b)).
Definition weight (b : bytes) : Z := zsum (map Z.abs (ints (reg b))).
Lemma weight_all accs : zsum (map weight accs) = zsum (map Z.abs (ints (concat (map reg accs)))).
Proof. induction accs as [|a r IH]; [reflexivity|]. cbn [map concat]. rewrite ints_app, map_app, zsum_app. unfold zsum at 1. cbn [fold_right]. fold (zsum (map weight r)). rewrite IH. reflexivity. Qed.
Lemma groups_of_spec : forall accs, (forall b, In b accs -> com_of pg b = c /\ by_day (reg b) /\ in_commodity c (reg b) /\ weight b <= 2 ^ 53 /\ forall p, In p (reg b) -> a_com (pp_bal p) = c) ->
  exists l, groups_of mid conv pg k start stop accs = Ok l /\ map fst l = accs /\ Forall (fun x => col_facts (fst x) (snd x)) l.
Proof.
  induction accs as [|b r IH]; intros H; cbn [groups_of].
  - exists []. repeat split. constructor.
  - destruct (H b (or_introl eq_refl)) as (H1 & H2 & H3 & H4 & H5). rewrite H1.
    destruct (account_column mid conv k c (reg b) start stop Zn H2 H3 H4) as (gs & E1 & E2 & E3). rewrite E1. cbn [bind].
    destruct (IH (fun x I => H x (or_intror I))) as (l & L1 & L2 & L3). rewrite L1. cbn [bind]. exists ((b, gs) :: l). split; [reflexivity|]. split; [cbn [map fst]; rewrite L2; reflexivity|].
    constructor; [|exact L3]. cbn [fst snd]. split; [|exact E3]. split; [exact E2|]. rewrite Forall_forall. intros g I. apply In_nth_error in I as (i & Hi).
    assert (Hd : exists d, nth_error (ticks mid k start stop) i = Some d) by (rewrite <- E2, nth_error_map, Hi; eexists; reflexivity). destruct Hd as (d & Hd).
    destruct (E3 i g d Hi Hd) as (_ & _ & -> & -> & ->). split; [reflexivity|]. split; [reflexivity|].
    destruct (last_balance_in c (up_to mid k start stop d (reg b))) as [->|(p & Ip & ->)]; [reflexivity|]. apply H5. unfold up_to in Ip. apply filter_In in Ip. apply Ip.
Qed.
Lemma facts_row b gs i : col_facts b gs ->
  match nth_error (ticks mid k start stop) i with
  | Some d => at_row g_sum i gs = zsum (ints (of_period mid k start stop d (reg b))) /\ at_row g_total i gs = zsum (ints (up_to mid k start stop d (reg b))) /\
              at_row g_bal i gs = a_int (last_balance c (up_to mid k start stop d (reg b))) /\ posts_at i gs = of_period mid k start stop d (reg b)
  | None => at_row g_sum i gs = 0 /\ at_row g_total i gs = 0 /\ at_row g_bal i gs = 0 /\ posts_at i gs = []
  end.
Proof.
  intros [[E _] F]. unfold at_row, posts_at. destruct (nth_error (ticks mid k start stop) i) as [d|] eqn:Hd.
  - destruct (nth_error gs i) as [g|] eqn:Hg.
    + destruct (F i g d Hg Hd) as (_ & -> & -> & -> & ->). cbn [a_int]. auto.
    + apply nth_error_None in Hg. assert (X : nth_error (ticks mid k start stop) i <> None) by congruence. apply nth_error_Some in X. rewrite <- E, map_length in X. lia.
  - apply nth_error_None in Hd. assert (nth_error gs i = None) as -> by (apply nth_error_None; rewrite <- E, map_length in Hd; exact Hd). auto.
Qed.
Lemma facts_small l : Forall (fun x => col_facts (fst x) (snd x)) l -> zsum (map weight (map fst l)) <= 2 ^ 53 ->
  0 <= M -> M * Z.of_nat (List.length l) <= 2 ^ 53 -> (forall x p, In x l -> In p (reg (fst x)) -> Z.abs (a_int (pp_bal p)) <= M) -> rows_small (map snd l).
Proof.
  intros F W M0 MB HB i. rewrite Forall_forall in F. rewrite map_map in W.
  assert (X : forall x, In x l -> Z.abs (at_row g_sum i (snd x)) <= weight (fst x) /\ Z.abs (at_row g_total i (snd x)) <= weight (fst x) /\ Z.abs (at_row g_bal i (snd x)) <= M).
  { intros x I. pose proof (facts_row (fst x) (snd x) i (F x I)) as R. assert (W0 : 0 <= weight (fst x)) by apply zsum_nonneg. destruct (nth_error (ticks mid k start stop) i) as [d|].
    - destruct R as (-> & -> & -> & _). split; [|split].
      + etransitivity; [apply zsum_abs|]. apply abs_filter.
      + etransitivity; [apply zsum_abs|]. apply abs_filter.
      + destruct (last_balance_in c (up_to mid k start stop d (reg (fst x)))) as [->|(p & Ip & ->)]; [cbn; lia|]. apply (HB x p I). unfold up_to in Ip. apply filter_In in Ip. apply Ip.
    - destruct R as (-> & -> & -> & _). cbn. lia. }
  unfold small. rewrite !map_map.
  split; [|split].
  - etransitivity; [|exact W]. apply zsum_le. intros x I. apply X, I.
  - etransitivity; [|exact W]. apply zsum_le. intros x I. apply X, I.
  - etransitivity; [apply (zsum_le _ (fun _ => M))|]; [intros x I; apply X, I|]. etransitivity; [|exact MB]. clear. induction l as [|x l IH]; unfold zsum in *; cbn [map fold_right List.length]; lia.
Qed.
Lemma averages_spec l : ticks mid k start stop <> [] -> Forall (fun x => col_facts (fst x) (snd x)) l -> averages_ok mid conv c l = Ok tt.
Proof.
  intros N. induction 1 as [|[b gs] l [[E Fc] F] G IH]; [reflexivity|]. cbn [averages_ok fst snd] in *. destruct (rev gs) as [|g r] eqn:R.
  - apply (f_equal (@rev _)) in R. rewrite rev_involutive in R. cbn in R. subst gs. cbn in E. congruence.
  - assert (Ig : In g gs) by (apply in_rev; rewrite R; left; reflexivity). rewrite Forall_forall in Fc. destruct (Fc g Ig) as (_ & Ct & _).
    destruct (web_add_com (conv (mid (g_date g))) (mkAmount 0 c) (g_total g)) as (x & -> & _); [symmetry; exact Ct|]. cbn [bind]. exact IH.
Qed.
End Table.

Lemma rows_small_perm l l' : Permutation l l' -> rows_small l -> rows_small l'.
Proof.
  intros P H i. destruct (H i) as (H1 & H2 & H3). unfold small in *. repeat split.
  - rewrite <- (zsum_perm _ _ (Permutation_map Z.abs (Permutation_map (at_row g_sum i) P))). exact H1.
  - rewrite <- (zsum_perm _ _ (Permutation_map Z.abs (Permutation_map (at_row g_total i) P))). exact H2.
  - rewrite <- (zsum_perm _ _ (Permutation_map Z.abs (Permutation_map (at_row g_bal i) P))). exact H3.
Qed.
Lemma removelast_map_in {A} (l : list A) x : In x (removelast l) -> In x l.
Proof. induction l as [|y [|z r] IH]; [intros []|intros []|]. change (removelast (y :: z :: r)) with (y :: removelast (z :: r)). intros [<-|I]; [left; reflexivity|right; apply IH, I]. Qed.
(** the columns for a number of columns that is not zero *)
Lemma top_other_spec mid conv c l n sorted : n <> 0 -> (0 < n \/ sorted <> []) -> Forall (fun x => column_ok c l (snd x)) sorted -> rows_small (map snd sorted) ->
  exists cols, top_and_other mid conv c (Some n) sorted = Ok cols /\ Forall (fun x => column_ok c l (snd x)) cols /\ rows_small (map snd cols) /\
    (forall j b gs, nth_error cols j = Some (Some b, gs) -> In (b, gs) sorted) /\
    forall i, zsum (map (fun x => at_row g_sum i (snd x)) cols) = zsum (map (fun x => at_row g_sum i (snd x)) sorted) /\
              zsum (map (fun x => at_row g_bal i (snd x)) cols) = zsum (map (fun x => at_row g_bal i (snd x)) sorted) /\
              zsum (map (fun x => at_row g_total i (snd x)) cols) = zsum (map (fun x => at_row g_total i (snd x)) sorted) /\
              concat (map (fun x => posts_at i (snd x)) cols) = concat (map (fun x => posts_at i (snd x)) sorted).
Proof.
  intros Hn Hne F Hs. unfold top_and_other. destruct (n <? Z.of_nat (List.length sorted)) eqn:E.
  - apply Z.ltb_lt in E. pose proof (slices_join n sorted Hn E) as J. set (A := removelast (slice_to (Some n) sorted)) in *. set (R := slice_from (n - 1) sorted) in *.
    assert (NR : R <> []).
    { intros X. unfold R, slice_from in X. destruct (0 <=? n - 1) eqn:Y; [revert X; apply skipn_nonempty; lia|]. destruct sorted as [|s0 sr]; [destruct Hne as [H|H]; [lia|congruence]|].
      revert X. apply skipn_nonempty. cbn [List.length]. lia. }
    rewrite <- map_removelast. fold A. clearbody A R. subst sorted. rewrite map_app in Hs. pose proof (rows_small_app _ _ Hs) as [Hs1 Hs2]. apply Forall_app in F as [F1 F2].
    destruct (sum_all_spec mid conv c l (map snd R)) as (o & O1 & O2 & O3); [intros X; apply map_eq_nil in X; contradiction|rewrite Forall_map; exact F2|exact Hs2|].
    rewrite O1. cbn [bind]. eexists. split; [reflexivity|].
    assert (T : forall i, zsum (map (fun x => at_row g_sum i (snd x)) (map (fun x => (Some (fst x), snd x)) A ++ [(None, o)])) = zsum (map (fun x => at_row g_sum i (snd x)) (A ++ R)) /\
              zsum (map (fun x => at_row g_bal i (snd x)) (map (fun x => (Some (fst x), snd x)) A ++ [(None, o)])) = zsum (map (fun x => at_row g_bal i (snd x)) (A ++ R)) /\
              zsum (map (fun x => at_row g_total i (snd x)) (map (fun x => (Some (fst x), snd x)) A ++ [(None, o)])) = zsum (map (fun x => at_row g_total i (snd x)) (A ++ R)) /\
              concat (map (fun x => posts_at i (snd x)) (map (fun x => (Some (fst x), snd x)) A ++ [(@None bytes, o)])) = concat (map (fun x => posts_at i (snd x)) (A ++ R))).
    { intros i. destruct (O3 i) as (P4 & P1 & P3 & P2). split; [|split; [|split]].
      - rewrite !map_app, !zsum_app, !map_map. f_equal. cbn [map snd]. unfold zsum at 1. cbn [fold_right]. rewrite P1, map_map. apply Z.add_0_r.
      - rewrite !map_app, !zsum_app, !map_map. f_equal. cbn [map snd]. unfold zsum at 1. cbn [fold_right]. rewrite P2, map_map. apply Z.add_0_r.
      - rewrite !map_app, !zsum_app, !map_map. f_equal. cbn [map snd]. unfold zsum at 1. cbn [fold_right]. rewrite P3, map_map. apply Z.add_0_r.
      - rewrite !map_app, !concat_app, !map_map. f_equal. cbn [map snd concat]. rewrite app_nil_r, P4, map_map. reflexivity. }
    split; [|split; [|split; [|exact T]]].
    + apply Forall_app. split; [rewrite Forall_map; exact F1|constructor; [exact O2|constructor]].
    + rewrite map_app, map_map. cbn [map snd fst]. intros i. destruct (Hs i) as (S1 & S2 & S3). destruct (O3 i) as (P4 & P1 & P3 & P2).
      unfold small in *. rewrite !map_app, zsum_app in S1, S2, S3. rewrite !map_app, !zsum_app. cbn [map]. rewrite P1, P2, P3.
      assert (Z1 : forall z, zsum [z] = z) by (intros z; unfold zsum; cbn [fold_right]; apply Z.add_0_r). rewrite !Z1.
      pose proof (zsum_abs (map (at_row g_sum i) (map snd R))) as X1. pose proof (zsum_abs (map (at_row g_total i) (map snd R))) as X2. pose proof (zsum_abs (map (at_row g_bal i) (map snd R))) as X3.
      clear - S1 S2 S3 X1 X2 X3. change (map (fun x : bytes * list group => snd x) A) with (map snd A). lia.
    + intros j b gs Ej. apply nth_error_In in Ej. apply in_app_iff in Ej as [I|[I|[]]]; [|congruence]. apply in_map_iff in I as ([b' gs'] & Q & I). cbn [fst snd] in Q. injection Q as -> ->. apply in_app_iff. left. exact I.
  - apply Z.ltb_ge in E. assert (Hp : 0 < n) by (destruct Hne as [H|H]; [exact H|]; destruct sorted; [congruence|cbn [List.length] in E; lia]).
    unfold slice_to. destruct (Z.leb_spec 0 n); [|lia]. rewrite firstn_all2 by lia. eexists. split; [reflexivity|]. split; [rewrite Forall_map; exact F|]. split; [rewrite map_map; exact Hs|]. split.
    + intros j b gs Ej. apply nth_error_In in Ej. apply in_map_iff in Ej as ([b' gs'] & Q & I). cbn [fst snd] in Q. injection Q as -> ->. exact I.
    + intros i. rewrite !map_map. cbn [snd]. auto.
Qed.
