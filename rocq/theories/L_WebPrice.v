(** Lemmas: weekly prices and the conversions of a commodity. *)
From Coq Require Import Permutation Sorted.
From Verif Require Import Base M_Amount M_Date L_Amount L_Sort M_Web S_Web L_WebBfs.
Local Open Scope Z_scope.

Definition by_date (l : list wprice) : Prop := StronglySorted (fun a b => wp_date a <= wp_date b) l.
(** the first price on or after a day *)
Definition first_after (known : list wprice) (w : Z) (p : wprice) : Prop :=
  In p known /\ w <= wp_date p /\ forall q, In q known -> w <= wp_date q -> wp_date p <= wp_date q.

Lemma skip_older_spec d known : by_date known -> (exists q, In q known /\ d <= wp_date q) ->
  exists p r pre, skip_older d known = p :: r /\ known = pre ++ p :: r /\ d <= wp_date p /\ Forall (fun q => wp_date q < d) pre.
Proof.
  intros S. induction S as [|p r S IH H]; intros (q & I & L); [destruct I|]. cbn [skip_older]. destruct (Z.ltb_spec (wp_date p) d) as [E|E].
  - destruct IH as (p' & r' & pre & E1 & E2 & E3 & E4). { destruct I as [<-|I]; [lia|]. eauto. }
    exists p', r', (p :: pre). rewrite E1, E2. repeat split; auto.
  - exists p, r, []. repeat split; auto.
Qed.
Lemma by_date_app a b : by_date (a ++ b) -> by_date b.
Proof. unfold by_date. induction a; cbn [app]; intros H; [exact H|]. inversion H; auto. Qed.
Lemma weekly_spec ws : forall known all pre, by_date known -> all = pre ++ known -> (forall w q, In w ws -> In q pre -> wp_date q < w) ->
  StronglySorted Z.lt ws -> (forall w, In w ws -> exists q, In q known /\ w <= wp_date q) ->
  exists l, weekly known ws = Ok l /\ Forall2 (first_after all) ws l.
Proof.
  induction ws as [|w ws IH]; intros known all pre S E P W X; cbn [weekly].
  - eexists. split; [reflexivity|constructor].
  - destruct (skip_older_spec w known S (X w (or_introl eq_refl))) as (p & r & pre' & E1 & E2 & E3 & E4). rewrite E1.
    inversion_clear W as [|? ? W1 W2]. subst all. rewrite Forall_forall in W2, E4.
    destruct (IH (p :: r) (pre ++ known) (pre ++ pre')) as (l & L1 & L2).
    + rewrite E2 in S. eapply by_date_app. exact S.
    + rewrite E2, <- app_assoc. reflexivity.
    + intros w' q I J. specialize (W2 w' I). apply in_app_or in J as [J|J]; [apply (P w' q); [right|]; auto|]. specialize (E4 q J). lia.
    + exact W1.
    + intros w' I. destruct (X w' (or_intror I)) as (q & J & K). exists q. split; [|exact K]. rewrite E2 in J. apply in_app_or in J as [J|J]; [|exact J].
      specialize (E4 q J). specialize (W2 w' I). lia.
    + rewrite L1. cbn [bind]. eexists. split; [reflexivity|]. constructor; [|exact L2].
      split; [|split; [exact E3|]].
      * rewrite E2. apply in_or_app. right. apply in_or_app. right. left. reflexivity.
      * intros q J K. rewrite E2 in J. apply in_app_or in J as [J|J]; [specialize (P w q (or_introl eq_refl) J); lia|].
        apply in_app_or in J as [J|J]; [specialize (E4 q J); lia|]. rewrite E2 in S. apply by_date_app in S. inversion S as [|? ? S1 S2]. subst.
        destruct J as [<-|J]; [lia|]. rewrite Forall_forall in S2. apply S2, J.
Qed.

Lemma weeks_from_spec fuel : forall d to, forall w, In w (weeks_from fuel d to) -> exists k, w = d + 7 * k /\ 0 <= k /\ w < to.
Proof.
  induction fuel as [|f IH]; intros d to w I; cbn [weeks_from] in I; [destruct I|]. destruct (Z.ltb_spec d to); [|destruct I].
  destruct I as [<-|I]; [exists 0; lia|]. apply IH in I as (k & -> & K & L). exists (k + 1). lia.
Qed.
Lemma weeks_from_sorted fuel : forall d to, StronglySorted Z.lt (weeks_from fuel d to).
Proof.
  induction fuel as [|f IH]; intros d to; cbn [weeks_from]; [constructor|]. destruct (d <? to); constructor; [apply IH|].
  apply Forall_forall. intros w I. apply weeks_from_spec in I as (k & -> & ? & _). lia.
Qed.
Lemma weeks_from_nth fuel : forall d to k w, nth_error (weeks_from fuel d to) k = Some w -> w = d + 7 * Z.of_nat k.
Proof.
  induction fuel as [|f IH]; intros d to k w I; cbn [weeks_from] in I; [destruct k; discriminate|]. destruct (d <? to); [|destruct k; discriminate].
  destruct k as [|k]; cbn [nth_error] in I; [injection I as <-; lia|]. apply IH in I. lia.
Qed.
Lemma weeks_from_length fuel : forall d to, to - d <= Z.of_nat fuel -> 
  to <= d + 7 * Z.of_nat (List.length (weeks_from fuel d to)) /\ (weeks_from fuel d to <> [] -> d + 7 * (Z.of_nat (List.length (weeks_from fuel d to)) - 1) < to).
Proof.
  induction fuel as [|f IH]; intros d to H; cbn [weeks_from].
  - cbn. split; [lia|congruence].
  - destruct (Z.ltb_spec d to); [|cbn; split; [lia|congruence]]. destruct (IH (d + 7) to ltac:(lia)) as [I1 I2]. cbn [List.length].
    split; [lia|]. intros _. destruct (weeks_from f (d + 7) to); [cbn; lia|]. specialize (I2 ltac:(discriminate)). lia.
Qed.
Lemma sunday_from_range d : d <= sunday_from d <= d + 6.
Proof. unfold sunday_from. pose proof (Z.mod_pos_bound (- weekday d) 7 ltac:(lia)). lia. Qed.

Lemma last_indep {A} (l : list A) x d d' : last (x :: l) d = last (x :: l) d'.
Proof. revert x. induction l as [|y l IH]; intros x; [reflexivity|]. exact (IH y). Qed.
Lemma last_sorted p0 known : by_date (p0 :: known) -> In (last (p0 :: known) p0) (p0 :: known) /\ forall q, In q (p0 :: known) -> wp_date q <= wp_date (last (p0 :: known) p0).
Proof.
  revert p0. induction known as [|a known IH]; intros p0 S; [cbn; split; [auto|]; intros q [<-|[]]; lia|].
  inversion S as [|? ? S1 S2]; subst. destruct (IH a S1) as [I1 I2].
  assert (E : last (p0 :: a :: known) p0 = last (a :: known) a).
  { change (last (p0 :: a :: known) p0) with (last (a :: known) p0). apply last_indep. }
  rewrite E. split; [right; exact I1|]. intros q [<-|J]; [|apply I2, J]. rewrite Forall_forall in S2. apply S2, I1.
Qed.
Lemma forall2_nth {A C} (R : A -> C -> Prop) l l' : Forall2 R l l' -> forall k x, nth_error l' k = Some x -> exists y, nth_error l k = Some y /\ R y x.
Proof. induction 1; intros [|k] z E; cbn [nth_error] in *; try discriminate; eauto. injection E as <-. eauto. Qed.

Lemma index_range from to n d : from < to -> (0 < n)%nat -> (week_index from to n d < n)%nat /\
  (from <= d <= to -> let k := Z.of_nat (week_index from to n d) in
     (2 * k - 1) * (to - from) <= 2 * ((d - from) * (Z.of_nat n - 1)) < (2 * k + 1) * (to - from)).
Proof.
  intros L N. unfold week_index. set (e := Z.min (Z.max d from) to). set (X := (e - from) * (Z.of_nat n - 1)).
  assert (He : from <= e <= to) by lia.
  assert (HX : 0 <= X <= (to - from) * (Z.of_nat n - 1)) by (unfold X; split; [apply Z.mul_nonneg_nonneg; lia|apply Z.mul_le_mono_nonneg_r; lia]).
  set (M := to - from) in *. assert (HM : 0 < M) by lia. assert (Q0 : 0 <= (2 * X + M) / (2 * M)) by (apply Z.div_pos; lia).
  assert (Q1 : (2 * X + M) / (2 * M) < Z.of_nat n) by (apply Z.div_lt_upper_bound; nia).
  split; [lia|]. intros Hd. cbv zeta. assert (Ee : e = d) by lia. rewrite Z2Nat.id by exact Q0.
  pose proof (Z.div_mod (2 * X + M) (2 * M) ltac:(lia)) as DM. pose proof (Z.mod_pos_bound (2 * X + M) (2 * M) ltac:(lia)).
  unfold X in *. rewrite Ee in *. set (q := (2 * ((d - from) * (Z.of_nat n - 1)) + M) / (2 * M)) in *. nia.
Qed.

(** the price used: the first on or after one of the Sundays, and this Sunday is not far away *)
Lemma conversion_spec known d : by_date known -> known <> [] ->
  exists p, conversion_price known d = Ok p /\ In p known /\
    (forall f t, (exists q, In q known /\ wp_date q = f) -> (exists q, In q known /\ wp_date q = t) -> (forall q, In q known -> f <= wp_date q <= t) ->
      f <= d <= t -> exists w, d - 16 <= w <= d + 9 /\ f <= w <= t /\ (first_after known w p \/ w = f /\ wp_date p = f)).
Proof.
  intros S NE. destruct known as [|p0 known]; [congruence|]. clear NE. unfold conversion_price.
  destruct (last_sorted p0 known S) as [L1 L2]. set (z := last (p0 :: known) p0) in *. set (from := wp_date p0). set (to := wp_date z) in *.
  assert (F0 : forall q, In q (p0 :: known) -> from <= wp_date q). { inversion S as [|? ? S1 S2]; subst. rewrite Forall_forall in S2. intros q [<-|J]; [unfold from; lia|apply S2, J]. }
  assert (FT : forall f t, (exists q, In q (p0 :: known) /\ wp_date q = f) -> (exists q, In q (p0 :: known) /\ wp_date q = t) -> (forall q, In q (p0 :: known) -> f <= wp_date q <= t) -> f = from /\ t = to).
  { intros f t (a & A1 & A2) (b & B1 & B2) H. split.
    - specialize (F0 a A1). pose proof (H p0 (or_introl eq_refl)) as G. unfold from in *. lia.
    - specialize (L2 b B1). pose proof (H z L1) as G. fold to in G. lia. }
  pose proof (sunday_from_range from) as SR.
  unfold weeks. destruct (weeks_from_length (Z.to_nat (to - from)) (sunday_from from) to ltac:(lia)) as [W1 W2].
  pose proof (weeks_from_nth (Z.to_nat (to - from)) (sunday_from from) to) as W3.
  pose proof (weeks_from_sorted (Z.to_nat (to - from)) (sunday_from from) to) as W4.
  pose proof (weeks_from_spec (Z.to_nat (to - from)) (sunday_from from) to) as W5.
  destruct (weeks_from (Z.to_nat (to - from)) (sunday_from from) to) as [|w0 ws0] eqn:EW.
  - exists p0. split; [reflexivity|split; [left; reflexivity|]]. intros f t Hf Ht H Hd. destruct (FT f t Hf Ht H) as [-> ->]. exists from.
    cbn [List.length] in W1. split; [lia|split; [specialize (L2 p0 (or_introl eq_refl)); lia|]]. right. auto.
  - rewrite <- EW in *. set (ws := weeks_from _ _ _) in *. assert (NE : ws <> []) by (rewrite EW; discriminate). specialize (W2 NE).
    destruct (weekly_spec ws (p0 :: known) (p0 :: known) [] S eq_refl) as (l & E1 & E2).
    + intros w q _ [].
    + exact W4.
    + intros w I. destruct (W5 w I) as (k & _ & _ & Lw). exists z. split; [exact L1|]. fold to. lia.
    + rewrite E1. cbn [bind]. assert (LN : (0 < List.length ws)%nat) by (rewrite EW; cbn; lia).
      assert (LT : from < to) by lia. destruct (index_range from to (List.length ws) d LT LN) as [X1 X2].
      set (k := week_index from to (List.length ws) d) in *. assert (LL : List.length l = List.length ws) by (clear -E2; induction E2; cbn; congruence).
      destruct (nth_error l k) as [p|] eqn:Ek; [|apply nth_error_None in Ek; lia].
      destruct (forall2_nth _ _ _ E2 k p Ek) as (w & Ew & FA). exists p. split; [reflexivity|split; [apply FA|]].
      intros f t Hf Ht H Hd. destruct (FT f t Hf Ht H) as [-> ->]. exists w. specialize (X2 Hd). cbn zeta in X2. apply W3 in Ew as Ew'. apply nth_error_In in Ew. destruct (W5 w Ew) as (k' & _ & _ & Lw).
      split; [|split; [lia|left; exact FA]].
      set (n := Z.of_nat (List.length ws)) in *. set (K := Z.of_nat k) in *. set (M := to - from) in *. set (y := d - from) in *.
      assert (0 <= y <= M) by lia. assert (Kn : K < n) by lia. assert (0 < M) by lia.
      assert (7 * (n - 1) <= M) by lia. assert (M - 13 <= 7 * (n - 1)) by lia.
      assert (A1 : 7 * (y * (n - 1)) <= y * M) by nia. assert (A2 : y * M - 13 * M <= 7 * (y * (n - 1))) by nia.
      set (T := y * (n - 1)) in *. clearbody T.
      assert (B1 : 14 * K * M - 7 * M <= 2 * (y * M)) by nia. assert (B2 : 2 * (y * M) - 26 * M < 14 * K * M + 7 * M) by nia.
      assert (7 * K <= y + 3) by nia. assert (y - 17 < 7 * K) by nia. lia.
Qed.

(** ** the groups *)
Lemma add_group_fst p l : forall x, In x (map fst (add_group p l)) <-> x = a_com (wp_value p) \/ In x (map fst l).
Proof.
  induction l as [|[c ps] l IH]; intros x; cbn [add_group map fst In]; [intuition|]. destruct (eq_commodity _ c) eqn:E; cbn [map fst In].
  - apply eq_commodity_eq in E. subst. intuition.
  - rewrite IH. intuition.
Qed.
Lemma add_group_nodup p l : NoDup (map fst l) -> NoDup (map fst (add_group p l)).
Proof.
  induction l as [|[c ps] l IH]; cbn [add_group map fst]; intros N; [repeat constructor; intros []|]. inversion N; subst.
  destruct (eq_commodity (a_com (wp_value p)) c) eqn:E; cbn [map fst]; constructor; auto. rewrite add_group_fst. intros [F|F]; [|auto]. subst. rewrite eq_commodity_refl in E. discriminate.
Qed.
Definition of_com (c : commodity) (l : list wprice) : list wprice := filter (fun p => eq_commodity (a_com (wp_value p)) c) l.
Lemma add_group_in p l c ps : NoDup (map fst l) -> In (c, ps) (add_group p l) ->
  (c = a_com (wp_value p) /\ (In c (map fst l) -> exists qs, In (c, qs) l /\ ps = qs ++ [p]) /\ (~ In c (map fst l) -> ps = [p])) \/ (c <> a_com (wp_value p) /\ In (c, ps) l).
Proof.
  induction l as [|[c' qs] l IH]; cbn [add_group map fst]; intros N I.
  - destruct I as [E|[]]. injection E as <- <-. left. split; [reflexivity|split; [intros []|auto]].
  - inversion N; subst. destruct (eq_commodity (a_com (wp_value p)) c') eqn:E.
    + apply eq_commodity_eq in E. destruct I as [I|I].
      * injection I as <- <-. left. split; [auto|split; [intros _; exists qs; split; [left; reflexivity|reflexivity]|]]. intros X. elim X. left. reflexivity.
      * right. split; [|right; exact I]. intros ->. apply (in_map fst) in I. cbn [fst] in I. congruence.
    + apply eq_commodity_neq in E. destruct I as [I|I].
      * injection I as <- <-. right. split; [congruence|left; reflexivity].
      * destruct (IH H2 I) as [(-> & A1 & A2)|(A1 & A2)]; [left|right].
        -- split; [reflexivity|split].
           ++ intros [X|X]; [congruence|]. destruct (A1 X) as (q & Q1 & Q2). exists q. split; [right; exact Q1|exact Q2].
           ++ intros X. apply A2. intros Y. apply X. right. exact Y.
        -- split; [exact A1|right; exact A2].
Qed.
Lemma groups_fold l : forall acc done, NoDup (map fst acc) -> (forall c ps, In (c, ps) acc -> ps = of_com c done) -> (forall x, In x (map fst acc) <-> exists p, In p done /\ a_com (wp_value p) = x) ->
  let r := fold_left (fun l p => add_group p l) l acc in
  NoDup (map fst r) /\ (forall c ps, In (c, ps) r -> ps = of_com c (done ++ l)) /\ (forall x, In x (map fst r) <-> exists p, In p (done ++ l) /\ a_com (wp_value p) = x).
Proof.
  induction l as [|p l IH]; intros acc done N H K; cbn [fold_left]; [rewrite app_nil_r; auto|].
  replace (done ++ p :: l) with ((done ++ [p]) ++ l) by (rewrite <- app_assoc; reflexivity). apply IH.
  - apply add_group_nodup, N.
  - intros c ps I. unfold of_com. rewrite filter_app. cbn [filter]. destruct (add_group_in _ _ _ _ N I) as [(-> & A1 & A2)|(A1 & A2)].
    + rewrite eq_commodity_refl. fold (of_com (a_com (wp_value p)) done). destruct (in_dec commodity_dec (a_com (wp_value p)) (map fst acc)) as [J|J].
      * destruct (A1 J) as (qs & Q & ->). rewrite (H _ _ Q). reflexivity.
      * rewrite (A2 J). assert (E : of_com (a_com (wp_value p)) done = []).
        { destruct (of_com _ done) as [|q r] eqn:E; [reflexivity|]. assert (Iq : In q (of_com (a_com (wp_value p)) done)) by (rewrite E; left; reflexivity).
          apply filter_In in Iq as [Iq Eq]. apply eq_commodity_eq in Eq. elim J. apply K. eauto. }
        rewrite E. reflexivity.
    + replace (eq_commodity (a_com (wp_value p)) c) with false by (symmetry; apply eq_commodity_neq; congruence). rewrite app_nil_r. apply (H _ _ A2).
  - intros x. rewrite add_group_fst, K. split.
    + intros [-> |(q & I & E)]; [exists p; split; [apply in_or_app; right; left; reflexivity|reflexivity]|]. exists q. split; [apply in_or_app; left; exact I|exact E].
    + intros (q & I & E). apply in_app_or in I as [I|[<-|[]]]; [right; eauto|left; auto].
Qed.
Lemma price_groups_spec l : NoDup (map fst (price_groups l)) /\
  (forall c ps, In (c, ps) (price_groups l) -> ps = of_com c (stable_sort (fun a b => wp_date a <? wp_date b) l)) /\
  (forall x, In x (map fst (price_groups l)) <-> exists p, In p l /\ a_com (wp_value p) = x).
Proof.
  destruct (groups_fold (stable_sort (fun a b => wp_date a <? wp_date b) l) [] []) as (A & C & E).
  - constructor.
  - intros c ps [].
  - intros x. split; [intros []|intros (p & [] & _)].
  - cbn [app] in *. split; [exact A|split; [exact C|]]. intros x. unfold price_groups. rewrite E.
    split; intros (p & I & Ep); exists p; split; auto.
    + eapply Permutation_in; [apply Permutation_sym, stable_sort_perm|exact I].
    + eapply Permutation_in; [apply stable_sort_perm|exact I].
Qed.
Lemma first_remembers prices : remembers (fun c => map fst (price_groups (prices c))) (first_ways prices).
Proof.
  intros c. unfold first_ways. destruct (price_groups_spec (prices c)) as (N & _). set (g := price_groups (prices c)) in *.
  assert (E : filter direct (map (fun x : commodity * list wprice => (fst x, [c; fst x])) g) = map (fun x => (fst x, [c; fst x])) g).
  { clear. induction g as [|x g IH]; [reflexivity|]. cbn [map filter]. unfold direct at 1. cbn [snd steps List.length pred Nat.eqb]. rewrite IH. reflexivity. }
  split; [rewrite E, map_map; reflexivity|split; [rewrite map_map; exact N|]].
  apply Forall_forall. intros e I. apply in_map_iff in I as (x & <- & I). cbn [fst snd]. split; [|cbn; lia]. exists []. cbn [app linked]. split; [reflexivity|split; [|exact Logic.I]].
  apply in_map, I.
Qed.
