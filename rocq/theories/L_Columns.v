(** Lemmas for the columns of subaccounts. *)
From Coq Require Import Permutation Sorted.
From Verif Require Import Base M_Amount S_Amount L_Amount M_Date L_Date M_Names M_Ledger M_Web M_Page M_Views S_Views L_Views L_Views2 M_Ui S_Ui L_Ui M_Columns.
Local Open Scope Z_scope.

(** ** slices *)
Lemma slices_join {A} n (l : list A) : n <> 0 -> n < Z.of_nat (List.length l) -> removelast (slice_to (Some n) l) ++ slice_from (n - 1) l = l.
Proof.
  intros Hn Hl. unfold slice_to, slice_from. destruct (Z.leb_spec 0 n).
  - destruct (Z.leb_spec 0 (n - 1)); [|lia]. replace (Z.to_nat n) with (S (Z.to_nat (n - 1))) by lia. rewrite removelast_firstn by lia. apply firstn_skipn.
  - destruct (Z.leb_spec 0 (n - 1)); [lia|]. replace (Z.to_nat (- (n - 1))) with (S (Z.to_nat (- n))) by lia. set (k := Z.to_nat (- n)).
    destruct (le_lt_dec (List.length l) k).
    + replace (List.length l - k)%nat with 0%nat by lia. replace (List.length l - S k)%nat with 0%nat by lia. reflexivity.
    + replace (List.length l - k)%nat with (S (List.length l - S k)) by lia. rewrite removelast_firstn by lia. apply firstn_skipn.
Qed.
Lemma map_removelast {A C} (f : A -> C) l : map f (removelast l) = removelast (map f l).
Proof. induction l as [|x [|y r] IH]; [reflexivity|reflexivity|]. change (removelast (x :: y :: r)) with (x :: removelast (y :: r)). cbn [map] in *. rewrite IH. reflexivity. Qed.

(** ** how many periods *)
Definition gap_min (k : interval) : Z := match k with Weekly => 7 | Monthly => 28 | Quarterly => 84 | Yearly => 336 end.
Definition gap_max (k : interval) : Z := match k with Weekly => 7 | Monthly => 31 | Quarterly => 93 | Yearly => 372 end.
Lemma mstart_more a n : 0 <= n -> mstart a + 28 * n <= mstart (a + n) <= mstart a + 31 * n.
Proof. intros H. pose proof (mstart_add a (Z.to_nat n)) as X. rewrite Z2Nat.id in X by lia. exact X. Qed.
Lemma floor_gap_min k x y : floor_day k x = x -> floor_day k y = y -> x < y -> x + gap_min k <= y.
Proof.
  rewrite !floor_eq. intros Hx Hy L. destruct k; cbn [gap_min].
  - unfold weekday in *. lia.
  - assert (mi x < mi y) by (destruct (Z_lt_ge_dec (mi x) (mi y)); [assumption|]; pose proof (mstart_mono (mi y) (mi x)); lia).
    pose proof (mstart_more (mi x) 1 ltac:(lia)). pose proof (mstart_mono (mi x + 1) (mi y)). lia.
  - assert (mi x / 3 < mi y / 3) by (destruct (Z_lt_ge_dec (mi x / 3) (mi y / 3)); [assumption|]; pose proof (mstart_mono (3 * (mi y / 3)) (3 * (mi x / 3))); lia).
    pose proof (mstart_more (3 * (mi x / 3)) 3 ltac:(lia)). pose proof (mstart_mono (3 * (mi x / 3) + 3) (3 * (mi y / 3))). lia.
  - assert (mi x / 12 < mi y / 12) by (destruct (Z_lt_ge_dec (mi x / 12) (mi y / 12)); [assumption|]; pose proof (mstart_mono (12 * (mi y / 12)) (12 * (mi x / 12))); lia).
    pose proof (mstart_more (12 * (mi x / 12)) 12 ltac:(lia)). pose proof (mstart_mono (12 * (mi x / 12) + 12) (12 * (mi y / 12))). lia.
Qed.
Lemma floor_near k d : d - gap_max k < floor_day k d <= d.
Proof.
  split; [|apply floor_le]. rewrite floor_eq. pose proof (mi_bounds d) as B. destruct k; cbn [gap_max].
  - unfold weekday. lia.
  - pose proof (mstart_more (mi d) 1 ltac:(lia)). lia.
  - pose proof (mstart_more (3 * (mi d / 3)) 3 ltac:(lia)). pose proof (mstart_mono (mi d + 1) (3 * (mi d / 3) + 3)). lia.
  - pose proof (mstart_more (12 * (mi d / 12)) 12 ltac:(lia)). pose proof (mstart_mono (mi d + 1) (12 * (mi d / 12) + 12)). lia.
Qed.
Lemma sorted_span g l : 0 < g -> StronglySorted Z.lt l -> (forall x y, In x l -> In y l -> x < y -> x + g <= y) ->
  forall a b, In a l -> (forall x, In x l -> a <= x <= b) -> g * (Z.of_nat (List.length l) - 1) <= b - a.
Proof.
  intros Hg S. induction S as [|x r S IH F]; intros G a b Ia Hb; [destruct Ia|]. cbn [List.length]. destruct r as [|y r].
  - cbn [List.length]. specialize (Hb x (or_introl eq_refl)). lia.
  - assert (Ea : a <= x) by (apply Hb; left; reflexivity). assert (Hxy : x + g <= y).
    { apply G; [left; reflexivity|right; left; reflexivity|]. inversion F; assumption. }
    specialize (IH (fun u v Iu Iv => G u v (or_intror Iu) (or_intror Iv)) y b (or_introl eq_refl)).
    assert (forall u, In u (y :: r) -> y <= u <= b).
    { intros u Iu. split; [|apply Hb; right; exact Iu]. destruct Iu as [<-|Iu]; [lia|]. inversion S as [|? ? ? F2]; subst. rewrite Forall_forall in F2. specialize (F2 u Iu). lia. }
    specialize (IH H). lia.
Qed.
Lemma ticks_few mid k start stop : zone_ok mid -> ticks mid k start stop <> [] -> gap_min k * (Z.of_nat (List.length (ticks mid k start stop)) - 1) * 1440 < stop - start + 2 * 1440.
Proof.
  intros Z N. pose proof (ticks_sorted mid k start stop) as S. destruct (ticks mid k start stop) as [|a r] eqn:E; [congruence|]. rewrite <- E in *.
  assert (I : forall d, In d (ticks mid k start stop) -> floor_day k d = d /\ start <= mid d < stop) by (intros d; apply (ticks_in mid k start stop d Z)).
  assert (Ia : In a (ticks mid k start stop)) by (rewrite E; left; reflexivity).
  assert (Lo : forall x, In x (ticks mid k start stop) -> a <= x).
  { intros x Ix. rewrite E in Ix, S. destruct Ix as [<-|Ix]; [lia|]. inversion S as [|? ? ? F]; subst. rewrite Forall_forall in F. specialize (F x Ix). lia. }
  pose (b := fold_right Z.max a (ticks mid k start stop)).
  assert (Hb : (forall x, In x (ticks mid k start stop) -> x <= b) /\ (b = a \/ In b (ticks mid k start stop))).
  { unfold b. clear. induction (ticks mid k start stop) as [|x l [IH1 IH2]]; cbn [fold_right In]; [tauto|]. split.
    - intros y [<-|Iy]; [lia|]. specialize (IH1 y Iy). lia.
    - destruct (Z.max_spec x (fold_right Z.max a l)) as [[_ ->]|[_ ->]]; [tauto|tauto]. }
  destruct Hb as [Hb Hin]. assert (Ib : In b (ticks mid k start stop)) by (destruct Hin as [->|H]; assumption).
  assert (Gp : 0 < gap_min k) by (destruct k; cbn; lia).
  pose proof (sorted_span (gap_min k) _ Gp S (fun x y Ix Iy => floor_gap_min k x y (proj1 (I x Ix)) (proj1 (I y Iy))) a b Ia (fun x Ix => conj (Lo x Ix) (Hb x Ix))) as X.
  destruct (I a Ia) as [_ Ra]. destruct (I b Ib) as [_ Rb]. pose proof (proj1 Z a). pose proof (proj1 Z b). lia.
Qed.
Lemma ticks_some mid k start stop : zone_ok mid -> (gap_max k + 2) * 1440 <= stop - start -> ticks mid k start stop <> [].
Proof.
  intros Z H. set (d := floor_day k (start / 1440 + gap_max k + 1)). pose proof (floor_near k (start / 1440 + gap_max k + 1)) as N. fold d in N.
  assert (I : In d (ticks mid k start stop)).
  { apply (ticks_in mid k start stop d Z). split; [apply floor_idem|]. pose proof (proj1 Z d). pose proof (Z.div_mod start 1440 ltac:(lia)). pose proof (Z.mod_pos_bound start 1440 ltac:(lia)). lia. }
  intros E. rewrite E in I. destruct I.
Qed.
