(** Calendar lemmas. *)
From Verif Require Import Base M_Regex M_Date S_Date L_Calendar.

Lemma leapb_leap y : leapb y = true <-> leap y.
Proof. unfold leapb, leap. split; intros; lia. Qed.
Lemma is_leap_eq y : is_leap y = leapb y.
Proof. unfold is_leap, leapb. lia. Qed.

(** ** day numbers to dates and back *)
Lemma month_days_mdays y m : month_days y m = mdays (leapb y) m.
Proof. reflexivity. Qed.
Lemma go_date_yday y m d : 1 <= m <= 12 -> go_date y m d = days_since_epoch y + yday (leapb y) m d.
Proof.
  intros Hm. unfold go_date, yday. cbv zeta. rewrite is_leap_eq.
  replace ((m - 1) / 12) with 0 by lia. replace ((m - 1) mod 12 + 1) with m by lia. rewrite Z.add_0_r. lia.
Qed.
Lemma civil_inv n : let '(y, m, d) := civil n in valid_date y m d /\ go_date y m d = n.
Proof.
  rewrite civil_split. assert (Hy := year_yday_ok n). destruct (year_yday n) as [y d]. destruct Hy as [En Hd].
  rewrite is_leap_eq. assert (Hc := of_yday_ok (leapb y) d ltac:(lia)). unfold check_yday in Hc.
  destruct (of_yday (leapb y) d) as [m dd]. unfold valid_date. rewrite month_days_mdays.
  assert (Hr : 1 <= m <= 12 /\ 1 <= dd <= mdays (leapb y) m /\ yday (leapb y) m dd = d) by lia.
  destruct Hr as (Hm & Hdd & E). split; [split; assumption|]. rewrite go_date_yday by exact Hm. lia.
Qed.
Lemma go_of_civil n y m d : civil n = (y, m, d) -> go_date y m d = n.
Proof. intros H. assert (G := civil_inv n). rewrite H in G. apply G. Qed.
Lemma civil_valid n : valid_date (year_of n) (month_of n) (day_of n).
Proof. assert (H := civil_inv n). unfold year_of, month_of, day_of. destruct (civil n) as [[y m] d]. apply H. Qed.
Lemma go_date_civil n : go_date (year_of n) (month_of n) (day_of n) = n.
Proof. assert (H := civil_inv n). unfold year_of, month_of, day_of. destruct (civil n) as [[y m] d]. apply H. Qed.

(** ** normalisation *)
Lemma go_date_day y m d e : go_date y m (d + e) = go_date y m d + e.
Proof. unfold go_date. cbv zeta. lia. Qed.
Lemma go_date_month12 y m d k : go_date y (m + 12 * k) d = go_date (y + k) m d.
Proof.
  unfold go_date. cbv zeta. replace (m + 12 * k - 1) with (m - 1 + k * 12) by lia.
  rewrite Z.div_add, Z.mod_add by lia. replace (y + ((m - 1) / 12 + k)) with (y + k + (m - 1) / 12) by lia. reflexivity.
Qed.
Lemma month_days_range y m : 28 <= month_days y m <= 31.
Proof. unfold month_days; repeat match goal with |- context[if ?b then _ else _] => destruct b end; lia. Qed.
Lemma valid_first y m : 1 <= m <= 12 -> valid_date y m 1.
Proof. intros. assert (H' := month_days_range y m). unfold valid_date. lia. Qed.
Lemma yday_next (lp : bool) m : 1 <= m <= 11 -> yday lp (m + 1) 1 = yday lp m 1 + mdays lp m.
Proof.
  intros Hm. assert (C : m = 1 \/ m = 2 \/ m = 3 \/ m = 4 \/ m = 5 \/ m = 6 \/ m = 7 \/ m = 8 \/ m = 9 \/ m = 10 \/ m = 11) by lia.
  destruct lp; repeat (destruct C as [->|C]; [reflexivity|]); subst; reflexivity.
Qed.
Lemma go_date_next_month y m : 1 <= m <= 12 -> go_date y (m + 1) 1 = go_date y m 1 + month_days y m.
Proof.
  intros Hm. rewrite (go_date_yday y m) by lia. rewrite month_days_mdays.
  destruct (Z.eq_dec m 12) as [->|Hne].
  - change (12 + 1) with (1 + 12 * 1). rewrite go_date_month12, go_date_yday, dse_step by lia.
    assert (E1 : forall b, yday b 1 1 = 0) by (intros []; reflexivity).
    assert (E2 : forall b, yday b 12 1 = if b then 335 else 334) by (intros []; reflexivity).
    rewrite E1, E2. change (mdays (leapb y) 12) with 31. destruct (leapb y); lia.
  - rewrite go_date_yday by lia. rewrite yday_next by lia. lia.
Qed.

(** ** month numbering *)
Definition mstart (k : Z) : Z := go_date 0 (k + 1) 1.
Lemma mstart_ym y m : go_date y m 1 = mstart (12 * y + m - 1).
Proof. unfold mstart. replace (12 * y + m - 1 + 1) with (m + 12 * y) by lia. rewrite go_date_month12. reflexivity. Qed.
Lemma mstart_step k : mstart k + 28 <= mstart (k + 1) <= mstart k + 31.
Proof.
  assert (H1 := go_date_next_month (k / 12) (k mod 12 + 1) ltac:(lia)).
  rewrite !mstart_ym in H1. assert (Hr := month_days_range (k / 12) (k mod 12 + 1)).
  replace (12 * (k / 12) + (k mod 12 + 1 + 1) - 1) with (k + 1) in H1 by lia.
  replace (12 * (k / 12) + (k mod 12 + 1) - 1) with k in H1 by lia. lia.
Qed.
Lemma mstart_add k n : mstart k + 28 * Z.of_nat n <= mstart (k + Z.of_nat n) <= mstart k + 31 * Z.of_nat n.
Proof.
  induction n as [|n IH]; [replace (k + Z.of_nat 0) with k by lia; lia|].
  assert (H := mstart_step (k + Z.of_nat n)). replace (k + Z.of_nat (S n)) with (k + Z.of_nat n + 1) by lia. lia.
Qed.
Lemma mstart_mono k k' : k <= k' -> mstart k <= mstart k'.
Proof. intros. assert (H' := mstart_add k (Z.to_nat (k' - k))). replace (k + Z.of_nat (Z.to_nat (k' - k))) with k' in H' by lia. lia. Qed.
Lemma mstart_lt k k' : k < k' -> mstart k < mstart k'.
Proof. intros. assert (H' := mstart_add k (Z.to_nat (k' - k))). replace (k + Z.of_nat (Z.to_nat (k' - k))) with k' in H' by lia. lia. Qed.
(** month number of a day *)
Definition mi (t : Z) : Z := 12 * year_of t + month_of t - 1.
Lemma mi_bounds t : mstart (mi t) <= t < mstart (mi t + 1).
Proof.
  assert (Hv := civil_valid t). assert (Hg := go_date_civil t). destruct Hv as [Hm Hd].
  assert (Hn := go_date_next_month (year_of t) (month_of t) Hm). rewrite !mstart_ym in Hn.
  unfold mi. replace (12 * year_of t + month_of t - 1 + 1) with (12 * year_of t + (month_of t + 1) - 1) by lia.
  rewrite Hn. rewrite <- mstart_ym. replace (day_of t) with (1 + (day_of t - 1)) in Hg by lia. rewrite go_date_day in Hg. lia.
Qed.
Lemma mi_unique t k : mstart k <= t < mstart (k + 1) -> mi t = k.
Proof.
  intros H. assert (H' := mi_bounds t).
  destruct (Z.lt_trichotomy (mi t) k) as [L|[E|L]]; [|exact E|].
  - assert (mstart (mi t + 1) <= mstart k) by (apply mstart_mono; lia). lia.
  - assert (mstart (k + 1) <= mstart (mi t)) by (apply mstart_mono; lia). lia.
Qed.
Lemma mi_mono t t' : t <= t' -> mi t <= mi t'.
Proof.
  intros H. assert (H1 := mi_bounds t). assert (H2 := mi_bounds t').
  destruct (Z.le_gt_cases (mi t) (mi t')) as [L|L]; [exact L|].
  assert (mstart (mi t' + 1) <= mstart (mi t)) by (apply mstart_mono; lia). lia.
Qed.
Lemma mi_mstart k : mi (mstart k) = k.
Proof. apply mi_unique. assert (H := mstart_step k). lia. Qed.
Lemma mi_year t : year_of t = mi t / 12.
Proof. assert (H := civil_valid t). destruct H as [H _]. unfold mi. lia. Qed.
Lemma mi_month t : month_of t = mi t mod 12 + 1.
Proof. assert (H := civil_valid t). destruct H as [H _]. unfold mi. lia. Qed.


(** ** dates to day numbers and back *)
Lemma go_date_mstart y m d : go_date y m d = mstart (12 * y + m - 1) + (d - 1).
Proof. rewrite <- mstart_ym. replace d with (1 + (d - 1)) at 1 by lia. apply go_date_day. Qed.
Lemma mi_go y m d : valid_date y m d -> mi (go_date y m d) = 12 * y + m - 1.
Proof.
  intros [Hm Hd]. apply mi_unique. assert (H := go_date_next_month y m Hm). rewrite !mstart_ym in H.
  replace (12 * y + (m + 1) - 1) with (12 * y + m - 1 + 1) in H by lia. rewrite go_date_mstart. lia.
Qed.
Lemma civil_parts n : civil n = (year_of n, month_of n, day_of n).
Proof. unfold year_of, month_of, day_of. destruct (civil n) as [[a b] c]. reflexivity. Qed.
Lemma civil_unique n y m d : valid_date y m d -> go_date y m d = n -> civil n = (y, m, d).
Proof.
  intros Hv E. assert (Hmi := mi_go _ _ _ Hv). rewrite E in Hmi. rewrite go_date_mstart in E.
  assert (Hv' := civil_valid n). assert (Hg := go_date_civil n). rewrite go_date_mstart in Hg. unfold mi in Hmi.
  destruct Hv as [Hm Hd], Hv' as [Hm' Hd'].
  assert (Ey : year_of n = y) by lia. assert (Em : month_of n = m) by lia.
  rewrite Ey, Em in Hg. assert (Ed : day_of n = d) by lia.
  rewrite civil_parts, Ey, Em, Ed. reflexivity.
Qed.
Lemma civil_go_date y m d : valid_date y m d -> civil (go_date y m d) = (y, m, d).
Proof. intros Hv. apply civil_unique; [exact Hv|reflexivity]. Qed.
Lemma year_go y m d : valid_date y m d -> year_of (go_date y m d) = y.
Proof. intros H. unfold year_of. rewrite civil_go_date by exact H. reflexivity. Qed.
Lemma month_go y m d : valid_date y m d -> month_of (go_date y m d) = m.
Proof. intros H. unfold month_of. rewrite civil_go_date by exact H. reflexivity. Qed.
Lemma day_go y m d : valid_date y m d -> day_of (go_date y m d) = d.
Proof. intros H. unfold day_of. rewrite civil_go_date by exact H. reflexivity. Qed.
Lemma day_mstart k : day_of (mstart k) = 1.
Proof.
  assert (E : mstart k = go_date (k / 12) (k mod 12 + 1) 1).
  { rewrite mstart_ym. f_equal. lia. }
  rewrite E. apply day_go. apply valid_first. lia.
Qed.
Lemma civil_ok n : let '(y, m, d) := civil n in
  valid_date y m d /\ go_date y m d = n /\ civil (n + 1) = next_day (y, m, d).
Proof.
  assert (H := civil_inv n). destruct (civil n) as [[y m] d]. destruct H as [Hv Hg].
  split; [exact Hv|]. split; [exact Hg|]. destruct Hv as [Hm Hd]. assert (Hr := month_days_range y m).
  unfold next_day. destruct (d <? month_days y m) eqn:E1; [|destruct (m <? 12) eqn:E2].
  - rewrite <- Hg, <- go_date_day. apply civil_go_date. unfold valid_date. lia.
  - assert (Hn := go_date_next_month y m Hm). rewrite go_date_mstart in Hg. rewrite !go_date_mstart in Hn.
    replace (n + 1) with (go_date y (m + 1) 1) by (rewrite go_date_mstart; lia). apply civil_go_date, valid_first. lia.
  - assert (m = 12) by lia. subst m. assert (Hn := go_date_next_month y 12 Hm). rewrite go_date_mstart in Hg. rewrite !go_date_mstart in Hn.
    replace (n + 1) with (go_date (y + 1) 1 1).
    + apply civil_go_date, valid_first. lia.
    + rewrite <- (go_date_month12 y 1 1 1). change (1 + 12 * 1) with (12 + 1). rewrite go_date_mstart. lia.
Qed.

(** ** reducers *)
Lemma add_days t o : add_date t 0 0 o = t + o.
Proof. unfold add_date. rewrite !Z.add_0_r. rewrite go_date_day, go_date_civil. reflexivity. Qed.
Lemma reduce_week_eq t : reduce_week t = t - weekday t.
Proof. unfold reduce_week. rewrite add_days, go_date_civil. lia. Qed.
Lemma reduce_month_eq t : reduce_month t = mstart (mi t).
Proof. unfold reduce_month. rewrite mstart_ym. reflexivity. Qed.
Lemma reduce_quarter_eq t : reduce_quarter t = mstart (3 * (mi t / 3)).
Proof.
  unfold reduce_quarter. rewrite mstart_ym. f_equal. assert (H := civil_valid t). destruct H as [H _]. unfold mi. lia.
Qed.
Lemma reduce_year_eq t : reduce_year t = mstart (12 * (mi t / 12)).
Proof. unfold reduce_year. rewrite mstart_ym. f_equal. rewrite mi_year. lia. Qed.
