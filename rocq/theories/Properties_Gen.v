(** Generated ledgers (cmd/gen2coin): C59-C61, C63, C73. *)
From Coq Require Import Permutation Sorted.
From Verif Require Import Base M_Amount S_Decimal S_Amount M_Date S_Date S_DateText L_Dec L_Calendar L_Date L_DateText L_Sort M_Parser M_Ledger S_Books L_Registers L_Amount L_Resolve2 L_Move M_Gen S_Gen L_Gen L_Gen2.

(** ** C59 *)
Lemma week_start_add d p j : 0 <= p <= 6 -> weekday d = 0 -> week_start (d + (7 * j + p)) = d + 7 * j /\ weekday (d + (7 * j + p)) = p.
Proof. unfold week_start, weekday. lia. Qed.
Lemma sunday t : day_no (t_add t 0 0 (- weekday (day_no t))) = week_start (day_no t) /\
  clock (t_add t 0 0 (- weekday (day_no t))) = clock t /\ weekday (week_start (day_no t)) = 0 /\
  t_add t 0 0 (- weekday (day_no t)) = day_secs * week_start (day_no t) + clock t.
Proof.
  rewrite t_add_days, day_no_add, clock_add. unfold week_start. split; [lia|]. split; [reflexivity|]. split; [unfold weekday; lia|].
  destruct (day_clock t) as [E _]. unfold day_secs in *. lia.
Qed.
(** the rounds of weekly in terms of days *)
Lemma weekly_spec rnd k count interval days begin end_ :
  let want := match days with [] => anyday | _ => days end in
  let step := Z.max 1 interval in
  let w := week_start (day_no begin) in
  exists (n : nat) (P : nat -> list Z),
    (forall j, (j < n)%nat <-> day_secs * (w + 7 * step * Z.of_nat j) + clock begin < end_) /\
    (forall j, picked count want (P j) /\ (count < Z.of_nat (List.length want) -> StronglySorted Z.le (P j))) /\
    weekly rnd k count interval days begin end_ =
    flat_map (fun j => filter (in_range begin end_) (map (fun p => day_secs * (w + (7 * (step * Z.of_nat j) + p)) + clock begin) (P j))) (seq 0 n).
Proof.
  intros want step w. unfold weekly. fold want. assert (Es : (if interval <? 1 then 1 else interval) = step) by (unfold step; destruct (Z.ltb_spec interval 1); lia). rewrite Es. clear Es.
  destruct (sunday begin) as (_ & _ & _ & E0). rewrite E0. fold w.
  destruct (weekly_rounds rnd count step want begin end_ ltac:(unfold step; lia) (S (Z.to_nat (end_ - (day_secs * w + clock begin)))) k (day_secs * w + clock begin) ltac:(lia))
    as (n & P & Hn & HP & E).
  exists n, P. split; [|split; [exact HP|]].
  - intros j. rewrite Hn. unfold day_secs. lia.
  - rewrite E. rewrite !flat_map_concat_map. f_equal. apply map_ext. intros j. f_equal. apply map_ext. intros p. unfold day_secs. lia.
Qed.
Definition weekdays (days : list Z) : Prop := Forall (fun p => 0 <= p <= 6) days.
Lemma want_weekdays days : weekdays days -> weekdays (match days with [] => anyday | _ => days end).
Proof. intros H. destruct days; [|exact H]. unfold anyday, weekdays. repeat (apply Forall_cons; [lia|]). constructor. Qed.

(** every generated date lies between begin and end, at begin's clock time, on a requested weekday (any day if none are
    given), in a week that is a multiple of [interval] weeks after the week of [begin] *)
Theorem C59_weekly_dates : forall rnd k count interval days begin end_ t, weekdays days ->
  In t (weekly rnd k count interval days begin end_) ->
  begin <= t <= end_ /\ clock t = clock begin /\ (days = [] \/ In (weekday (day_no t)) days) /\
  exists j, 0 <= j /\ week_start (day_no t) = week_start (day_no begin) + 7 * (Z.max 1 interval * j).
Proof.
  intros rnd k count interval days begin end_ t Hd Ht.
  destruct (weekly_spec rnd k count interval days begin end_) as (n & P & Hn & HP & E). rewrite E in Ht. clear E.
  apply in_flat_map in Ht as (j & Hj & Ht). apply filter_In in Ht as [Ht Hr]. apply in_map_iff in Ht as (p & <- & Hp).
  destruct (HP j) as [Hpk _]. apply (picked_in _ _ _ _ Hpk) in Hp.
  destruct (sunday begin) as (_ & _ & Hw & _). destruct (day_clock begin) as [_ Hc].
  assert (Hp6 : 0 <= p <= 6) by (apply want_weekdays in Hd; unfold weekdays in Hd; rewrite Forall_forall in Hd; auto).
  rewrite day_no_make, clock_make by exact Hc.
  destruct (week_start_add (week_start (day_no begin)) p (Z.max 1 interval * Z.of_nat j) Hp6 Hw) as [E1 E2]. rewrite E1, E2.
  split; [unfold in_range in Hr; lia|]. split; [reflexivity|]. split; [destruct days; [left; reflexivity|right; exact Hp]|].
  exists (Z.of_nat j). lia.
Qed.
Print Assumptions C59_weekly_dates.

Lemma week_filter rnd k count interval days begin end_ w : weekdays days ->
  (exists n P j, (forall i, (i < n)%nat <-> day_secs * (week_start (day_no begin) + 7 * Z.max 1 interval * Z.of_nat i) + clock begin < end_) /\
     w = week_start (day_no begin) + 7 * (Z.max 1 interval * Z.of_nat j) /\ picked count (match days with [] => anyday | _ => days end) (P j) /\
     filter (fun t => week_start (day_no t) =? w) (weekly rnd k count interval days begin end_) =
     if (j <? n)%nat then filter (in_range begin end_) (map (fun p => day_secs * (w + p) + clock begin) (P j)) else []) \/
  ((forall j, 0 <= j -> w <> week_start (day_no begin) + 7 * (Z.max 1 interval * j)) /\
   filter (fun t => week_start (day_no t) =? w) (weekly rnd k count interval days begin end_) = []).
Proof.
  intros Hd. destruct (weekly_spec rnd k count interval days begin end_) as (n & P & Hn & HP & E).
  set (s := Z.max 1 interval) in *. set (w0 := week_start (day_no begin)) in *.
  destruct (day_clock begin) as [_ Hc]. destruct (sunday begin) as (_ & _ & Hw & _). fold w0 in Hw.
  assert (Htag : forall i x, In x (filter (in_range begin end_) (map (fun p => day_secs * (w0 + (7 * (s * Z.of_nat i) + p)) + clock begin) (P i))) ->
                   week_start (day_no x) = w0 + 7 * (s * Z.of_nat i)).
  { intros i x Hx. apply filter_In in Hx as [Hx _]. apply in_map_iff in Hx as (p & <- & Hp).
    rewrite day_no_make by exact Hc. apply week_start_add; [|exact Hw].
    destruct (HP i) as [Hpk _]. apply (picked_in _ _ _ _ Hpk) in Hp. apply want_weekdays in Hd. unfold weekdays in Hd. rewrite Forall_forall in Hd. auto. }
  destruct (Z.eq_dec ((w - w0) mod (7 * s)) 0) as [D|D].
  2:{ right. assert (Hne : forall j, 0 <= j -> w <> w0 + 7 * (s * j)).
      { intros j _ ->. apply D. replace (w0 + 7 * (s * j) - w0) with (j * (7 * s)) by lia. apply Z.mod_mul. lia. }
      split; [exact Hne|]. rewrite E. clear E. induction (seq 0 n) as [|i l IH]; [reflexivity|]. cbn [flat_map]. rewrite filter_app, IH, app_nil_r.
      apply filter_none. intros x Hx. apply Htag in Hx. rewrite Hx. specialize (Hne (Z.of_nat i)). lia. }
  set (q := (w - w0) / (7 * s)). assert (Eq : w = w0 + 7 * (s * q)).
  { subst q. assert (H := Z.div_mod (w - w0) (7 * s) ltac:(lia)). lia. }
  destruct (Z.lt_ge_cases q 0) as [Lq|Lq].
  { right. assert (Hne : forall j, 0 <= j -> w <> w0 + 7 * (s * j)) by (intros j Hj; nia).
    split; [exact Hne|]. rewrite E. clear E. induction (seq 0 n) as [|i l IH]; [reflexivity|]. cbn [flat_map]. rewrite filter_app, IH, app_nil_r.
    apply filter_none. intros x Hx. apply Htag in Hx. rewrite Hx. specialize (Hne (Z.of_nat i)). lia. }
  left. exists n, P, (Z.to_nat q). assert (Ez : Z.of_nat (Z.to_nat q) = q) by lia.
  split; [exact Hn|]. split; [rewrite Ez; exact Eq|]. split; [apply HP|].
  rewrite E. assert (HF := filter_rounds _ (fun x => week_start (day_no x)) (fun i => w0 + 7 * (s * Z.of_nat i)) Htag ltac:(cbv beta; intros; nia) (Z.to_nat q) n 0%nat).
  cbv beta in HF. rewrite Ez in HF. rewrite <- Eq in HF. rewrite HF. cbn [Nat.leb andb]. change (0 + n)%nat with n.
  replace (0 <=? Z.to_nat q)%nat with true by lia. cbn [andb].
  destruct (Z.to_nat q <? n)%nat; [|reflexivity]. f_equal. apply map_ext. intros p. f_equal. f_equal. lia.
Qed.
Lemma filter_len {A} (f : A -> bool) l : (List.length (filter f l) <= List.length l)%nat.
Proof. induction l as [|x l IH]; cbn; [lia|]. destruct (f x); cbn; lia. Qed.
(** no week gets more than [count] dates *)
Theorem C59_weekly_count : forall rnd k count interval days begin end_ w, weekdays days ->
  Z.of_nat (List.length (filter (fun t => week_start (day_no t) =? w) (weekly rnd k count interval days begin end_))) <= Z.max 0 count.
Proof.
  intros rnd k count interval days begin end_ w Hd.
  destruct (week_filter rnd k count interval days begin end_ w Hd) as [(n & P & j & _ & _ & Hp & E)|[_ E]]; rewrite E; [|cbn; lia].
  destruct (j <? n)%nat; [|cbn; lia].
  assert (H := filter_len (in_range begin end_) (map (fun p => day_secs * (w + p) + clock begin) (P j))). rewrite map_length in H.
  assert (H' := picked_length _ _ _ Hp). lia.
Qed.
Print Assumptions C59_weekly_count.

(** ascending, if the requested days are given in ascending order (Sunday first), or the days are picked at random *)
Theorem C59_weekly_ascending_partial : forall rnd k count interval days begin end_, weekdays days ->
  StronglySorted Z.lt days \/ (NoDup days /\ count < Z.of_nat (List.length days)) ->
  StronglySorted Z.lt (weekly rnd k count interval days begin end_).
Proof.
  intros rnd k count interval days begin end_ Hd Hs.
  destruct (weekly_spec rnd k count interval days begin end_) as (n & P & Hn & HP & E). rewrite E. clear E.
  set (s := Z.max 1 interval) in *. set (w0 := week_start (day_no begin)) in *. destruct (day_clock begin) as [_ Hc].
  apply sorted_rounds with (lo := fun j => day_secs * (w0 + 7 * (s * Z.of_nat j)) + clock begin).
  - auto.
  - intros j. apply sorted_filter. apply sorted_map_lt; [unfold day_secs; intros; lia|].
    destruct (HP j) as [Hpk Hso]. set (want := match days with [] => anyday | _ => days end) in *.
    assert (Hwant : StronglySorted Z.lt want \/ (NoDup want /\ count < Z.of_nat (List.length want))).
    { subst want. destruct days; [|exact Hs]. left. unfold anyday. repeat (apply SSorted_cons; [|repeat (apply Forall_cons; [lia|]); constructor]). constructor. }
    assert (Hnd : NoDup want).
    { destruct Hwant as [H|[H _]]; [|exact H]. clear -H. induction H as [|x r _ IH HF]; constructor; [|exact IH].
      intros C. rewrite Forall_forall in HF. specialize (HF x C). lia. }
    destruct (Z.lt_ge_cases count (Z.of_nat (List.length want))) as [L|L].
    + apply sorted_le_nodup; [apply Hso, L|]. eapply picked_nodup; [exact Hpk|exact Hnd].
    + destruct Hpk as [[_ ->]|[C _]]; [|lia]. destruct Hwant as [H|[_ H]]; [exact H|lia].
  - intros j x Hx. apply filter_In in Hx as [Hx _]. apply in_map_iff in Hx as (p & <- & Hp).
    destruct (HP j) as [Hpk _]. apply (picked_in _ _ _ _ Hpk) in Hp.
    assert (Hp6 : 0 <= p <= 6) by (apply want_weekdays in Hd; unfold weekdays in Hd; rewrite Forall_forall in Hd; auto).
    assert (Hs1 : 1 <= s) by (unfold s; lia). unfold day_secs. nia.
  - intros j. unfold day_secs. nia.
Qed.
Print Assumptions C59_weekly_ascending_partial.
(** weekly(2, 1, Friday, Tuesday) gives the Friday of a week before its Tuesday *)
Theorem C59_weekly_ascending_refuted : ~ (forall rnd k count interval days begin end_, weekdays days ->
  StronglySorted Z.le (weekly rnd k count interval days begin end_)).
Proof.
  intros H. specialize (H (fun _ => O) O 2 1 [5; 2] 0 (day_secs * 6) ltac:(repeat (apply Forall_cons; [lia|]); constructor)).
  vm_compute in H. inversion H as [|? ? _ HF]; subst. rewrite Forall_forall in HF. specialize (HF 86400 (or_introl eq_refl)). exact (HF eq_refl).
Qed.
Print Assumptions C59_weekly_ascending_refuted.
(** 2020-12-17 .. 2021-01-13, Tuesdays and Fridays every other week (dates_test.go) *)
Example C59_weekly_example : let d y m n := day_secs * go_date y m n in
  weekdays [2; 5] /\ StronglySorted Z.lt [2; 5] /\
  weekly (fun _ => O) O 2 2 [2; 5] (d 2020 12 17) (d 2021 1 13) = [d 2020 12 18; d 2020 12 29; d 2021 1 1; d 2021 1 12].
Proof.
  split; [repeat (apply Forall_cons; [lia|]); constructor|]. split; [repeat (apply SSorted_cons; [|repeat (apply Forall_cons; [lia|]); constructor]); constructor|].
  vm_compute. reflexivity.
Qed.

(** *** monthly *)
Lemma month_size_days t : month_size (mi t) = month_days (year_of t) (month_of t).
Proof.
  destruct (civil_valid t) as [Hm _]. assert (H := go_date_next_month (year_of t) (month_of t) Hm).
  rewrite !mstart_ym in H. unfold month_size. assert (E : mi t = 12 * year_of t + month_of t - 1) by reflexivity.
  replace (mi t + 1) with (12 * year_of t + (month_of t + 1) - 1) by lia. rewrite H. rewrite E. lia.
Qed.
Lemma named_arith a b d md p t : a <= t < b -> d = t - a + 1 -> b - a = md ->
  ((if p <=? 0 then b + p else a + (p - 1)) = t <-> (1 <= p /\ d = p) \/ (p <= -1 /\ d = md + 1 + p)).
Proof. intros. destruct (Z.leb_spec p 0); lia. Qed.
Lemma is_named_day t p : named_day (mi t) p = t <-> is_named (year_of t) (month_of t) (day_of t) p.
Proof.
  unfold named_day, is_named.
  apply (named_arith (mstart (mi t)) (mstart (mi t + 1)) (day_of t) (month_days (year_of t) (month_of t)) p t).
  - apply mi_bounds.
  - apply day_of_eq.
  - rewrite <- month_size_days. unfold month_size. reflexivity.
Qed.
Lemma month_number_mi t : month_number t = mi t.
Proof. reflexivity. Qed.
Lemma month_of_number t t' : mi t = mi t' -> year_of t = year_of t' /\ month_of t = month_of t'.
Proof. intros E. rewrite !mi_year, !mi_month, E. auto. Qed.
(** the rounds of monthly *)
Lemma monthly_spec rnd k count interval days begin end_ :
  let step := Z.max 1 interval in
  let m := mi (day_no begin) in
  exists (n : nat) (P : nat -> list Z),
    (forall j, (j < n)%nat <-> day_secs * mstart (m + step * Z.of_nat j) + clock begin < end_) /\
    (forall j, picked count (wanted_days days (m + step * Z.of_nat j)) (P j)) /\
    monthly rnd k count interval days begin end_ =
    flat_map (fun j => sort_ints (filter (fun t => (mi (day_no t) =? m + step * Z.of_nat j) && in_range begin end_ t)
                                         (map (fun p => day_secs * named_day (m + step * Z.of_nat j) p + clock begin) (P j)))) (seq 0 n).
Proof.
  intros step m. unfold monthly.
  assert (Es : (if interval <? 1 then 1 else interval) = step) by (unfold step; destruct (Z.ltb_spec interval 1); lia). rewrite Es. clear Es.
  rewrite t_add_first. fold m. destruct (day_clock begin) as [_ Hc].
  apply (monthly_rounds rnd count step days begin end_ (clock begin) ltac:(unfold step; lia) Hc). lia.
Qed.
Lemma wanted_days_named t days p : In p (wanted_days days (mi t)) -> named_day (mi t) p = t ->
  days = [] \/ exists p, In p days /\ is_named (year_of t) (month_of t) (day_of t) p.
Proof.
  intros Hp E. destruct days as [|d0 ds]; [left; reflexivity|]. right. exists p. split; [exact Hp|]. apply is_named_day. exact E.
Qed.
(** every generated date lies between begin and end, at begin's clock time, on a requested day of the month (any day if none
    are given), in a month that is a multiple of [interval] months after that of [begin] *)
Theorem C59_monthly_dates : forall rnd k count interval days begin end_ t,
  In t (monthly rnd k count interval days begin end_) ->
  begin <= t <= end_ /\ clock t = clock begin /\
  (days = [] \/ exists p, In p days /\ is_named (year_of (day_no t)) (month_of (day_no t)) (day_of (day_no t)) p) /\
  exists j, 0 <= j /\ month_number (day_no t) = month_number (day_no begin) + Z.max 1 interval * j.
Proof.
  intros rnd k count interval days begin end_ t Ht.
  destruct (monthly_spec rnd k count interval days begin end_) as (n & P & Hn & HP & E). rewrite E in Ht. clear E.
  apply in_flat_map in Ht as (j & Hj & Ht). apply (Permutation_in _ (Permutation_sym (sort_ints_perm _))) in Ht.
  apply filter_In in Ht as [Ht Hr]. apply andb_true_iff in Hr as [Hm Hr]. apply Z.eqb_eq in Hm.
  apply in_map_iff in Ht as (p & Et & Hp). destruct (day_clock begin) as [_ Hc].
  assert (Ed : named_day (mi (day_no begin) + Z.max 1 interval * Z.of_nat j) p = day_no t) by (rewrite <- Et, day_no_make by exact Hc; reflexivity).
  assert (Ec : clock t = clock begin) by (rewrite <- Et, clock_make by exact Hc; reflexivity).
  specialize (HP j). apply (picked_in _ _ _ _ HP) in Hp. rewrite <- Hm in *.
  split; [unfold in_range in Hr; lia|]. split; [exact Ec|]. split; [eapply wanted_days_named; eassumption|].
  exists (Z.of_nat j). split; [lia|]. exact Hm.
Qed.
Print Assumptions C59_monthly_dates.
Lemma month_filter rnd k count interval days begin end_ m :
  (exists n P j, (forall i, (i < n)%nat <-> day_secs * mstart (mi (day_no begin) + Z.max 1 interval * Z.of_nat i) + clock begin < end_) /\
     m = mi (day_no begin) + Z.max 1 interval * Z.of_nat j /\ picked count (wanted_days days m) (P j) /\
     filter (fun t => mi (day_no t) =? m) (monthly rnd k count interval days begin end_) =
     if (j <? n)%nat then sort_ints (filter (fun t => (mi (day_no t) =? m) && in_range begin end_ t)
                                      (map (fun p => day_secs * named_day m p + clock begin) (P j))) else []) \/
  ((forall j, 0 <= j -> m <> mi (day_no begin) + Z.max 1 interval * j) /\
   filter (fun t => mi (day_no t) =? m) (monthly rnd k count interval days begin end_) = []).
Proof.
  destruct (monthly_spec rnd k count interval days begin end_) as (n & P & Hn & HP & E).
  set (s := Z.max 1 interval) in *. set (m0 := mi (day_no begin)) in *. assert (Hs1 : 1 <= s) by (unfold s; lia).
  set (g := fun j : nat => sort_ints (filter (fun t => (mi (day_no t) =? m0 + s * Z.of_nat j) && in_range begin end_ t)
                             (map (fun p => day_secs * named_day (m0 + s * Z.of_nat j) p + clock begin) (P j)))) in E.
  assert (Htag : forall i x, In x (g i) -> mi (day_no x) = m0 + s * Z.of_nat i).
  { intros i x Hx. apply (Permutation_in _ (Permutation_sym (sort_ints_perm _))) in Hx. apply filter_In in Hx as [_ Hx].
    apply andb_true_iff in Hx as [Hx _]. apply Z.eqb_eq in Hx. exact Hx. }
  destruct (Z.eq_dec ((m - m0) mod s) 0) as [D|D].
  2:{ right. assert (Hne : forall j, 0 <= j -> m <> m0 + s * j).
      { intros j _ ->. apply D. replace (m0 + s * j - m0) with (j * s) by lia. apply Z.mod_mul. lia. }
      split; [exact Hne|]. rewrite E. clear E. induction (seq 0 n) as [|i l IH]; [reflexivity|]. cbn [flat_map]. rewrite filter_app, IH, app_nil_r.
      apply filter_none. intros x Hx. apply Htag in Hx. rewrite Hx. specialize (Hne (Z.of_nat i)). lia. }
  set (q := (m - m0) / s). assert (Eq : m = m0 + s * q).
  { subst q. assert (H := Z.div_mod (m - m0) s ltac:(lia)). lia. }
  destruct (Z.lt_ge_cases q 0) as [Lq|Lq].
  { right. assert (Hne : forall j, 0 <= j -> m <> m0 + s * j) by (intros j Hj; clear - Eq Lq Hj Hs1; nia).
    split; [exact Hne|]. rewrite E. clear E. induction (seq 0 n) as [|i l IH]; [reflexivity|]. cbn [flat_map]. rewrite filter_app, IH, app_nil_r.
    apply filter_none. intros x Hx. apply Htag in Hx. rewrite Hx. specialize (Hne (Z.of_nat i)). lia. }
  left. exists n, P, (Z.to_nat q). assert (Ez : Z.of_nat (Z.to_nat q) = q) by lia.
  split; [exact Hn|]. split; [rewrite Ez; exact Eq|]. split; [specialize (HP (Z.to_nat q)); rewrite Ez, <- Eq in HP; exact HP|].
  rewrite E. assert (HF := filter_rounds g (fun x => mi (day_no x)) (fun i => m0 + s * Z.of_nat i) Htag ltac:(cbv beta; intros; clear -H Hs1; nia) (Z.to_nat q) n 0%nat).
  cbv beta in HF. rewrite Ez in HF. rewrite <- Eq in HF. rewrite HF. change (0 + n)%nat with n.
  replace (0 <=? Z.to_nat q)%nat with true by lia. cbn [andb].
  destruct (Z.to_nat q <? n)%nat; [|reflexivity]. unfold g. rewrite Ez, <- Eq. reflexivity.
Qed.
(** no month gets more than [count] dates *)
Theorem C59_monthly_count : forall rnd k count interval days begin end_ m,
  Z.of_nat (List.length (filter (fun t => month_number (day_no t) =? m) (monthly rnd k count interval days begin end_))) <= Z.max 0 count.
Proof.
  intros rnd k count interval days begin end_ m. change month_number with mi.
  destruct (month_filter rnd k count interval days begin end_ m) as [(n & P & j & _ & _ & Hp & E)|[_ E]]; rewrite E; [|cbn; lia].
  destruct (j <? n)%nat; [|cbn; lia]. rewrite <- (Permutation_length (sort_ints_perm _)).
  assert (H := filter_len (fun t => (mi (day_no t) =? m) && in_range begin end_ t) (map (fun p => day_secs * named_day m p + clock begin) (P j))).
  rewrite map_length in H. assert (H' := picked_length _ _ _ Hp). lia.
Qed.
Print Assumptions C59_monthly_count.
(** always ascending; the same date comes twice if it is requested twice (the 31st and the last day) *)
Theorem C59_monthly_ascending : forall rnd k count interval days begin end_,
  StronglySorted Z.le (monthly rnd k count interval days begin end_).
Proof.
  intros rnd k count interval days begin end_.
  destruct (monthly_spec rnd k count interval days begin end_) as (n & P & Hn & HP & E). rewrite E. clear E.
  set (s := Z.max 1 interval) in *. set (m0 := mi (day_no begin)) in *. destruct (day_clock begin) as [_ Hc].
  assert (Hs1 : 1 <= s) by (unfold s; lia).
  apply sorted_rounds with (lo := fun j => day_secs * mstart (m0 + s * Z.of_nat j)).
  - lia.
  - intros j. apply sort_ints_sorted.
  - intros j x Hx. apply (Permutation_in _ (Permutation_sym (sort_ints_perm _))) in Hx. apply filter_In in Hx as [_ Hx].
    apply andb_true_iff in Hx as [Hx _]. apply Z.eqb_eq in Hx. assert (Hb := mi_bounds (day_no x)). rewrite Hx in Hb.
    assert (Hm := mstart_mono (m0 + s * Z.of_nat j + 1) (m0 + s * Z.of_nat (S j)) ltac:(lia)).
    destruct (day_clock x) as [Ex Hcx]. rewrite Ex.
    generalize dependent (mstart (m0 + s * Z.of_nat j)). generalize dependent (mstart (m0 + s * Z.of_nat j + 1)).
    generalize dependent (mstart (m0 + s * Z.of_nat (S j))). intros a b Hm c Hb. unfold day_secs in *. lia.
  - intros j. assert (Hm := mstart_mono (m0 + s * Z.of_nat j) (m0 + s * Z.of_nat (S j)) ltac:(lia)). unfold day_secs. lia.
Qed.
Print Assumptions C59_monthly_ascending.
(** first and last of every second month (dates_test.go) *)
Example C59_monthly_example : let d y m n := day_secs * go_date y m n in
  monthly (fun _ => O) O 2 2 [-1; 1] (d 2020 12 17) (d 2021 3 13) = [d 2020 12 31; d 2021 2 1; d 2021 2 28].
Proof. vm_compute. reflexivity. Qed.

(** ** C73 the dates that must be generated *)
(** every requested weekday of a scheduled week within the range is generated (if [count] does not restrict the days),
    except for one case: the end of the range itself, if that is a Sunday *)
Theorem C73_weekly_complete_partial : forall rnd k count interval days begin end_ t j, weekdays days ->
  Z.of_nat (List.length days) <= count -> (days = [] -> 7 <= count) ->
  begin <= t <= end_ -> clock t = clock begin -> (days = [] \/ In (weekday (day_no t)) days) ->
  0 <= j -> week_start (day_no t) = week_start (day_no begin) + 7 * (Z.max 1 interval * j) ->
  t < end_ \/ weekday (day_no t) <> 0 ->
  In t (weekly rnd k count interval days begin end_).
Proof.
  intros rnd k count interval days begin end_ t j Hd Hcount Hc7 Hr Hclock Hday Hj Hw Hend.
  destruct (week_filter rnd k count interval days begin end_ (week_start (day_no t)) Hd) as [(n & P & i & Hn & Ei & Hp & E)|[C _]]; [|exfalso; apply (C j Hj Hw)].
  assert (In t (filter (fun x => week_start (day_no x) =? week_start (day_no t)) (weekly rnd k count interval days begin end_))); [|apply filter_In in H as [H _]; exact H].
  rewrite E. clear E. destruct (day_clock t) as [Et Hct]. destruct (day_clock begin) as [_ Hcb].
  assert (Hw6 : 0 <= weekday (day_no t) <= 6) by (unfold weekday; lia).
  assert (Hi : Z.max 1 interval * Z.of_nat i = Z.max 1 interval * j) by lia.
  destruct (Nat.ltb_spec i n) as [_|C].
  - apply filter_In. split; [|unfold in_range; lia]. apply in_map_iff. exists (weekday (day_no t)). split.
    + rewrite <- Hclock. unfold week_start. replace (day_no t - weekday (day_no t) + weekday (day_no t)) with (day_no t) by lia. symmetry. exact Et.
    + destruct Hp as [[_ ->]|[C _]].
      * destruct days as [|d0 ds]; [|destruct Hday as [Hday|Hday]; [discriminate|exact Hday]].
        unfold anyday. clear - Hw6. cbn [In]. lia.
      * exfalso. destruct days; [cbn in C; specialize (Hc7 eq_refl); lia|lia].
  - exfalso. assert (Hnot : ~ (i < n)%nat) by lia. apply Hnot, Hn. clear Hnot C Hn.
    replace (week_start (day_no begin) + 7 * Z.max 1 interval * Z.of_nat i) with (week_start (day_no t)) by lia.
    unfold week_start. unfold day_secs in *. destruct Hend as [He|He]; lia.
Qed.
Print Assumptions C73_weekly_complete_partial.
(** a Sunday that is the end of the range is missed *)
Theorem C73_weekly_complete_refuted : ~ (forall rnd k count interval days begin end_ t j, weekdays days ->
  Z.of_nat (List.length days) <= count -> (days = [] -> 7 <= count) ->
  begin <= t <= end_ -> clock t = clock begin -> (days = [] \/ In (weekday (day_no t)) days) ->
  0 <= j -> week_start (day_no t) = week_start (day_no begin) + 7 * (Z.max 1 interval * j) ->
  In t (weekly rnd k count interval days begin end_)).
Proof.
  intros H. (* 0001-01-01 is a Monday *)
  specialize (H (fun _ => O) O 7 1 [] 0 (day_secs * 6) (day_secs * 6) 1 ltac:(constructor) ltac:(cbn; lia) ltac:(lia) ltac:(unfold day_secs; lia)
    eq_refl (or_introl eq_refl) ltac:(lia) eq_refl).
  vm_compute in H. intuition discriminate.
Qed.
Print Assumptions C73_weekly_complete_refuted.
Lemma filter_all_true {A} (f : A -> bool) l : (forall x, In x l -> f x = true) -> filter f l = l.
Proof.
  induction l as [|x l IH]; intros H; [reflexivity|]. cbn. rewrite (H x (or_introl eq_refl)). f_equal. apply IH. intros; apply H; right; assumption.
Qed.
(** a scheduled week that lies entirely within the range gets exactly [count] dates, as far as there are enough days *)
Theorem C73_weekly_full_week : forall rnd k count interval days begin end_ j, weekdays days -> 0 <= j ->
  let w := week_start (day_no begin) + 7 * (Z.max 1 interval * j) in
  begin <= day_secs * w + clock begin -> day_secs * (w + 6) + clock begin <= end_ ->
  Z.of_nat (List.length (filter (fun t => week_start (day_no t) =? w) (weekly rnd k count interval days begin end_))) =
  Z.min (Z.max 0 count) (match days with [] => 7 | _ => Z.of_nat (List.length days) end).
Proof.
  intros rnd k count interval days begin end_ j Hd Hj w Hb He.
  destruct (week_filter rnd k count interval days begin end_ w Hd) as [(n & P & i & Hn & Ei & Hp & E)|[C _]]; [|exfalso; apply (C j Hj eq_refl)].
  rewrite E. clear E. assert (Hp' := picked_length _ _ _ Hp).
  assert (Hin : (i < n)%nat).
  { apply Hn. replace (week_start (day_no begin) + 7 * Z.max 1 interval * Z.of_nat i) with w by lia. unfold day_secs in *. lia. }
  replace (i <? n)%nat with true by lia. rewrite filter_all_true, map_length.
  - rewrite Hp'. destruct days; reflexivity.
  - intros x Hx. apply in_map_iff in Hx as (p & <- & Hpp). apply (picked_in _ _ _ _ Hp) in Hpp.
    assert (Hp6 : 0 <= p <= 6) by (apply want_weekdays in Hd; unfold weekdays in Hd; rewrite Forall_forall in Hd; auto).
    unfold in_range, day_secs in *. lia.
Qed.
Print Assumptions C73_weekly_full_week.
Example C73_weekly_example : let d y m n := day_secs * go_date y m n in let w := week_start (day_no (d 2020 12 17)) + 7 * (Z.max 1 2 * 1) in
  d 2020 12 17 <= day_secs * w + clock (d 2020 12 17) /\ day_secs * (w + 6) + clock (d 2020 12 17) <= d 2021 1 13.
Proof. vm_compute. split; discriminate. Qed.

Lemma in_month_days t : In (day_of t) (month_days_list (month_size (mi t))).
Proof.
  destruct (civil_valid t) as [_ H]. rewrite <- month_size_days in H. generalize dependent (day_of t). generalize (month_size (mi t)). intros s d H.
  unfold month_days_list. apply in_map_iff. exists (Z.to_nat (d - 1)). split; [lia|]. apply in_seq. lia.
Qed.
Lemma wanted_named t days : days = [] \/ (exists p, In p days /\ is_named (year_of t) (month_of t) (day_of t) p) ->
  exists p, In p (wanted_days days (mi t)) /\ named_day (mi t) p = t.
Proof.
  intros Hday. destruct days as [|d0 ds].
  - exists (day_of t). split; [apply in_month_days|]. apply is_named_day. left. split; [|reflexivity]. destruct (civil_valid t) as [_ [H _]]. exact H.
  - destruct Hday as [C|(p & Hp' & Hnm)]; [discriminate|]. exists p. split; [exact Hp'|]. apply is_named_day. exact Hnm.
Qed.
Lemma wanted_size t days count : Z.of_nat (List.length days) <= count -> (days = [] -> 31 <= count) ->
  Z.of_nat (List.length (wanted_days days (mi t))) <= count.
Proof.
  intros H H31. assert (Hlast := month_days_range (year_of t) (month_of t)). rewrite <- month_size_days in Hlast.
  unfold wanted_days. destruct days; [|exact H]. specialize (H31 eq_refl). unfold month_days_list. rewrite map_length, seq_length. lia.
Qed.
Lemma first_arith a d n c t e : d = n - a + 1 -> a <= n -> t = day_secs * n + c -> t <= e -> (t < e \/ d <> 1) -> day_secs * a + c < e.
Proof. unfold day_secs. lia. Qed.
(** the same for months: only the end of the range itself is missed, if it is the first of a month *)
Theorem C73_monthly_complete_partial : forall rnd k count interval days begin end_ t j,
  Z.of_nat (List.length days) <= count -> (days = [] -> 31 <= count) ->
  begin <= t <= end_ -> clock t = clock begin ->
  (days = [] \/ exists p, In p days /\ is_named (year_of (day_no t)) (month_of (day_no t)) (day_of (day_no t)) p) ->
  0 <= j -> month_number (day_no t) = month_number (day_no begin) + Z.max 1 interval * j ->
  t < end_ \/ day_of (day_no t) <> 1 ->
  In t (monthly rnd k count interval days begin end_).
Proof.
  intros rnd k count interval days begin end_ t j Hcount Hc31 Hr Hclock Hday Hj Hm Hend.
  rewrite !month_number_mi in Hm.
  destruct (month_filter rnd k count interval days begin end_ (mi (day_no t))) as [(n & P & i & Hn & Ei & Hp & E)|[C _]]; [|exfalso; apply (C j Hj Hm)].
  assert (In t (filter (fun x => mi (day_no x) =? mi (day_no t)) (monthly rnd k count interval days begin end_))); [|apply filter_In in H as [H _]; exact H].
  rewrite E. clear E. destruct (day_clock t) as [Et Hct]. destruct (day_clock begin) as [_ Hcb].
  assert (Hwant := wanted_named (day_no t) days Hday).
  destruct Hwant as (p & Hpin & Hpd).
  destruct (Nat.ltb_spec i n) as [_|C].
  - apply (Permutation_in _ (sort_ints_perm _)). apply filter_In. split; [|rewrite Z.eqb_refl; unfold in_range; lia].
    apply in_map_iff. exists p. split; [rewrite Hpd, <- Hclock; symmetry; exact Et|].
    destruct Hp as [[_ ->]|[C _]]; [exact Hpin|exfalso]. assert (Hsz := wanted_size (day_no t) days count Hcount Hc31). lia.
  - exfalso. assert (Hnot : ~ (i < n)%nat) by lia. apply Hnot, Hn. clear Hnot C Hn. rewrite <- Ei.
    rewrite Hclock in Et. exact (first_arith _ _ _ _ _ _ (day_of_eq (day_no t)) (proj1 (mi_bounds (day_no t))) Et (proj2 Hr) Hend).
Qed.
Print Assumptions C73_monthly_complete_partial.
Theorem C73_monthly_complete_refuted : ~ (forall rnd k count interval days begin end_ t j,
  Z.of_nat (List.length days) <= count -> (days = [] -> 31 <= count) ->
  begin <= t <= end_ -> clock t = clock begin ->
  (days = [] \/ exists p, In p days /\ is_named (year_of (day_no t)) (month_of (day_no t)) (day_of (day_no t)) p) ->
  0 <= j -> month_number (day_no t) = month_number (day_no begin) + Z.max 1 interval * j ->
  In t (monthly rnd k count interval days begin end_)).
Proof.
  intros H. (* 0001-01-01 .. 0001-02-01 *)
  assert (Hn : is_named (year_of (day_no (day_secs * 31))) (month_of (day_no (day_secs * 31))) (day_of (day_no (day_secs * 31))) 1).
  { left. split; [lia|vm_compute; reflexivity]. }
  assert (Hm : month_number (day_no (day_secs * 31)) = month_number (day_no 0) + Z.max 1 1 * 1) by (vm_compute; reflexivity).
  specialize (H (fun _ => O) O 1 1 [1] 0 (day_secs * 31) (day_secs * 31) 1 ltac:(cbn; lia) ltac:(discriminate) ltac:(unfold day_secs; lia)
    eq_refl (or_intror (ex_intro _ 1 (conj (or_introl eq_refl) Hn))) ltac:(lia) Hm).
  vm_compute in H. intuition discriminate.
Qed.
Print Assumptions C73_monthly_complete_refuted.

(** ** C61 *)
(** pow(b, e) is b^e in wrapped int64 arithmetic, for every exponent up to 2^62; for a negative one it is 1 *)
Theorem C61_pow_partial : forall base e, 0 <= e < 2 ^ 62 -> exists fuel r,
  go_pow fuel base e = Some r /\ - 2 ^ 63 <= r < 2 ^ 63 /\ r mod 2 ^ 64 = base ^ e mod 2 ^ 64.
Proof.
  intros base e He. exists 64%nat, (wrap64 (base ^ e)). split; [|split].
  - unfold go_pow. change 1 with (2 ^ 0) at 1. apply (pow_loop_ok base e He 63 0); [lia|lia|lia|left; reflexivity| |].
    + unfold eqm. change (2 ^ 0) with 1. rewrite Z.pow_1_r. reflexivity.
    + change (2 ^ 0) with 1. rewrite Z.mod_1_r, Z.pow_0_r. reflexivity.
  - generalize (base ^ e). intros x. unfold wrap64. assert (H := Z.mod_pos_bound (x + 2 ^ 63) (2 ^ 64) ltac:(lia)). lia.
  - apply (eqm_wrap (base ^ e)).
Qed.
Print Assumptions C61_pow_partial.
Theorem C61_pow_negative : forall base e, e < 1 -> exists fuel, go_pow fuel base e = Some 1.
Proof. intros base e He. exists 1%nat. unfold go_pow. cbn [pow_loop]. destruct (Z.leb_spec 1 e); [lia|reflexivity]. Qed.
(** beyond, the loop never ends: the mask becomes 0 *)
Theorem C61_pow_refuted : forall base e fuel, 2 ^ 62 <= e -> go_pow fuel base e = None.
Proof. intros base e fuel He. unfold go_pow. change 1 with (2 ^ 0) at 1. apply pow_loop_stuck; [exact He|lia]. Qed.
Print Assumptions C61_pow_refuted.
Example C61_example : go_pow 64 10 8 = Some 100000000 /\ go_pow 64 10 19 = Some (10 ^ 19 - 2 ^ 64) /\ go_pow 64 (-3) 3 = Some (-27).
Proof. vm_compute. auto. Qed.

(** ** C60 *)
Lemma digit_not_minus d : 0 <= d <= 9 -> digit_char d <> "-"%char.
Proof. intros H E. assert (Hd : is_digit (digit_char d) = true) by (apply digit_char_is_digit; lia). rewrite E in Hd. discriminate. Qed.
Lemma pad_digits w n : 0 <= n -> exists ds, digits_ok ds /\ ds <> [] /\ num ds = n /\ pad_zero w (print_nat n) = map digit_char ds.
Proof.
  intros Hn. exists (repeat 0 (w - List.length (digits_of n)) ++ digits_of n). split; [|split; [|split]].
  - apply digits_ok_app. split; [|apply digits_of_ok]. unfold digits_ok. apply Forall_forall. intros x Hx. apply repeat_spec in Hx. lia.
  - intros C. apply app_eq_nil in C as [_ C]. exact (digits_of_nonempty _ C).
  - rewrite num_app, num_zeros, num_digits_of by lia. lia.
  - unfold pad_zero. rewrite map_app, print_nat_digits, map_length. f_equal.
    unfold rep. generalize (w - List.length (digits_of n))%nat. intros m. induction m; cbn; [reflexivity|]. f_equal. exact IHm.
Qed.
Lemma pad_inj w n n' : 0 <= n -> 0 <= n' -> pad_zero w (print_nat n) = pad_zero w (print_nat n') -> n = n'.
Proof.
  intros Hn Hn' E. destruct (pad_digits w n Hn) as (ds & Ok1 & _ & N & P). destruct (pad_digits w n' Hn') as (ds' & Ok2 & _ & N' & P').
  rewrite P, P' in E. apply (f_equal digits_val) in E. rewrite !digits_val_num in E by assumption. congruence.
Qed.
Lemma format_year_inj y y' : format_year y = format_year y' -> y = y'.
Proof.
  unfold format_year. destruct (Z.ltb_spec y 0) as [L|L], (Z.ltb_spec y' 0) as [L'|L']; intros E.
  - inversion E as [E']. apply pad_inj in E'; lia.
  - exfalso. destruct (pad_digits 4 y' L') as (ds & Ok1 & Ne & _ & P). rewrite P in E. destruct ds as [|d ds]; [contradiction|].
    inversion E. symmetry in H0. revert H0. apply digit_not_minus. inversion Ok1. lia.
  - exfalso. destruct (pad_digits 4 y L) as (ds & Ok1 & Ne & _ & P). rewrite P in E. destruct ds as [|d ds]; [contradiction|].
    inversion E. revert H0. apply digit_not_minus. inversion Ok1. lia.
  - apply pad_inj in E; lia.
Qed.
Lemma app_inj_len {A} (a a' b b' : list A) : List.length b = List.length b' -> a ++ b = a' ++ b' -> a = a' /\ b = b'.
Proof.
  revert a'. induction a as [|x a IH]; intros [|x' a'] Hl E; cbn in E.
  - auto.
  - exfalso. subst b. cbn in Hl. rewrite app_length in Hl. lia.
  - exfalso. subst b'. cbn in Hl. rewrite app_length in Hl. lia.
  - inversion E; subst x'. destruct (IH a' Hl H1) as [-> ->]. auto.
Qed.
Lemma label_between by_year by_month x y z : x <= y <= z -> label_of by_year by_month x = label_of by_year by_month z ->
  label_of by_year by_month y = label_of by_year by_month x.
Proof.
  intros Hxz E. assert (Hd : day_no x <= day_no y <= day_no z) by (unfold day_no, day_secs; split; apply Z.div_le_mono; lia).
  assert (H1 := mi_mono (day_no x) (day_no y) ltac:(lia)). assert (H2 := mi_mono (day_no y) (day_no z) ltac:(lia)).
  unfold label_of in *. destruct by_month.
  - assert (Hlen : forall t, List.length (pad_zero 2 (print_nat (month_of t))) = 2%nat).
    { intros t. destruct (civil_valid t) as [Hm _]. destruct (pad_zero_digits 2 (month_of t) ltac:(change (10 ^ Z.of_nat 2) with 100; lia) ltac:(lia)) as (ds & [_ Hl] & _ & P).
      rewrite P. unfold dtext. rewrite map_length. exact Hl. }
    apply app_inj_len in E as [Ey Em]; [|rewrite !app_length, !Hlen; reflexivity].
    apply format_year_inj in Ey. apply app_inv_head in Em. assert (Hmx := proj1 (civil_valid (day_no x))). assert (Hmz := proj1 (civil_valid (day_no z))). apply pad_inj in Em; [|lia|lia].
    assert (Emi : mi (day_no y) = mi (day_no x)) by (unfold mi in *; lia). apply month_of_number in Emi as [-> ->]. reflexivity.
  - destruct by_year; [|reflexivity]. apply format_year_inj in E. rewrite !mi_year in *. f_equal.
    assert (mi (day_no x) / 12 <= mi (day_no y) / 12) by (apply Z.div_le_mono; lia). assert (mi (day_no y) / 12 <= mi (day_no z) / 12) by (apply Z.div_le_mono; lia). lia.
Qed.
(** every label that is not given to dates on both sides of a date with another label *)
Theorem C60_any_label : forall (A : Type) (posted : A -> Z) (label : Z -> bytes) (ts : list A),
  (forall x y z, x <= y <= z -> label x = label z -> label y = label x) ->
  StronglySorted (fun a b => posted a <= posted b) ts ->
  let m := batches_by_label (fun t => label (posted t)) ts in
  NoDup (map fst m) /\
  forall l, batch_of l m = match filter (fun t => eqb_bytes (label (posted t)) l) ts with [] => None | b => Some b end.
Proof.
  intros A posted label ts Hl Hs. apply (batches_ok (fun t => label (posted t)) ts).
  intros a x b y c -> E z Hz. apply in_split in Hz as (b1 & b2 & ->).
  assert (Hxz : posted x <= posted z /\ posted z <= posted y).
  { clear -Hs. induction a as [|a0 a IH]; cbn [app] in Hs; apply StronglySorted_inv in Hs as [Hs HF]; [|apply IH; exact Hs].
    rewrite Forall_forall in HF. split; [apply HF, in_or_app; left; apply in_or_app; right; left; reflexivity|].
    rewrite <- app_assoc in Hs. clear HF. induction b1 as [|b0 b1 IH]; cbn [app] in Hs; apply StronglySorted_inv in Hs as [Hs HF]; [|apply IH; exact Hs].
    rewrite Forall_forall in HF. apply HF, in_or_app. right. left. reflexivity. }
  apply (Hl (posted x) (posted z) (posted y) Hxz E).
Qed.
Print Assumptions C60_any_label.
(** whatever the flags: the file of a label holds the transactions with that label, in order; each label has one file *)
Theorem C60_batches : forall (A : Type) (posted : A -> Z) by_year by_month (ts : list A),
  StronglySorted (fun a b => posted a <= posted b) ts ->
  let m := batches_by_label (fun t => label_of by_year by_month (posted t)) ts in
  NoDup (map fst m) /\
  forall l, batch_of l m = match filter (fun t => eqb_bytes (label_of by_year by_month (posted t)) l) ts with [] => None | b => Some b end.
Proof. intros A posted by_year by_month ts. apply C60_any_label. apply label_between. Qed.
Print Assumptions C60_batches.
Example C60_example : map fst (batches_by_label (label_of true true) (map (fun d => day_secs * d) [0; 5; 40; 41; 400])) = [B "0001-01"; B "0001-02"; B "0002-02"]
  /\ batch_of (B "0001-02") (batches_by_label (label_of true true) (map (fun d => day_secs * d) [0; 5; 40; 41; 400])) = Some [day_secs * 40; day_secs * 41].
Proof. vm_compute. auto. Qed.

(** ** C74 the generated transactions *)
Lemma samples_dates rnd : forall dates k r, map (fun s => x_posted (snd s)) (generate_transactions rnd k r dates) = dates.
Proof. induction dates as [|d ds IH]; intros k r; [reflexivity|]. cbn. f_equal. apply IH. Qed.
Lemma samples_in rnd : forall dates k r s, In s (generate_transactions rnd k r dates) ->
  fst s = r /\ In (x_posted (snd s)) dates /\ (ru_payees r <> [] -> In (x_desc (snd s)) (ru_payees r)) /\ x_posts (snd s) = [] /\ x_code (snd s) = [] /\ x_notes (snd s) = [].
Proof.
  induction dates as [|d ds IH]; intros k r s Hs; [destruct Hs|]. cbn [generate_transactions] in Hs. destruct Hs as [<-|Hs].
  - cbn. split; [reflexivity|]. split; [left; reflexivity|]. split; [|auto]. intros Hp. apply nth_In. apply Nat.mod_upper_bound. destruct (ru_payees r); [contradiction|discriminate].
  - destruct (IH _ _ _ Hs) as (H1 & H2 & H). split; [exact H1|]. split; [right; exact H2|exact H].
Qed.
Lemma sample_weak : weak_order sample_less.
Proof. unfold weak_order, sample_less. split; intros; lia. Qed.
Lemma wrap_prod u t : 0 < t -> t < 2 ^ 63 -> Z.abs u * t < 2 ^ 63 -> wrap64 (u * wrap64 t) = u * t.
Proof.
  intros T0 T1 T2. rewrite (wrap_small t) by lia. apply wrap_small. assert (Z.abs (u * t) < 2 ^ 63) by (rewrite Z.abs_mul, (Z.abs_eq t) by lia; exact T2). lia.
Qed.
Lemma generate_ok comm conv rnd c k wb accounts gens L' xs : (forall a, comm a = c) -> Z.of_nat (c_dec c) < 2 ^ 62 -> NoDup accounts ->
  generate comm conv rnd empty_ledger k wb accounts gens = Ok (L', xs) ->
  exists L, gen_ok comm c L /\ Forall2 (fun s x => made_by c (fst s) L (snd s) x) (generate_samples rnd gens) xs /\
    nxt L' = nxt L /\ (forall a, reg L' a = reg L a) /\ (forall p, keeps (heap L p) (heap L' p)) /\
    (wb = true -> forall a, In a accounts -> checked c L' a) /\ (wb = false -> L' = L).
Proof.
  intros Hone Hdec Hnd H. unfold generate in H.
  destruct (generate_all_postings comm conv rnd empty_ledger k (generate_samples rnd gens)) as [[L ys]| |] eqn:E; cbn [bind fst snd] in H; try discriminate.
  destruct (generate_all_ok comm conv rnd c Hone Hdec _ _ _ _ _ (gen_empty comm rnd c Hone) E) as (Hg & _ & _ & HF).
  exists L. split; [exact Hg|]. destruct wb.
  - destruct (check_all comm conv L accounts) as [L1| |] eqn:E1; cbn [bind] in H; try discriminate. injection H as <- <-.
    destruct Hg as (G1 & G2 & G3).
    destruct (check_all_ok comm conv rnd c Hone accounts L L1 E1 Hnd G1) as (K1 & K2 & K3 & _ & _ & K6).
    { intros a _. split; [apply G3|]. intros p Hp. apply G2. destruct (G1 a) as (_ & _ & K). apply (K p Hp). }
    split; [exact HF|]. split; [exact K1|]. split; [exact K2|]. split; [exact K3|]. split; [intros _; exact K6|discriminate].
  - injection H as <- <-. split; [exact HF|]. split; [reflexivity|]. split; [reflexivity|]. split; [intros; apply keeps_refl|]. split; [discriminate|reflexivity].
Qed.
Lemma forall2_map {A B C} (R : A -> B -> Prop) (f : A -> C) (g : B -> C) l l' : Forall2 R l l' -> (forall a b, R a b -> f a = g b) -> map f l = map g l'.
Proof. intros H E. induction H as [|a b l l' Hab _ IH]; [reflexivity|]. cbn. rewrite (E _ _ Hab), IH. reflexivity. Qed.
(** one transaction for every generated date of every rule, in date order (equal dates in the order of the rules) *)
Theorem C74_one_per_date : forall comm conv rnd c k wb accounts gens L' xs, (forall a, comm a = c) -> Z.of_nat (c_dec c) < 2 ^ 62 -> NoDup accounts ->
  generate comm conv rnd empty_ledger k wb accounts gens = Ok (L', xs) ->
  StronglySorted (fun x y => x_posted x <= x_posted y) xs /\ Permutation (map x_posted xs) (flat_map snd gens).
Proof.
  intros comm conv rnd c k wb accounts gens L' xs Hone Hdec Hnd H.
  destruct (generate_ok _ _ _ _ _ _ _ _ _ _ Hone Hdec Hnd H) as (L & _ & HF & _).
  assert (E : map (fun s => x_posted (snd s)) (generate_samples rnd gens) = map x_posted xs).
  { apply (forall2_map _ _ _ _ _ HF). intros s x (Hx & _). symmetry. exact Hx. }
  assert (Hs := stable_sort_sorted _ (flat_map (fun g => generate_transactions rnd (fst (fst g)) (snd (fst g)) (snd g)) gens) sample_weak).
  fold (generate_samples rnd gens) in Hs. split.
  - unfold sorted_by in Hs. clear -Hs E. revert xs E. induction Hs as [|s ss Hs IH HF]; intros [|x xs] E; try discriminate; [constructor|].
    cbn in E. injection E as E0 E. constructor; [apply IH; exact E|]. apply Forall_forall. intros y Hy.
    assert (Hy' := in_map x_posted _ _ Hy). rewrite <- E in Hy'. apply in_map_iff in Hy' as (s' & Es & Hs').
    rewrite Forall_forall in HF. specialize (HF s' Hs'). unfold sample_less in HF. lia.
  - rewrite <- E. unfold generate_samples. rewrite <- (Permutation_map _ (stable_sort_perm sample_less _)).
    clear. induction gens as [|g gens IH]; [constructor|]. cbn [flat_map]. rewrite map_app, samples_dates. apply Permutation_app_head. exact IH.
Qed.
Print Assumptions C74_one_per_date.
(** every generated transaction comes from one of the rules: its date and payee are the rule's; it moves an amount of
    commodity [c] out of a 'from' account into a 'to' account of the rule; unless the rule takes its amount from a
    balance, that is a whole number of units from min up to max (max itself excluded unless it equals min) *)
Theorem C74_by_the_rule : forall comm conv rnd c k wb accounts gens L' xs, (forall a, comm a = c) -> Z.of_nat (c_dec c) < 2 ^ 62 -> NoDup accounts ->
  (forall i r ds, In (i, r, ds) gens -> ru_payees r <> [] /\ ru_from r <> [] /\ ru_to r <> []) ->
  generate comm conv rnd empty_ledger k wb accounts gens = Ok (L', xs) ->
  forall x, In x xs -> exists i r ds, In (i, r, ds) gens /\ In (x_posted x) ds /\ In (x_desc x) (ru_payees r) /\
    exists p q amt, (x_posts x = [p; q] \/ x_posts x = [q; p]) /\ p <> q /\
      In (rp_acc (heap L' p)) (ru_to r) /\ rp_qty (heap L' p) = Some amt /\ rp_date (heap L' p) = x_posted x /\
      In (rp_acc (heap L' q)) (ru_from r) /\ rp_qty (heap L' q) = Some (negated amt) /\ rp_date (heap L' q) = x_posted x /\
      a_com amt = c /\
      (ru_min r <= 2 ^ 31 -> exists u, Z.min (ru_min r) (ru_max r) <= u <= Z.max (ru_min r) (ru_max r) /\
         (ru_min r <> ru_max r -> u < Z.max (ru_min r) (ru_max r)) /\
         (10 ^ Z.of_nat (c_dec c) < 2 ^ 63 -> Z.abs u * 10 ^ Z.of_nat (c_dec c) < 2 ^ 63 -> a_int amt = u * 10 ^ Z.of_nat (c_dec c))).
Proof.
  intros comm conv rnd c k wb accounts gens L' xs Hone Hdec Hnd Hr H x Hx.
  destruct (generate_ok _ _ _ _ _ _ _ _ _ _ Hone Hdec Hnd H) as (L & _ & HF & _ & _ & Hk & _).
  assert (Hex : exists s, In s (generate_samples rnd gens) /\ made_by c (fst s) L (snd s) x).
  { clear -HF Hx. induction HF as [|s y ss ys Hs _ IH]; [destruct Hx|]. destruct Hx as [<-|Hx]; [exists s; split; [left; reflexivity|exact Hs]|].
    destruct (IH Hx) as (s' & H1 & H2). exists s'. split; [right; exact H1|exact H2]. }
  destruct Hex as (s & Hs & M1 & _ & M3 & _ & from & to & amt & p & q & A1 & A2 & [A3 A3'] & A4 & A5 & _ & _ & A6 & A7).
  unfold generate_samples in Hs. apply (Permutation_in _ (Permutation_sym (stable_sort_perm sample_less _))) in Hs.
  apply in_flat_map in Hs as ([[i r] ds] & Hg & Hs). cbn [fst snd] in Hs. destruct (samples_in _ _ _ _ _ Hs) as (E & Hd & Hp & Hps & _). rewrite E in *.
  destruct (Hr i r ds Hg) as (R1 & R2 & R3). exists i, r, ds. split; [exact Hg|]. rewrite M1, M3. split; [exact Hd|]. split; [apply Hp; exact R1|].
  exists p, q, amt. destruct (Hk p) as (P1 & _ & P2 & P3 & _). destruct (Hk q) as (Q1 & _ & Q2 & Q3 & _).
  rewrite P1, P2, P3, Q1, Q2, Q3, A6, A7. cbn [new_rp rp_acc rp_qty rp_date].
  split; [rewrite A5, Hps; destruct (a_int amt <? 0); auto|]. split; [exact A4|]. split; [apply A2; exact R3|]. split; [reflexivity|]. split; [reflexivity|].
  split; [apply A1; exact R2|]. split; [reflexivity|]. split; [reflexivity|]. split; [exact A3|].
  intros Hm. destruct (A3' Hm) as (u & U1 & U2 & U3). exists u. split; [exact U1|]. split; [exact U2|]. intros W1 W2. rewrite U3.
  assert (W0 : 0 < 10 ^ Z.of_nat (c_dec c)) by (apply Z.pow_pos_nonneg; lia).
  apply (wrap_prod u _ W0 W1 W2).
Qed.
Print Assumptions C74_by_the_rule.

(** ** C63 *)
(** with -wb, all accounts in one commodity: a posting's balance is the account's running balance plus the account's final
    balance (the accounts already hold it when CheckPostings starts adding up) *)
Theorem C63_balances_exact : forall comm conv rnd c k accounts gens L' xs, (forall a, comm a = c) -> Z.of_nat (c_dec c) < 2 ^ 62 -> NoDup accounts ->
  generate comm conv rnd empty_ledger k true accounts gens = Ok (L', xs) ->
  forall a l1 p l2, In a accounts -> reg L' a = l1 ++ p :: l2 ->
  let total ids := zsum (map a_int (quantities L' ids)) in
  rp_bal (heap L' p) = Some (mkAmount (total (reg L' a) + total (l1 ++ [p])) c).
Proof.
  intros comm conv rnd c k accounts gens L' xs Hone Hdec Hnd H a l1 p l2 Ha Er total.
  destruct (generate_ok _ _ _ _ _ _ _ _ _ _ Hone Hdec Hnd H) as (L & _ & _ & _ & _ & _ & Hc & _).
  apply (Hc eq_refl a Ha l1 p l2 Er).
Qed.
Print Assumptions C63_balances_exact.
(** so it is the running balance in the accounts that end with a balance of zero *)
Theorem C63_running_balances_partial : forall comm conv rnd c k accounts gens L' xs, (forall a, comm a = c) -> Z.of_nat (c_dec c) < 2 ^ 62 -> NoDup accounts ->
  generate comm conv rnd empty_ledger k true accounts gens = Ok (L', xs) ->
  forall a l1 p l2, In a accounts -> reg L' a = l1 ++ p :: l2 ->
  let total ids := zsum (map a_int (quantities L' ids)) in
  total (reg L' a) = 0 -> rp_bal (heap L' p) = Some (mkAmount (total (l1 ++ [p])) c).
Proof.
  intros comm conv rnd c k accounts gens L' xs Hone Hdec Hnd H a l1 p l2 Ha Er total Ht.
  rewrite (C63_balances_exact _ _ _ _ _ _ _ _ _ Hone Hdec Hnd H a l1 p l2 Ha Er). fold (total (reg L' a)) (total (l1 ++ [p])). rewrite Ht. reflexivity.
Qed.
Print Assumptions C63_running_balances_partial.
(** one purchase of 10: the account shows 20 *)
Definition c63_com : commodity := mkCommodity 1 (B "CAD") 2.
Definition c63_rule : rule := mkRule [B "FOOD MART"] [B "Checking"] [B "Groceries"] 10 10.
Definition c63_gens : list (nat * rule * list Z) := [(O, c63_rule, [0; 86400])].
Definition no_conv : conversion := fun _ _ _ => Fail.
Theorem C63_running_balances_refuted : ~ (forall comm conv rnd c k accounts gens L' xs, (forall a, comm a = c) -> Z.of_nat (c_dec c) < 2 ^ 62 -> NoDup accounts ->
  generate comm conv rnd empty_ledger k true accounts gens = Ok (L', xs) ->
  forall a l1 p l2, In a accounts -> reg L' a = l1 ++ p :: l2 ->
  rp_bal (heap L' p) = Some (mkAmount (zsum (map a_int (quantities L' (l1 ++ [p])))) c)).
Proof.
  intros H.
  assert (E : match generate (fun _ => c63_com) no_conv (fun _ => O) empty_ledger O true [B "Groceries"; B "Checking"] c63_gens with
              | Ok y => reg (fst y) (B "Groceries") = [O; 2%nat] /\ option_map a_int (rp_bal (heap (fst y) O)) = Some 3000
                        /\ map a_int (quantities (fst y) [O]) = [1000] | _ => False end) by (vm_compute; auto).
  destruct (generate (fun _ => c63_com) no_conv (fun _ => O) empty_ledger O true [B "Groceries"; B "Checking"] c63_gens) as [[L' xs]| |] eqn:Eg; try contradiction.
  cbn [fst] in E. destruct E as (E1 & E2 & E3).
  assert (Hn : NoDup [B "Groceries"; B "Checking"]) by (constructor; [intros [C|[]]; discriminate|constructor; [intros []|constructor]]).
  specialize (H _ _ _ c63_com _ _ _ L' xs (fun _ => eq_refl) ltac:(cbn; lia) Hn Eg (B "Groceries") [] O [2%nat] (or_introl eq_refl) E1).
  cbn [app] in H. rewrite E3 in H. rewrite H in E2. discriminate.
Qed.
Print Assumptions C63_running_balances_refuted.
(** and the ledger written as text shows no balances at all: none is asserted *)
Theorem C63_text_no_balances : forall comm conv rnd c k wb accounts gens L' xs, (forall a, comm a = c) -> Z.of_nat (c_dec c) < 2 ^ 62 -> NoDup accounts ->
  generate comm conv rnd empty_ledger k wb accounts gens = Ok (L', xs) ->
  forall x s, In x xs -> In s (t_postings (as_written L' x)) -> ps_balance s = None.
Proof.
  intros comm conv rnd c k wb accounts gens L' xs Hone Hdec Hnd H x s Hx Hs.
  destruct (generate_ok _ _ _ _ _ _ _ _ _ _ Hone Hdec Hnd H) as (L & Hg & HF & _ & _ & Hk & _).
  unfold as_written in Hs. cbn [t_postings] in Hs. apply in_map_iff in Hs as (p & <- & Hp). cbn [ps_balance].
  assert (Hlt : rp_asserted (heap L p) = false).
  { assert (Hex : exists s, In s (generate_samples rnd gens) /\ made_by c (fst s) L (snd s) x).
    { clear -HF Hx. induction HF as [|s y ss ys Hs _ IH]; [destruct Hx|]. destruct Hx as [<-|Hx]; [exists s; split; [left; reflexivity|exact Hs]|].
      destruct (IH Hx) as (s' & H1 & H2). exists s'. split; [right; exact H1|exact H2]. }
    destruct Hex as (s & Hs & _ & _ & _ & _ & from & to & amt & p' & q' & _ & _ & _ & _ & A5 & A6 & A7 & _).
    unfold generate_samples in Hs. apply (Permutation_in _ (Permutation_sym (stable_sort_perm sample_less _))) in Hs.
    apply in_flat_map in Hs as ([[i r] ds] & _ & Hs). destruct (samples_in _ _ _ _ _ Hs) as (_ & _ & _ & Hps & _).
    rewrite A5, Hps in Hp. cbn [app] in Hp. destruct Hg as (_ & G2 & _). apply G2.
    destruct (a_int amt <? 0); destruct Hp as [<-|[<-|[]]]; assumption. }
  destruct (Hk p) as (_ & _ & _ & _ & K & _). rewrite K, Hlt. reflexivity.
Qed.
Print Assumptions C63_text_no_balances.
Example C63_example : match generate (fun _ => c63_com) no_conv (fun _ => O) empty_ledger O true [B "Groceries"; B "Checking"] c63_gens with
  | Ok y => map x_posted (snd y) = [0; 86400] /\ reg (fst y) (B "Groceries") = [O; 2%nat] | _ => False end.
Proof. vm_compute. auto. Qed.
(** an account that ends at zero: money moved there and back *)
Example C63_zero_example : let back := mkRule [B "x"] [B "Groceries"] [B "Checking"] 10 10 in
  match generate (fun _ => c63_com) no_conv (fun _ => O) empty_ledger O true [B "Groceries"; B "Checking"] [(O, c63_rule, [0]); (O, back, [86400])] with
  | Ok y => reg (fst y) (B "Groceries") = [O; 3%nat] /\ map (fun p => option_map a_int (rp_bal (heap (fst y) p))) [O; 3%nat] = [Some 1000; Some 0]
            /\ zsum (map a_int (quantities (fst y) (reg (fst y) (B "Groceries")))) = 0 | _ => False end.
Proof. vm_compute. auto. Qed.
