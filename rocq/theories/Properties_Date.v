(** C15-C20: dates, offsets, the calendar and reporting periods. *)
From Verif Require Import Base M_Regex M_Date S_Decimal S_Date S_DateText L_Dec L_Regex L_Date L_DateText.

(** ** C15 a written date is read back, whatever today is *)
Theorem C15_date_round_trip : forall td n, 100 <= year_of n <= 9999 -> set_date td (format_date n) = Ok n.
Proof. exact date_round_trip. Qed.
Print Assumptions C15_date_round_trip.
(** the same for a calendar date instead of a day number *)
Theorem C15_calendar_date_round_trip : forall td y m d, 100 <= y <= 9999 -> valid_date y m d ->
  set_date td (format_date (go_date y m d)) = Ok (go_date y m d) /\ civil (go_date y m d) = (y, m, d).
Proof.
  intros td y m d Hy Hv. split; [|apply civil_go_date, Hv]. apply date_round_trip. rewrite year_go by exact Hv. exact Hy.
Qed.
Print Assumptions C15_calendar_date_round_trip.
(** inside a line, the date read stops exactly where it was written *)
Theorem C15_date_in_line : forall y m d n rest, 100 <= year_of n <= 9999 -> ends_date rest ->
  exists cs, rsearch DateREX (format_date n ++ rest) = Some (rest, cs) /\ parse_date (y, m, d) cs = Ok n.
Proof.
  intros y m d n rest Hy Hr. exists (wdate_caps n). split.
  - apply (takes_search _ _ _ _ _ (takes_written n ltac:(lia)) Hr).
  - apply (parse_written y m d n []); [exact Hy|]. intros; constructor.
Qed.
Print Assumptions C15_date_in_line.
Example C15_example : set_date (2020, 2, 29) (B "1999/12/31") = Ok (go_date 1999 12 31) /\
  format_date (go_date 1999 12 31) = B "1999/12/31" /\ year_of (go_date 1999 12 31) = 1999.
Proof. repeat split; vm_compute; reflexivity. Qed.
(** below year 100 a written date is taken for a two digit year *)
Example C15_bound_is_sharp : set_date (2020, 2, 29) (format_date (go_date 99 1 1)) <> Ok (go_date 99 1 1).
Proof. vm_compute. discriminate. Qed.

(** ** C16 two digit years *)
Definition closest_year (y yy Y : Z) : Prop :=
  Y mod 100 = yy /\ forall Y', Y' mod 100 = yy -> Z.abs (Y - y) <= Z.abs (Y' - y).
(** holds while today's year is in the first 150 years of a millennium (2000-2150), the missing part
    is refuted below *)
Theorem C16_two_digit_year_partial : forall y m d ys ms ds,
  0 <= y -> y mod 1000 <= 150 -> digits_n 2 ys -> d12_ok ms -> d12_ok ds ->
  exists Y, closest_year y (num ys) Y /\ set_date (y, m, d) (ymd_text ys ms ds) = Ok (go_date Y (num ms) (num ds)).
Proof.
  intros y m d ys ms ds Hy Hy' Hys Hms Hds. exists (resolve_year (y, m, d) ys ms).
  assert (Hn : 0 <= num ys < 100) by (destruct Hys as [Hok Hl]; assert (H := num_bound _ Hok); rewrite Hl in H; exact H).
  assert (Hok : date_ok ys ms ds) by (unfold date_ok; auto).
  assert (Ht : ymd_text ys ms ds = date_text ys ms ds) by (destruct ys; [destruct Hys; discriminate|reflexivity]).
  split; [|rewrite Ht; apply set_date_text, Hok].
  unfold resolve_year. destruct ys as [|y0 yr]; [destruct Hys; discriminate|].
  set (n := num (y0 :: yr)) in *. replace (n <? 100) with true by lia.
  rewrite Z.quot_div_nonneg by lia. unfold closest_year. cbv zeta.
  destruct (_ && _) eqn:E1; [|destruct (_ && (50 <? _ - y)) eqn:E2]; (split; [lia|]); intros Y' HY'; lia.
Qed.
Print Assumptions C16_two_digit_year_partial.
Theorem C16_two_digit_year_refuted : ~ (forall y m d ys ms ds, 0 <= y ->
  digits_n 2 ys -> d12_ok ms -> d12_ok ds ->
  exists Y, closest_year y (num ys) Y /\ set_date (y, m, d) (ymd_text ys ms ds) = Ok (go_date Y (num ms) (num ds))).
Proof.
  intros H. destruct (H 1999 6 1 [9; 8] [1] [1]) as (Y & [HY HY'] & E); [lia| | | |].
  - split; [repeat constructor; lia|reflexivity].
  - split; [repeat constructor; lia|cbn; lia].
  - split; [repeat constructor; lia|cbn; lia].
  - change (num [1]) with 1 in E. change (num [9; 8]) with 98 in HY'. assert (G := HY' 1998 eq_refl).
    assert (E' : set_date (1999, 6, 1) (ymd_text [9; 8] [1] [1]) = Ok (go_date 1198 1 1)) by (vm_compute; reflexivity).
    rewrite E' in E. assert (EY : go_date Y 1 1 = go_date 1198 1 1) by congruence. clear E E'.
    apply (f_equal year_of) in EY. rewrite !year_go in EY by (apply valid_first; lia). subst Y. lia.
Qed.
Print Assumptions C16_two_digit_year_refuted.
Example C16_example : set_date (2026, 11, 17) (B "77/1/31") = Ok (go_date 1977 1 31) /\
  set_date (2026, 11, 17) (B "75/1/31") = Ok (go_date 2075 1 31) /\ closest_year 2026 77 1977.
Proof. split; [|split]; [vm_compute; reflexivity..|]. split; [reflexivity|]. intros; lia. Qed.

(** ** C17 year-less dates *)
(** always within six months (in calendar months) of today *)
Theorem C17_within_six_months : forall y m d ms ds,
  1 <= m <= 12 -> d12_ok ms -> d12_ok ds -> 1 <= num ms <= 12 ->
  exists Y, set_date (y, m, d) (md_text ms ds) = Ok (go_date Y (num ms) (num ds)) /\
  Z.abs (12 * Y + num ms - (12 * y + m)) <= 6.
Proof.
  intros y m d ms ds Hm Hms Hds Hn. exists (resolve_year (y, m, d) [] ms). split.
  - apply (set_date_text (y, m, d) [] ms ds). unfold date_ok; auto.
  - unfold resolve_year. destruct (_ && _) eqn:E1; [lia|destruct (_ && (6 <? num ms - m)) eqn:E2; lia].
Qed.
Print Assumptions C17_within_six_months.
Definition closest_date (td : Z) (mm dd Y : Z) : Prop :=
  forall Y', Z.abs (go_date Y mm dd - td) <= Z.abs (go_date Y' mm dd - td).
(** it is the closest date when the month is at most four months away from the current one, counting
    around the year; missing: months five to seven away, where it is refuted below *)
Theorem C17_closest_date_partial : forall y m d ms ds,
  valid_date y m d -> d12_ok ms -> d12_ok ds -> 1 <= num ms <= 12 -> 1 <= num ds <= 31 ->
  (Z.abs (num ms - m) <= 4 \/ 8 <= Z.abs (num ms - m)) ->
  exists Y, set_date (y, m, d) (md_text ms ds) = Ok (go_date Y (num ms) (num ds)) /\
  closest_date (go_date y m d) (num ms) (num ds) Y.
Proof.
  intros y m d ms ds [Hm Hd] Hms Hds Hn Hnd Hdist. assert (Hr := month_days_range y m).
  exists (resolve_year (y, m, d) [] ms). split.
  - apply (set_date_text (y, m, d) [] ms ds). unfold date_ok; auto.
  - set (Y := resolve_year (y, m, d) [] ms).
    assert (HY : Z.abs (12 * Y + num ms - (12 * y + m)) <= 4).
    { unfold Y, resolve_year. destruct (_ && _) eqn:E1; [lia|destruct (_ && (6 <? num ms - m)) eqn:E2; lia]. }
    intros Y'. destruct (Z.eq_dec Y' Y) as [->|Hne]; [lia|].
    assert (F : forall a b c, go_date a b c = mstart (12 * a + b - 1) + (c - 1)).
    { intros a b c. rewrite <- mstart_ym. replace c with (1 + (c - 1)) at 1 by lia. apply go_date_day. }
    rewrite !F.
    assert (Hfar : Z.abs (12 * Y' + num ms - (12 * y + m)) >= 8) by lia.
    set (k := 12 * y + m - 1). set (k1 := 12 * Y + num ms - 1). set (k2 := 12 * Y' + num ms - 1).
    assert (B1 : Z.abs (mstart k1 - mstart k) <= 124).
    { destruct (Z.le_gt_cases k k1).
      - assert (H1 := mstart_add k (Z.to_nat (k1 - k))). replace (k + Z.of_nat (Z.to_nat (k1 - k))) with k1 in H1 by lia. lia.
      - assert (H1 := mstart_add k1 (Z.to_nat (k - k1))). replace (k1 + Z.of_nat (Z.to_nat (k - k1))) with k in H1 by lia. lia. }
    assert (B2 : Z.abs (mstart k2 - mstart k) >= 224).
    { destruct (Z.le_gt_cases k k2).
      - assert (H1 := mstart_add k (Z.to_nat (k2 - k))). replace (k + Z.of_nat (Z.to_nat (k2 - k))) with k2 in H1 by lia. lia.
      - assert (H1 := mstart_add k2 (Z.to_nat (k - k2))). replace (k2 + Z.of_nat (Z.to_nat (k - k2))) with k in H1 by lia. lia. }
    lia.
Qed.
Print Assumptions C17_closest_date_partial.
(** 5 March 2020, "9/22" is read as 2020 although 22 September 2019 is closer *)
Theorem C17_closest_date_refuted : ~ (forall y m d ms ds,
  valid_date y m d -> d12_ok ms -> d12_ok ds -> 1 <= num ms <= 12 -> 1 <= num ds <= 31 ->
  exists Y, set_date (y, m, d) (md_text ms ds) = Ok (go_date Y (num ms) (num ds)) /\
  closest_date (go_date y m d) (num ms) (num ds) Y).
Proof.
  intros H. destruct (H 2020 3 5 [9] [2; 2]) as (Y & E & C).
  - unfold valid_date. vm_compute. intuition discriminate.
  - split; [repeat constructor; lia|cbn; lia].
  - split; [repeat constructor; lia|cbn; lia].
  - cbn; lia.
  - cbn; lia.
  - change (num [9]) with 9 in *. change (num [2; 2]) with 22 in *.
    assert (E' : set_date (2020, 3, 5) (md_text [9] [2; 2]) = Ok (go_date 2020 9 22)) by (vm_compute; reflexivity).
    rewrite E' in E. assert (EY : go_date Y 9 22 = go_date 2020 9 22) by congruence. clear E E'.
    assert (G := C 2019). rewrite EY in G. vm_compute in G. apply G. reflexivity.
Qed.
Print Assumptions C17_closest_date_refuted.
Example C17_example : set_date (2020, 1, 10) (B "12/25") = Ok (go_date 2019 12 25) /\
  set_date (2020, 11, 10) (B "1/3") = Ok (go_date 2021 1 3) /\ valid_date 2020 11 10.
Proof. split; [|split]; [vm_compute; reflexivity..|]. unfold valid_date. vm_compute. intuition discriminate. Qed.

(** ** C18 offsets.  The base date [b] is any calendar date; offsets up to a thousand million. *)
Theorem C18_days : forall b o, apply_offset b o "d"%char = b + o /\ apply_offset b o "w"%char = b + 7 * o.
Proof. intros. unfold apply_offset. cbn [eqc Ascii.eqb Bool.eqb]. change (eqc "d" "d") with true. split; [apply add_days|].
  change (eqc "w" "d") with false. change (eqc "w" "w") with true. cbv iota. rewrite add_days. lia. Qed.
Print Assumptions C18_days.
(** as typed after a full date *)
Theorem C18_typed_offset : forall td n neg ns u,
  100 <= year_of n <= 9999 -> digits_ok ns -> ns <> [] -> num ns <= 10 ^ 9 -> In u (B "dwmy") ->
  set_date td (format_date n ++ offset_text neg ns u) =
  Ok (match u with
      | "d"%char => n + signed neg (num ns)
      | "w"%char => n + 7 * signed neg (num ns)
      | "m"%char => go_date (year_of n) (month_of n + signed neg (num ns)) (day_of n)
      | _ => go_date (year_of n + signed neg (num ns)) (month_of n) (day_of n)
      end).
Proof.
  intros td n neg ns u Hy Hns Hne Hb Hu.
  destruct (format_date_text n ltac:(lia)) as (ys & ms & ds & H1 & H2 & H3 & E1 & E2 & E3 & E).
  rewrite E, set_date_offset; try assumption;
    [|apply written_ok; assumption|unfold int64_max; lia|cbn in Hu; intuition (subst; reflexivity)].
  assert (EY : go_date (resolve_year td ys ms) (num ms) (num ds) = n).
  { rewrite E2, E3. unfold resolve_year. destruct td as [[y m] d].
    destruct ys as [|y0 yr]; [destruct H1; discriminate|]. rewrite E1. replace (year_of n <? 100) with false by lia. apply go_date_civil. }
  rewrite EY. f_equal. cbn in Hu. destruct Hu as [<-|[<-|[<-|[<-|[]]]]].
  - apply C18_days.
  - apply C18_days.
  - unfold apply_offset. cbn. unfold add_date. rewrite !Z.add_0_r. reflexivity.
  - unfold apply_offset. cbn. unfold add_date. rewrite !Z.add_0_r. reflexivity.
Qed.
Print Assumptions C18_typed_offset.
(** typed alone it counts from today *)
Theorem C18_typed_offset_today : forall y m d neg ns, digits_ok ns -> ns <> [] -> num ns <= 10 ^ 9 ->
  set_date (y, m, d) (offset_text neg ns "d"%char) = Ok (go_date y m d + signed neg (num ns)).
Proof.
  intros y m d neg ns Hns Hne Hb. rewrite set_date_offset_only; try assumption; [|unfold int64_max; lia|reflexivity].
  f_equal. apply C18_days.
Qed.
Print Assumptions C18_typed_offset_today.
(** months and years keep the day of the month when the target month has such a day *)
Theorem C18_months_keep_day : forall y m d k, valid_date y m d ->
  let Y := y + (m - 1 + k) / 12 in let M := (m - 1 + k) mod 12 + 1 in
  valid_date Y M d -> civil (go_date y (m + k) d) = (Y, M, d).
Proof.
  intros y m d k Hv Y M HM. rewrite <- (civil_go_date Y M d HM). f_equal. unfold Y, M.
  replace (m + k) with ((m - 1 + k) mod 12 + 1 + 12 * ((m - 1 + k) / 12)) by lia. apply go_date_month12.
Qed.
Print Assumptions C18_months_keep_day.
Theorem C18_years_keep_day : forall y m d k, valid_date (y + k) m d -> civil (go_date (y + k) m d) = (y + k, m, d).
Proof. intros. apply civil_go_date. assumption. Qed.
Print Assumptions C18_years_keep_day.
Theorem C18_back_and_forth : forall b o u, u = "d"%char \/ u = "w"%char ->
  apply_offset (apply_offset b o u) (- o) u = b.
Proof. intros b o u [->| ->]; rewrite ?(proj1 (C18_days _ _)), ?(proj2 (C18_days _ _)); lia. Qed.
Print Assumptions C18_back_and_forth.
Example C18_example : set_date (2020, 2, 29) (B "2020/02/29-1y") = Ok (go_date 2019 3 1) /\
  set_date (2020, 2, 29) (B "2020/12/31+2m") = Ok (go_date 2021 3 3) /\
  set_date (2020, 2, 29) (B "+1w") = Ok (go_date 2020 3 7) /\
  format_date (go_date 2020 2 29) ++ offset_text true [1] "y"%char = B "2020/02/29-1y".
Proof. repeat split; vm_compute; reflexivity. Qed.

(** ** C19 the calendar *)
Theorem C19_every_day_is_a_date : forall n, let '(y, m, d) := civil n in valid_date y m d /\ go_date y m d = n.
Proof. intros n. assert (H := civil_ok n). destruct (civil n) as [[y m] d]. tauto. Qed.
Print Assumptions C19_every_day_is_a_date.
Theorem C19_every_date_is_a_day : forall y m d, valid_date y m d -> civil (go_date y m d) = (y, m, d).
Proof. exact civil_go_date. Qed.
Print Assumptions C19_every_date_is_a_day.
Theorem C19_consecutive : forall n, civil (n + 1) = next_day (civil n).
Proof. intros n. assert (H := civil_ok n). destruct (civil n) as [[y m] d]. apply H. Qed.
Print Assumptions C19_consecutive.
Theorem C19_origin : civil 0 = (1, 1, 1) /\ weekday 0 = 1 /\ forall n, weekday (n + 1) = (weekday n + 1) mod 7.
Proof. split; [reflexivity|]. split; [reflexivity|]. intros n. unfold weekday. lia. Qed.
Print Assumptions C19_origin.
(** carrying by hand: a day past the end of the month is in the next month, month 13 is January *)
Theorem C19_normalise : forall y m d,
  go_date y (m + 12) d = go_date (y + 1) m d /\
  (1 <= m <= 12 -> go_date y m (month_days y m + d) = go_date y (m + 1) d) /\
  go_date y m (d + 1) = go_date y m d + 1.
Proof.
  intros y m d. split; [|split].
  - apply (go_date_month12 y m d 1).
  - intros Hm. assert (H := go_date_next_month y m Hm).
    assert (F : forall a b c, go_date a b c = go_date a b 1 + (c - 1)).
    { intros a b c. replace c with (1 + (c - 1)) at 1 by lia. apply go_date_day. }
    rewrite (F y m), (F y (m + 1)). lia.
  - apply go_date_day.
Qed.
Print Assumptions C19_normalise.
Example C19_example : civil (go_date 2019 14 30) = (2020, 3, 1) /\ weekday (go_date 2026 11 17) = 2 /\ leap 2000 /\ ~ leap 1900.
Proof. split; [vm_compute; reflexivity|]. split; [vm_compute; reflexivity|]. unfold leap. split; lia. Qed.

(** ** C20 reporting periods *)
Theorem C20_week : forall t, reduce_week t <= t < reduce_week t + 7 /\ weekday (reduce_week t) = 0.
Proof. intros t. rewrite reduce_week_eq. unfold weekday. split; lia. Qed.
Print Assumptions C20_week.
Theorem C20_month : forall t, reduce_month t <= t /\ civil (reduce_month t) = (year_of t, month_of t, 1).
Proof.
  intros t. split; [rewrite reduce_month_eq; apply mi_bounds|].
  unfold reduce_month. apply civil_go_date, valid_first. apply civil_valid.
Qed.
Print Assumptions C20_month.
Theorem C20_quarter : forall t, reduce_quarter t <= t /\
  exists q, In q [1; 4; 7; 10] /\ q <= month_of t < q + 3 /\ civil (reduce_quarter t) = (year_of t, q, 1).
Proof.
  intros t. destruct (civil_valid t) as [Hm _]. split.
  - rewrite reduce_quarter_eq. assert (H := mi_bounds t). assert (mstart (3 * (mi t / 3)) <= mstart (mi t)) by (apply mstart_mono; lia). lia.
  - exists ((month_of t - 1) / 3 * 3 + 1). split; [|split].
    + assert (H : (month_of t - 1) / 3 = 0 \/ (month_of t - 1) / 3 = 1 \/ (month_of t - 1) / 3 = 2 \/ (month_of t - 1) / 3 = 3) by lia.
      destruct H as [->|[->|[->| ->]]]; cbn; tauto.
    + lia.
    + unfold reduce_quarter. apply civil_go_date, valid_first. lia.
Qed.
Print Assumptions C20_quarter.
Theorem C20_year : forall t, reduce_year t <= t /\ civil (reduce_year t) = (year_of t, 1, 1).
Proof.
  intros t. split.
  - rewrite reduce_year_eq. assert (H := mi_bounds t). assert (mstart (12 * (mi t / 12)) <= mstart (mi t)) by (apply mstart_mono; lia). lia.
  - unfold reduce_year. apply civil_go_date, valid_first. lia.
Qed.
Print Assumptions C20_year.
Definition reducers : list (Z -> Z) := [reduce_week; reduce_month; reduce_quarter; reduce_year].
Theorem C20_idempotent_monotone : forall r, In r reducers ->
  (forall t, r (r t) = r t) /\ (forall t t', t <= t' -> r t <= r t').
Proof.
  intros r [<-|[<-|[<-|[<-|[]]]]]; split; intros t; try intros t' H.
  - rewrite !reduce_week_eq. unfold weekday. lia.
  - rewrite !reduce_week_eq. unfold weekday. lia.
  - rewrite !reduce_month_eq, mi_mstart. reflexivity.
  - rewrite !reduce_month_eq. apply mstart_mono, mi_mono, H.
  - rewrite !reduce_quarter_eq, mi_mstart. f_equal. lia.
  - rewrite !reduce_quarter_eq. apply mstart_mono. assert (H' := mi_mono _ _ H). lia.
  - rewrite !reduce_year_eq, mi_mstart. f_equal. lia.
  - rewrite !reduce_year_eq. apply mstart_mono. assert (H' := mi_mono _ _ H). lia.
Qed.
Print Assumptions C20_idempotent_monotone.
(** two days share a period exactly when they are in the same month / quarter / year / Sunday-to-Saturday week *)
Theorem C20_same_period : forall t t',
  (reduce_month t = reduce_month t' <-> (year_of t, month_of t) = (year_of t', month_of t')) /\
  (reduce_quarter t = reduce_quarter t' <-> year_of t = year_of t' /\ (month_of t - 1) / 3 = (month_of t' - 1) / 3) /\
  (reduce_year t = reduce_year t' <-> year_of t = year_of t') /\
  (reduce_week t = reduce_week t' <-> exists sunday, weekday sunday = 0 /\ sunday <= t < sunday + 7 /\ sunday <= t' < sunday + 7).
Proof.
  intros t t'. assert (I : forall a b, mstart a = mstart b -> a = b).
  { intros a b H. rewrite <- (mi_mstart a), <- (mi_mstart b). f_equal. exact H. }
  destruct (civil_valid t) as [H1 _], (civil_valid t') as [H2 _].
  split; [|split; [|split]].
  - rewrite !reduce_month_eq. split.
    + intros H. apply I in H. unfold mi in H. f_equal; lia.
    + intros H. injection H as H3 H4. unfold mi. rewrite H3, H4. reflexivity.
  - rewrite !reduce_quarter_eq. split.
    + intros H. apply I in H. unfold mi in H. lia.
    + intros [H3 H4]. unfold mi. f_equal. lia.
  - rewrite !reduce_year_eq. split.
    + intros H. apply I in H. rewrite !mi_year. lia.
    + intros H. rewrite !mi_year in H. rewrite H. reflexivity.
  - rewrite !reduce_week_eq. unfold weekday. split.
    + intros H. exists (t - (t + 1) mod 7). lia.
    + intros (s & Hs & Ha & Hb). lia.
Qed.
Print Assumptions C20_same_period.
Example C20_example : reduce_week (go_date 2020 1 1) = go_date 2019 12 29 /\
  reduce_quarter (go_date 2020 12 31) = go_date 2020 10 1.
Proof. split; vm_compute; reflexivity. Qed.
