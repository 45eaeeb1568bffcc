(** The calendar functions, day of the year and leap years. *)
From Verif Require Import Base M_Regex M_Date S_Date.

Lemma dse_closed y : days_since_epoch y = 365 * (y - 1) + (y - 1) / 4 - (y - 1) / 100 + (y - 1) / 400.
Proof.
  unfold days_since_epoch. cbv zeta. set (x := y - 1).
  set (n := x / 400). set (r := x - 400 * n).
  assert (Hr : 0 <= r < 400) by (unfold r, n; lia).
  assert (E4 : x / 4 = 100 * n + r / 4) by (unfold r; lia).
  assert (E100 : x / 100 = 4 * n + r / 100) by (unfold r; lia).
  rewrite E4, E100. assert (Hx : x = 400 * n + r) by (unfold r; lia). rewrite Hx. clearbody r n. clear. lia.
Qed.
Lemma dse_step y : days_since_epoch (y + 1) = days_since_epoch y + (if leapb y then 366 else 365).
Proof.
  rewrite !dse_closed. replace (y + 1 - 1) with y by lia. unfold leapb.
  destruct (y mod 400 =? 0) eqn:E1, (y mod 4 =? 0) eqn:E2, (y mod 100 =? 0) eqn:E3; cbn [andb orb negb]; lia.
Qed.

(** day of the year [d] (from 0) to month and day *)
Definition of_yday (lp : bool) (d : Z) : Z * Z :=
  if lp && (d =? 59) then (2, 29)
  else
    let day := if lp && (59 <? d) then d - 1 else d in
    let month := day / 31 in
    let fin := days_before (month + 1) in
    let '(month, begin) := if fin <=? day then (month + 1, fin) else (month, days_before month) in
    (month + 1, day - begin + 1).
Definition mdays (lp : bool) (m : Z) : Z :=
  if m =? 2 then (if lp then 29 else 28)
  else if (m =? 4) || (m =? 6) || (m =? 9) || (m =? 11) then 30 else 31.
Definition yday (lp : bool) (m d : Z) : Z := days_before (m - 1) + (if lp && (3 <=? m) then 1 else 0) + (d - 1).
Definition check_yday (lp : bool) (d : Z) : bool :=
  let '(m, dd) := of_yday lp d in
  (1 <=? m) && (m <=? 12) && (1 <=? dd) && (dd <=? mdays lp m) && (yday lp m dd =? d).
Fixpoint all_upto (fuel : nat) (n : Z) (f : Z -> bool) : bool :=
  match fuel with O => true | S k => f n && all_upto k (n + 1) f end.
Lemma all_upto_spec f fuel : forall n, all_upto fuel n f = true -> forall i, n <= i < n + Z.of_nat fuel -> f i = true.
Proof.
  induction fuel as [|k IH]; intros n H i Hi; [lia|]. cbn [all_upto] in H. apply andb_true_iff in H as [H1 H2].
  destruct (Z.eq_dec i n) as [->|Hne]; [exact H1|]. apply (IH _ H2). lia.
Qed.
Lemma yday_ok_t : all_upto 366 0 (check_yday true) = true.
Proof. vm_compute. reflexivity. Qed.
Lemma yday_ok_f : all_upto 365 0 (check_yday false) = true.
Proof. vm_compute. reflexivity. Qed.
Lemma of_yday_ok (lp : bool) d : 0 <= d < (if lp then 366 else 365) -> check_yday lp d = true.
Proof.
  intros H. destruct lp.
  - apply (all_upto_spec _ _ _ yday_ok_t). change (Z.of_nat 366) with 366. lia.
  - apply (all_upto_spec _ _ _ yday_ok_f). change (Z.of_nat 365) with 365. lia.
Qed.

(** the year and the day of the year of a day number *)
Definition year_yday (n : Z) : Z * Z :=
  let c := n / 146097 in let y := 400 * c in let d := n - 146097 * c in
  let c := d / 36524 in let c := c - c / 4 in let y := y + 100 * c in let d := d - 36524 * c in
  let c := d / 1461 in let y := y + 4 * c in let d := d - 1461 * c in
  let c := d / 365 in let c := c - c / 4 in let y := y + c in let d := d - 365 * c in
  (y + 1, d).
Lemma civil_split n : civil n = let '(y, d) := year_yday n in let '(m, dd) := of_yday (is_leap y) d in (y, m, dd).
Proof.
  unfold civil, year_yday, of_yday. cbv zeta. destruct (is_leap _ && (_ =? 59)); [reflexivity|].
  destruct (days_before _ <=? _); reflexivity.
Qed.
Lemma year_yday_ok n : let '(y, d) := year_yday n in
  days_since_epoch y + d = n /\ 0 <= d < (if leapb y then 366 else 365).
Proof.
  unfold year_yday. cbv zeta.
  set (c1 := n / 146097). set (d1 := n - 146097 * c1).
  assert (H1 : 0 <= d1 < 146097) by (unfold d1, c1; lia).
  set (c2 := d1 / 36524 - d1 / 36524 / 4). set (d2 := d1 - 36524 * c2).
  assert (H2 : 0 <= c2 <= 3 /\ 0 <= d2 /\ d2 <= 36524 /\ (d2 = 36524 -> c2 = 3)) by (unfold d2, c2; lia).
  set (c3 := d2 / 1461). set (d3 := d2 - 1461 * c3).
  assert (H3 : 0 <= c3 <= 24 /\ 0 <= d3 < 1461 /\ (c3 = 24 -> d3 <= 1460) /\ (c3 = 24 -> c2 <> 3 -> d3 < 1460)) by (unfold d3, c3; lia).
  set (c4 := d3 / 365 - d3 / 365 / 4). set (d4 := d3 - 365 * c4).
  assert (H4 : 0 <= c4 <= 3 /\ 0 <= d4 <= 365 /\ (d4 = 365 -> c4 = 3 /\ d3 = 1460)) by (unfold d4, c4; lia).
  assert (En : n = 146097 * c1 + 36524 * c2 + 1461 * c3 + 365 * c4 + d4) by (unfold d4, d3, d2, d1; lia).
  clearbody c1 d1 c2 d2 c3 d3 c4 d4.
  set (y := 400 * c1 + 100 * c2 + 4 * c3 + c4 + 1).
  assert (Q4 : (y - 1) / 4 = 100 * c1 + 25 * c2 + c3) by (unfold y; lia).
  assert (Q100 : (y - 1) / 100 = 4 * c1 + c2) by (unfold y; lia).
  assert (Q400 : (y - 1) / 400 = c1) by (unfold y; lia).
  split; [rewrite dse_closed, Q4, Q100, Q400; unfold y; lia|].
  split; [lia|]. unfold leapb.
  destruct (Z.eq_dec d4 365) as [Hd|Hd].
  - destruct H4 as (_ & _ & H4). destruct (H4 Hd) as [-> H5].
    replace (y mod 4 =? 0) with true by (unfold y; lia).
    destruct (Z.eq_dec c3 24) as [->|Hc3].
    + assert (c2 = 3) by lia. subst c2. replace (y mod 400 =? 0) with true by (unfold y; lia). rewrite orb_true_r. lia.
    + replace (y mod 100 =? 0) with false by (unfold y; lia). cbn [negb andb orb]. lia.
  - destruct (_ || _); lia.
Qed.
