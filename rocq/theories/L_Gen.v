(** Lemmas for gen2coin: dates and powers. *)
From Coq Require Import Permutation Sorted.
From Verif Require Import Base M_Date S_Date L_Dec L_Calendar L_Date L_Sort M_Gen.

(** ** times *)
Lemma day_clock t : t = day_secs * day_no t + clock t /\ 0 <= clock t < day_secs.
Proof. unfold day_no, clock, day_secs. lia. Qed.
Lemma day_no_make d c : 0 <= c < day_secs -> day_no (day_secs * d + c) = d.
Proof. unfold day_no, day_secs. lia. Qed.
Lemma clock_make d c : 0 <= c < day_secs -> clock (day_secs * d + c) = c.
Proof. unfold clock, day_secs. lia. Qed.
Lemma t_add_days t d : t_add t 0 0 d = t + day_secs * d.
Proof. unfold t_add. rewrite add_days. destruct (day_clock t) as [E _]. unfold day_secs in *. lia. Qed.
Lemma day_no_add t d : day_no (t + day_secs * d) = day_no t + d.
Proof. unfold day_no, day_secs. lia. Qed.
Lemma clock_add t d : clock (t + day_secs * d) = clock t.
Proof. unfold clock, day_secs. lia. Qed.
Lemma t_lt_day t t' : clock t = clock t' -> (t < t' <-> day_no t < day_no t').
Proof. unfold day_no, clock, day_secs. lia. Qed.

(** ** random picks *)
Lemma random_picks_perm rnd : forall n k c ps k', random_picks rnd k n c = (ps, k') ->
  exists rest, Permutation c (ps ++ rest) /\ List.length ps = Nat.min n (List.length c).
Proof.
  induction n as [|n IH]; intros k c ps k' H; cbn [random_picks] in H.
  { injection H as <- <-. exists c. split; [reflexivity|reflexivity]. }
  destruct c as [|x c].
  { injection H as <- <-. exists []. split; [constructor|]. cbn. lia. }
  remember (x :: c) as l eqn:El.
  assert (Hl : (0 < List.length l)%nat) by (subst l; cbn; lia).
  assert (Ho : (intn rnd k (List.length l) < List.length l)%nat) by (apply Nat.mod_upper_bound; lia).
  remember (intn rnd k (List.length l)) as o eqn:Eo.
  destruct (random_picks rnd (S k) n (firstn o l ++ skipn (S o) l)) as [ps' k''] eqn:E.
  injection H as <- <-.
  destruct (IH _ _ _ _ E) as (rest & Hp & Hlen).
  assert (Hs : l = firstn o l ++ nth o l 0 :: skipn (S o) l).
  { rewrite <- (firstn_skipn o l) at 1. f_equal.
    clear -Ho. revert l Ho. induction o as [|o IH]; intros [|y l] Ho; cbn [List.length] in Ho; try lia; [reflexivity|].
    cbn [skipn nth]. apply IH. lia. }
  exists rest. split.
  - rewrite Hs at 1. cbn [app]. rewrite <- Permutation_middle. constructor. exact Hp.
  - cbn [List.length]. rewrite Hlen. rewrite app_length, firstn_length, skipn_length. lia.
Qed.

(** what one round picks *)
Definition picked (count : Z) (days ps : list Z) : Prop :=
  (Z.of_nat (List.length days) <= count /\ ps = days) \/
  (count < Z.of_nat (List.length days) /\ exists rest, Permutation days (ps ++ rest) /\ List.length ps = Z.to_nat count).
Lemma picks_picked rnd k count days ps k' : picks_of rnd k count days = (ps, k') -> picked count days ps.
Proof.
  unfold picks_of, picked. intros H. destruct (Z.ltb_spec count (Z.of_nat (List.length days))) as [L|L].
  - right. split; [exact L|]. destruct (random_picks_perm _ _ _ _ _ _ H) as (rest & Hp & Hn).
    exists rest. split; [exact Hp|]. rewrite Hn. lia.
  - left. injection H as <- <-. split; [lia|reflexivity].
Qed.
Lemma picked_in count days ps p : picked count days ps -> In p ps -> In p days.
Proof.
  intros [[_ ->]|(_ & rest & Hp & _)] H; [exact H|]. apply (Permutation_in _ (Permutation_sym Hp)). apply in_or_app. left; exact H.
Qed.
Lemma picked_length count days ps : picked count days ps -> Z.of_nat (List.length ps) = Z.min (Z.max 0 count) (Z.of_nat (List.length days)).
Proof. intros [[H ->]|(H & rest & Hp & ->)]; [lia|]. lia. Qed.
Lemma picked_perm count days ps ps' : Permutation ps ps' -> picked count days ps -> count < Z.of_nat (List.length days) -> picked count days ps'.
Proof.
  intros Hp [[H _]|(H & rest & Hq & Hl)] Hc; [lia|]. right. split; [exact H|]. exists rest. split.
  - rewrite Hq. apply Permutation_app_tail. exact Hp.
  - rewrite <- Hl. symmetry. apply Permutation_length. exact Hp.
Qed.
Lemma picked_nodup count days ps : picked count days ps -> NoDup days -> NoDup ps.
Proof.
  intros [[_ ->]|(_ & rest & Hp & _)] H; [exact H|].
  apply (Permutation_NoDup Hp) in H. clear -H. induction ps as [|x ps IH]; [constructor|].
  cbn in H. apply NoDup_cons_iff in H as [Hx Hn]. constructor; [|apply IH; exact Hn]. intros C. apply Hx. apply in_or_app. left; exact C.
Qed.

(** ** sorting integers *)
Lemma ltb_weak : weak_order Z.ltb.
Proof. unfold weak_order. repeat split; intros; lia. Qed.
Lemma sort_ints_perm l : Permutation l (sort_ints l).
Proof. apply stable_sort_perm. Qed.
Lemma sort_ints_sorted l : StronglySorted Z.le (sort_ints l).
Proof.
  assert (H := stable_sort_sorted Z.ltb l ltb_weak). fold sort_ints in H. unfold sorted_by in H. change (stable_sort Z.ltb l) with (sort_ints l) in H.
  induction H as [|x r _ IH HF]; [constructor|]. constructor; [exact IH|].
  eapply Forall_impl; [|exact HF]. cbn. intros y Hy. lia.
Qed.
Lemma sorted_le_nodup l : StronglySorted Z.le l -> NoDup l -> StronglySorted Z.lt l.
Proof.
  induction l as [|x r IH]; intros Hs Hn; [constructor|].
  inversion Hs as [|? ? Hs' HF]; subst. apply NoDup_cons_iff in Hn as [Hx Hn]. constructor; [auto|].
  rewrite Forall_forall in *. intros y Hy. specialize (HF y Hy). destruct (Z.eq_dec x y) as [->|]; [contradiction|lia].
Qed.

(** ** weekly as a list of rounds *)
Lemma weekly_rounds rnd count interval days begin end_ : 1 <= interval -> forall fuel k current,
  (Z.to_nat (end_ - current) < fuel)%nat ->
  exists (n : nat) (P : nat -> list Z),
    (forall j, (j < n)%nat <-> current + day_secs * (7 * interval * Z.of_nat j) < end_) /\
    (forall j, picked count days (P j) /\ (count < Z.of_nat (List.length days) -> StronglySorted Z.le (P j))) /\
    weekly_loop fuel rnd k count interval days begin end_ current =
    flat_map (fun j => filter (in_range begin end_) (map (fun p => current + day_secs * (7 * interval * Z.of_nat j + p)) (P j))) (seq 0 n).
Proof.
  intros Hi. induction fuel as [|f IH]; intros k current Hf; [lia|]. cbn [weekly_loop].
  destruct (Z.ltb_spec current end_) as [L|L].
  - destruct (picks_of rnd k count days) as [picks k'] eqn:Ep.
    assert (Hpk := picks_picked _ _ _ _ _ _ Ep).
    set (picks' := if count <? Z.of_nat (List.length days) then sort_ints picks else picks).
    assert (Hpk' : picked count days picks' /\ (count < Z.of_nat (List.length days) -> StronglySorted Z.le picks')).
    { subst picks'. destruct (Z.ltb_spec count (Z.of_nat (List.length days))) as [C|C].
      - split; [|intros; apply sort_ints_sorted]. eapply picked_perm; [apply sort_ints_perm|exact Hpk|exact C].
      - split; [exact Hpk|lia]. }
    destruct (IH k' (t_add current 0 0 (7 * interval))) as (n & P & Hn & HP & E).
    { rewrite t_add_days. unfold day_secs. lia. }
    exists (S n), (fun j => match j with O => picks' | S j' => P j' end). split; [|split].
    + intros [|j].
      * split; intros _; [unfold day_secs; lia|lia].
      * specialize (Hn j). rewrite t_add_days in Hn. unfold day_secs in *. lia.
    + intros [|j]; [exact Hpk'|apply HP].
    + cbn [seq flat_map]. f_equal.
      * f_equal. apply map_ext. intros p. rewrite t_add_days. f_equal. f_equal. lia.
      * rewrite E. rewrite <- seq_shift. rewrite !flat_map_concat_map, map_map. f_equal. apply map_ext. intros j. f_equal.
        apply map_ext. intros p. rewrite t_add_days. unfold day_secs. lia.
  - exists O, (fun _ => if count <? Z.of_nat (List.length days) then sort_ints (fst (picks_of rnd k count days)) else days).
    split; [|split; [|reflexivity]].
    + intros j. split; intros H; [lia|unfold day_secs in *; lia].
    + intros _. destruct (picks_of rnd k count days) as [picks k'] eqn:Ep. assert (Hpk := picks_picked _ _ _ _ _ _ Ep). cbn [fst].
      destruct (Z.ltb_spec count (Z.of_nat (List.length days))) as [C|C].
      * split; [|intros; apply sort_ints_sorted]. eapply picked_perm; [apply sort_ints_perm|exact Hpk|exact C].
      * split; [left; split; [lia|reflexivity]|lia].
Qed.

(** ** monthly as a list of rounds *)
Lemma t_add_month c i o k : 0 <= c < day_secs -> t_add (day_secs * mstart k + c) 0 i o = day_secs * (mstart (k + i) + o) + c.
Proof.
  intros Hc. unfold t_add. rewrite day_no_make, clock_make by exact Hc. f_equal. f_equal. unfold add_date. rewrite day_mstart, mi_year, mi_month, mi_mstart.
  rewrite Z.add_0_r. rewrite go_date_mstart. replace (1 + o - 1) with o by lia. f_equal. f_equal. lia.
Qed.
Lemma t_add_first t : t_add t 0 0 (1 - day_of (day_no t)) = day_secs * mstart (mi (day_no t)) + clock t.
Proof.
  unfold t_add. rewrite add_days. f_equal. f_equal.
  assert (H := go_date_civil (day_no t)). rewrite go_date_mstart in H. unfold mi. lia.
Qed.
Definition month_size (k : Z) : Z := mstart (k + 1) - mstart k.
(** the day of month [k] meant by [p] *)
Definition named_day (k p : Z) : Z := if p <=? 0 then mstart (k + 1) + p else mstart k + (p - 1).
Lemma month_pick_eq c k p : 0 <= c < day_secs -> month_pick (day_secs * mstart k + c) p = day_secs * named_day k p + c.
Proof.
  intros Hc. unfold month_pick, named_day. destruct (p <=? 0).
  - apply t_add_month. exact Hc.
  - rewrite t_add_days. unfold day_secs. lia.
Qed.
Lemma same_month_eq a b : same_month a b = (mi (day_no a) =? mi (day_no b)).
Proof.
  unfold same_month, mi. assert (Ha := civil_valid (day_no a)). assert (Hb := civil_valid (day_no b)).
  destruct Ha as [Ha _], Hb as [Hb _]. lia.
Qed.
Definition wanted_days (days : list Z) (k : Z) : list Z := match days with [] => month_days_list (month_size k) | _ => days end.
Lemma day_of_eq t : day_of t = t - mstart (mi t) + 1.
Proof. assert (H := go_date_civil t). rewrite go_date_mstart in H. unfold mi. lia. Qed.
Lemma last_day k : day_of (mstart (k + 1) + -1) = month_size k.
Proof.
  unfold month_size. assert (Hs := mstart_step k). rewrite day_of_eq, (mi_unique _ k) by lia. lia.
Qed.
Lemma wanted_eq c k days : 0 <= c < day_secs ->
  match days with [] => month_days_list (day_of (day_no (t_add (day_secs * mstart k + c) 0 1 (-1)))) | _ => days end = wanted_days days k.
Proof.
  intros Hc. unfold wanted_days. destruct days; [|reflexivity].
  assert (E : day_of (day_no (t_add (day_secs * mstart k + c) 0 1 (-1))) = month_size k); [|rewrite E; reflexivity].
  rewrite t_add_month by exact Hc. rewrite day_no_make by exact Hc. apply last_day.
Qed.
Lemma monthly_rounds rnd count interval days begin end_ c : 1 <= interval -> 0 <= c < day_secs -> forall fuel k m,
  (Z.to_nat (end_ - (day_secs * mstart m + c)) < fuel)%nat ->
  exists (n : nat) (P : nat -> list Z),
    (forall j, (j < n)%nat <-> day_secs * mstart (m + interval * Z.of_nat j) + c < end_) /\
    (forall j, picked count (wanted_days days (m + interval * Z.of_nat j)) (P j)) /\
    monthly_loop fuel rnd k count interval days begin end_ (day_secs * mstart m + c) =
    flat_map (fun j => sort_ints (filter (fun t => (mi (day_no t) =? m + interval * Z.of_nat j) && in_range begin end_ t)
                                         (map (fun p => day_secs * named_day (m + interval * Z.of_nat j) p + c) (P j)))) (seq 0 n).
Proof.
  intros Hi Hc. induction fuel as [|f IH]; intros k m Hf; [lia|]. cbn [monthly_loop].
  rewrite (wanted_eq c m days Hc).
  assert (Hm1 := mstart_step m).
  destruct (Z.ltb_spec (day_secs * mstart m + c) end_) as [L|L].
  - destruct (picks_of rnd k count (wanted_days days m)) as [picks k'] eqn:Ep.
    assert (Hpk := picks_picked _ _ _ _ _ _ Ep).
    rewrite t_add_month by exact Hc. rewrite Z.add_0_r.
    destruct (IH k' (m + interval)) as (n & P & Hn & HP & E).
    { assert (mstart (m + 1) <= mstart (m + interval)) by (apply mstart_mono; lia). unfold day_secs in *. lia. }
    exists (S n), (fun j => match j with O => picks | S j' => P j' end). split; [|split].
    + intros [|j].
      * rewrite Z.mul_0_r, Z.add_0_r. split; intros _; [exact L|lia].
      * specialize (Hn j). replace (m + interval * Z.of_nat (S j)) with (m + interval + interval * Z.of_nat j) by lia. lia.
    + intros [|j]; [rewrite Z.mul_0_r, Z.add_0_r; exact Hpk|].
      replace (m + interval * Z.of_nat (S j)) with (m + interval + interval * Z.of_nat j) by lia. apply HP.
    + cbn [seq flat_map]. f_equal.
      * rewrite Z.mul_0_r, Z.add_0_r. f_equal.
        rewrite (map_ext _ (fun p => day_secs * named_day m p + c)) by (intros p; apply month_pick_eq; exact Hc).
        apply filter_ext. intros t. rewrite same_month_eq, day_no_make, mi_mstart by exact Hc. rewrite (Z.eqb_sym m). reflexivity.
      * rewrite E. rewrite <- seq_shift. rewrite !flat_map_concat_map, map_map. f_equal. apply map_ext. intros j.
        replace (m + interval * Z.of_nat (S j)) with (m + interval + interval * Z.of_nat j) by lia. reflexivity.
  - exists O, (fun j => fst (picks_of rnd k count (wanted_days days (m + interval * Z.of_nat j)))).
    split; [|split; [|reflexivity]].
    + intros j. assert (mstart m <= mstart (m + interval * Z.of_nat j)) by (apply mstart_mono; lia). unfold day_secs in *. lia.
    + intros j. destruct (picks_of rnd k count (wanted_days days (m + interval * Z.of_nat j))) as [ps k'] eqn:E. cbn [fst].
      eapply picks_picked. exact E.
Qed.

(** ** rounds in ascending order *)
Lemma sorted_app (R : Z -> Z -> Prop) l l' : StronglySorted R l -> StronglySorted R l' -> (forall x y, In x l -> In y l' -> R x y) ->
  StronglySorted R (l ++ l').
Proof.
  intros H H' Hx. induction H as [|x r Hs IH HF]; [exact H'|]. cbn. constructor.
  - apply IH. intros; apply Hx; [right|]; assumption.
  - apply Forall_forall. intros y Hy. apply in_app_or in Hy as [Hy|Hy]; [rewrite Forall_forall in HF; auto|]. apply Hx; [left; reflexivity|exact Hy].
Qed.
Lemma sorted_rounds (R : Z -> Z -> Prop) (g : nat -> list Z) (lo : nat -> Z) n :
  (forall x y, x < y -> R x y) ->
  (forall j, StronglySorted R (g j)) -> (forall j x, In x (g j) -> lo j <= x < lo (S j)) -> (forall j, lo j <= lo (S j)) ->
  forall s, StronglySorted R (flat_map g (seq s n)).
Proof.
  intros HR Hg Hb Hlo. assert (Hm : forall i j, (i <= j)%nat -> lo i <= lo j).
  { intros i j Hij. induction Hij as [|j' _ IH]; [lia|]. specialize (Hlo j'). lia. }
  induction n as [|n IH]; intros s; cbn [seq flat_map]; [constructor|]. apply sorted_app; [apply Hg|apply IH|].
  intros x y Hx Hy. apply in_flat_map in Hy as (j & Hj & Hy). apply in_seq in Hj. apply Hb in Hx, Hy.
  apply HR. assert (H := Hm (S s) j ltac:(lia)). lia.
Qed.
Lemma sorted_filter (R : Z -> Z -> Prop) P l : StronglySorted R l -> StronglySorted R (filter P l).
Proof.
  intros H. induction H as [|x r Hs IH HF]; [constructor|]. cbn. destruct (P x); [|exact IH]. constructor; [exact IH|].
  apply Forall_forall. intros y Hy. apply filter_In in Hy as [Hy _]. rewrite Forall_forall in HF. auto.
Qed.
Lemma sorted_map_lt f l : (forall x y, x < y -> f x < f y) -> StronglySorted Z.lt l -> StronglySorted Z.lt (map f l).
Proof.
  intros Hf H. induction H as [|x r Hs IH HF]; [constructor|]. cbn. constructor; [exact IH|].
  apply Forall_forall. intros y Hy. apply in_map_iff in Hy as (z & <- & Hz). rewrite Forall_forall in HF. apply Hf. auto.
Qed.
Lemma sorted_map_le f l : (forall x y, x <= y -> f x <= f y) -> StronglySorted Z.le l -> StronglySorted Z.le (map f l).
Proof.
  intros Hf H. induction H as [|x r Hs IH HF]; [constructor|]. cbn. constructor; [exact IH|].
  apply Forall_forall. intros y Hy. apply in_map_iff in Hy as (z & <- & Hz). rewrite Forall_forall in HF. apply Hf. auto.
Qed.

(** ** the dates of one round *)
Lemma filter_rounds (g : nat -> list Z) (tag : Z -> Z) (key : nat -> Z) :
  (forall i x, In x (g i) -> tag x = key i) -> (forall i j, key i = key j -> i = j) -> forall j n s,
  filter (fun x => tag x =? key j) (flat_map g (seq s n)) = if (s <=? j)%nat && (j <? s + n)%nat then g j else [].
Proof.
  intros Ht Hk j. induction n as [|n IH]; intros s; cbn [seq flat_map].
  - destruct ((s <=? j)%nat && (j <? s + 0)%nat) eqn:E; [lia|reflexivity].
  - rewrite filter_app, IH. destruct (Nat.eq_dec s j) as [->|Hne].
    + assert (E : filter (fun x => tag x =? key j) (g j) = g j).
      { clear -Ht. assert (H : forall x, In x (g j) -> tag x = key j) by (intros; auto). revert H. generalize (g j).
        induction l as [|x l IH]; intros H; [reflexivity|]. cbn. rewrite (H x (or_introl eq_refl)), Z.eqb_refl. f_equal. apply IH. intros; apply H; right; assumption. }
      rewrite E. destruct ((S j <=? j)%nat && (j <? S j + n)%nat) eqn:E1; [lia|].
      destruct ((j <=? j)%nat && (j <? j + S n)%nat) eqn:E2; [|lia]. apply app_nil_r.
    + assert (E : filter (fun x => tag x =? key j) (g s) = []).
      { clear -Ht Hk Hne. assert (H : forall x, In x (g s) -> tag x <> key j) by (intros x Hx C; rewrite (Ht s x Hx) in C; apply Hne; auto).
        revert H. generalize (g s). induction l as [|x l IH]; intros H; [reflexivity|]. cbn.
        destruct (Z.eqb_spec (tag x) (key j)) as [C|C]; [exfalso; apply (H x (or_introl eq_refl) C)|]. apply IH. intros; apply H; right; assumption. }
      rewrite E. cbn [app]. destruct ((S s <=? j)%nat && (j <? S s + n)%nat) eqn:E1, ((s <=? j)%nat && (j <? s + S n)%nat) eqn:E2; try reflexivity; lia.
Qed.

(** ** pow *)
Lemma wrap64_mod a : (wrap64 a - a) mod 2 ^ 64 = 0.
Proof. unfold wrap64. change (2 ^ 64) with 18446744073709551616. change (2 ^ 63) with 9223372036854775808. lia. Qed.
Definition eqm (a b : Z) : Prop := a mod 2 ^ 64 = b mod 2 ^ 64.
Lemma eqm_wrap a : eqm (wrap64 a) a.
Proof. unfold eqm, wrap64. change (2 ^ 64) with 18446744073709551616. change (2 ^ 63) with 9223372036854775808. lia. Qed.
Lemma eqm_mul a a' b b' : eqm a a' -> eqm b b' -> eqm (a * b) (a' * b').
Proof. unfold eqm. intros H H'. rewrite Z.mul_mod, H, H', <- Z.mul_mod by (vm_compute; discriminate). reflexivity. Qed.
Lemma wrap_eqm a b : eqm a b -> wrap64 a = wrap64 b.
Proof. unfold eqm, wrap64. change (2 ^ 64) with 18446744073709551616. change (2 ^ 63) with 9223372036854775808. lia. Qed.
Lemma wrap_small a : - 2 ^ 63 <= a < 2 ^ 63 -> wrap64 a = a.
Proof. unfold wrap64. change (2 ^ 64) with 18446744073709551616. change (2 ^ 63) with 9223372036854775808. lia. Qed.

Lemma land_pow2 i e : 0 <= i -> 0 <= e -> (Z.land (2 ^ i) e =? 0) = negb (Z.testbit e i).
Proof.
  intros Hi He. destruct (Z.testbit e i) eqn:E.
  - destruct (Z.eqb_spec (Z.land (2 ^ i) e) 0) as [C|C]; [|reflexivity].
    exfalso. assert (T : Z.testbit (Z.land (2 ^ i) e) i = true) by (rewrite Z.land_spec, Z.pow2_bits_true, E by lia; reflexivity).
    rewrite C, Z.bits_0 in T. discriminate.
  - cbn. apply Z.eqb_eq. apply Z.bits_inj'. intros n Hn. rewrite Z.land_spec, Z.bits_0.
    destruct (Z.eq_dec n i) as [->|Hne]; [rewrite E; apply andb_false_r|]. rewrite Z.pow2_bits_false by lia. reflexivity.
Qed.
Lemma mod_next e i : 0 <= i -> e mod 2 ^ (i + 1) = e mod 2 ^ i + (if Z.testbit e i then 2 ^ i else 0).
Proof.
  intros Hi. rewrite Z.pow_add_r, Z.pow_1_r by lia. rewrite Z.rem_mul_r by lia.
  assert (H := Z.testbit_spec' e i Hi). destruct (Z.testbit e i); cbn [Z.b2z] in H; rewrite <- H; lia.
Qed.
Lemma pow_loop_ok base e : 0 <= e < 2 ^ 62 -> forall n (i : Z) p r f,
  0 <= i <= 63 -> Z.of_nat n = 63 - i -> (n < f)%nat ->
  (i = 0 \/ 2 ^ (i - 1) <= e) -> eqm p (base ^ (2 ^ i)) -> wrap64 (base ^ (e mod 2 ^ i)) = r ->
  pow_loop f (2 ^ i) p r e = Some (wrap64 (base ^ e)).
Proof.
  intros He. induction n as [|n IH]; intros i p r f Hi Hn Hf Hle Hp Hr.
  - exfalso. clear Hp Hr. assert (i = 63) by lia. subst i. destruct Hle as [C|C]; [lia|]. change (63 - 1) with 62 in C. lia.
  - destruct f as [|f]; [lia|]. cbn [pow_loop]. destruct (Z.leb_spec (2 ^ i) e) as [L|L].
    + assert (Hi62 : i < 62) by (clear IH Hp Hr Hn Hf Hle; apply (Z.pow_lt_mono_r_iff 2); lia).
      assert (Hw : wrap64 (2 * 2 ^ i) = 2 ^ (i + 1)).
      { clear IH Hp Hr Hn Hf Hle. rewrite Z.pow_add_r, Z.pow_1_r by lia. rewrite wrap_small; [lia|].
        assert (0 < 2 ^ i) by (apply Z.pow_pos_nonneg; lia).
        assert (2 ^ 62 + 2 ^ 62 = 2 ^ 63) by reflexivity. assert (2 ^ i < 2 ^ 62) by lia. lia. }
      rewrite Hw. apply (IH (i + 1)).
      * lia.
      * clear Hp Hr IH. lia.
      * clear Hp Hr IH. lia.
      * right. replace (i + 1 - 1) with i by lia. exact L.
      * eapply eq_trans; [apply eqm_wrap|]. rewrite (Z.pow_add_r 2 i 1), Z.pow_1_r by lia.
        replace (2 ^ i * 2) with (2 ^ i + 2 ^ i) by lia. rewrite Z.pow_add_r by lia. apply eqm_mul; exact Hp.
      * rewrite land_pow2 by lia. rewrite mod_next by lia. assert (0 <= e mod 2 ^ i) by (apply Z.mod_pos_bound; lia).
        destruct (Z.testbit e i); cbn [negb].
        -- rewrite Z.pow_add_r by lia. symmetry. apply wrap_eqm. rewrite <- Hr. apply eqm_mul; [apply eqm_wrap|exact Hp].
        -- rewrite Z.add_0_r. exact Hr.
    + f_equal. rewrite <- Hr. rewrite Z.mod_small by lia. reflexivity.
Qed.
Lemma pow_loop_stuck e : 2 ^ 62 <= e -> forall f (i : Z) p r, 0 <= i <= 62 -> pow_loop f (2 ^ i) p r e = None.
Proof.
  intros He. assert (Z0 : forall f p r, pow_loop f 0 p r e = None).
  { induction f as [|f IH]; intros p r; cbn [pow_loop]; [reflexivity|]. destruct (Z.leb_spec 0 e) as [_|C]; [|lia]. apply IH. }
  assert (Z1 : forall f p r, pow_loop f (- 2 ^ 63) p r e = None).
  { intros [|f] p r; cbn [pow_loop]; [reflexivity|]. destruct (Z.leb_spec (- 2 ^ 63) e) as [_|C]; [|lia]. apply Z0. }
  induction f as [|f IH]; intros i p r Hi; cbn [pow_loop]; [reflexivity|].
  assert (2 ^ i <= 2 ^ 62) by (apply Z.pow_le_mono_r; lia).
  destruct (Z.leb_spec (2 ^ i) e) as [_|C]; [|lia].
  destruct (Z.eq_dec i 62) as [->|Hne]; [apply Z1|].
  assert (Hw : wrap64 (2 * 2 ^ i) = 2 ^ (i + 1)).
  { rewrite Z.pow_add_r, Z.pow_1_r by lia. rewrite wrap_small; [lia|].
    assert (0 < 2 ^ i) by (apply Z.pow_pos_nonneg; lia).
    assert (2 ^ i < 2 ^ 62) by (apply Z.pow_lt_mono_r; lia). assert (2 ^ 62 + 2 ^ 62 = 2 ^ 63) by reflexivity. lia. }
  rewrite Hw. apply IH. lia.
Qed.

(** ** batches *)
Section Batches.
Context {A : Type}.
Variable label : A -> bytes.
Definition labelled (l : bytes) (ts : list A) : list A := filter (fun t => eqb_bytes (label t) l) ts.
Lemma labelled_app l ts us : labelled l (ts ++ us) = labelled l ts ++ labelled l us.
Proof. apply filter_app. Qed.
Lemma labelled_all l ts : (forall t, In t ts -> label t = l) -> labelled l ts = ts.
Proof.
  induction ts as [|t ts IH]; intros H; [reflexivity|]. cbn. rewrite (H t (or_introl eq_refl)).
  destruct (eqb_bytes l l) eqn:E; [|exfalso; apply not_true_iff_false in E; apply E, eqb_bytes_eq; reflexivity].
  f_equal. apply IH. intros; apply H; right; assumption.
Qed.
Lemma labelled_none l ts : (forall t, In t ts -> label t <> l) -> labelled l ts = [].
Proof.
  induction ts as [|t ts IH]; intros H; [reflexivity|]. cbn.
  destruct (eqb_bytes (label t) l) eqn:E; [apply eqb_bytes_eq in E; exfalso; apply (H t (or_introl eq_refl) E)|].
  apply IH. intros; apply H; right; assumption.
Qed.
Lemma batch_of_put l b (m : list (bytes * list A)) k : batch_of k (put_batch l b m) = if eqb_bytes k l then Some b else batch_of k m.
Proof.
  induction m as [|[k' c] m IH]; cbn [put_batch].
  - cbn [batch_of]. reflexivity.
  - destruct (eqb_bytes l k') eqn:E.
    + apply eqb_bytes_eq in E; subst k'. cbn [batch_of]. destruct (eqb_bytes k l); reflexivity.
    + cbn [batch_of]. destruct (eqb_bytes k k') eqn:E'.
      * apply eqb_bytes_eq in E'; subst k'. destruct (eqb_bytes k l) eqn:E2; [|reflexivity].
        apply eqb_bytes_eq in E2; subst l. rewrite (proj2 (eqb_bytes_eq k k) eq_refl) in E. discriminate.
      * exact IH.
Qed.
Lemma put_keys l b (m : list (bytes * list A)) k : In k (map fst (put_batch l b m)) <-> k = l \/ In k (map fst m).
Proof.
  induction m as [|[k' c] m IH]; cbn [put_batch map fst In]; [intuition|].
  destruct (eqb_bytes l k') eqn:E; cbn [map fst In].
  - apply eqb_bytes_eq in E; subst k'. intuition.
  - rewrite IH. intuition.
Qed.
Lemma put_nodup l b (m : list (bytes * list A)) : NoDup (map fst m) -> NoDup (map fst (put_batch l b m)).
Proof.
  induction m as [|[k' c] m IH]; intros H; cbn [put_batch map fst].
  - repeat constructor. intros [].
  - cbn [map fst] in H. destruct (eqb_bytes l k') eqn:E; cbn [map fst]; [exact H|].
    apply NoDup_cons_iff in H as [Hk Hn]. constructor; [|apply IH; exact Hn].
    intros C. apply put_keys in C as [C|C]; [|contradiction]. subst k'. rewrite (proj2 (eqb_bytes_eq l l) eq_refl) in E. discriminate.
Qed.
(** equal labels are not separated by another one *)
Definition contiguous (ts : list A) : Prop :=
  forall a x b y c, ts = a ++ x :: b ++ y :: c -> label x = label y -> forall z, In z b -> label z = label x.
Definition holds (m : list (bytes * list A)) (done : list A) : Prop :=
  NoDup (map fst m) /\ forall l, batch_of l m = match labelled l done with [] => None | b => Some b end.
Lemma holds_put m done prev batch : holds m done -> batch <> [] -> (forall t, In t batch -> label t = prev) ->
  (forall t, In t done -> label t <> prev) -> holds (put_batch prev batch m) (done ++ batch).
Proof.
  intros [Hn Hm] Hb Hp Hd. split; [apply put_nodup; exact Hn|]. intros l. rewrite batch_of_put, labelled_app.
  destruct (eqb_bytes l prev) eqn:E.
  - apply eqb_bytes_eq in E; subst l. rewrite (labelled_none prev done) by exact Hd. rewrite (labelled_all prev batch) by exact Hp. cbn [app].
    destruct batch; [contradiction|reflexivity].
  - rewrite (labelled_none l batch).
    + rewrite app_nil_r. apply Hm.
    + intros t Ht C. rewrite (Hp t Ht) in C. subst l. rewrite (proj2 (eqb_bytes_eq prev prev) eq_refl) in E. discriminate.
Qed.
Lemma batch_loop_ok : forall ts prev batch m done, contiguous (done ++ batch ++ ts) -> holds m done -> batch <> [] ->
  (forall t, In t batch -> label t = prev) -> (forall t, In t done -> label t <> prev) ->
  holds (batch_loop label ts prev batch m) (done ++ batch ++ ts).
Proof.
  induction ts as [|t ts IH]; intros prev batch m done Hc Hm Hb Hp Hd; cbn [batch_loop].
  - rewrite app_nil_r in *. apply holds_put; assumption.
  - destruct (eqb_bytes prev (label t)) eqn:E.
    + apply eqb_bytes_eq in E. replace (done ++ batch ++ t :: ts) with (done ++ (batch ++ [t]) ++ ts) in * by (rewrite <- app_assoc; reflexivity).
      apply IH; try assumption.
      * intros C. apply app_eq_nil in C as [_ C]. discriminate.
      * intros u Hu. apply in_app_or in Hu as [Hu|[<-|[]]]; [auto|congruence].
    + assert (Ne : label t <> prev) by (intros C; rewrite C, (proj2 (eqb_bytes_eq prev prev) eq_refl) in E; discriminate).
      replace (done ++ batch ++ t :: ts) with ((done ++ batch) ++ [t] ++ ts) in * by (rewrite <- app_assoc; reflexivity).
      apply IH; try assumption.
      * apply holds_put; assumption.
      * discriminate.
      * intros u [<-|[]]. reflexivity.
      * intros u Hu C. apply in_app_or in Hu as [Hu|Hu]; [|apply Ne; rewrite <- C; auto].
        apply in_split in Hu as (a & b & ->). destruct batch as [|z batch]; [contradiction|].
        apply Ne. rewrite <- C. rewrite <- (Hp z (or_introl eq_refl)).
        symmetry. apply (Hc a u (b ++ z :: batch) t ts); [repeat (rewrite <- ?app_assoc; cbn [app]); reflexivity|exact C|].
        apply in_or_app. right. left. reflexivity.
Qed.
Lemma batches_ok ts : contiguous ts -> holds (batches_by_label label ts) ts.
Proof.
  intros Hc. unfold batches_by_label. destruct ts as [|t ts].
  - split; [constructor|]. intros l. reflexivity.
  - cbn [batch_loop]. rewrite (proj2 (eqb_bytes_eq (label t) (label t)) eq_refl). cbn [app].
    apply (batch_loop_ok ts (label t) [t] [] []).
    + exact Hc.
    + split; [constructor|]. intros l. reflexivity.
    + discriminate.
    + intros u [<-|[]]. reflexivity.
    + intros u [].
Qed.
End Batches.
