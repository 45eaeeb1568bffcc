(** Rows of csv files. *)
From Verif Require Import Base M_Amount M_Date M_Parser M_Writer M_Names M_Ledger M_Rules M_Commands M_Csv S_Amount S_Decimal S_Date S_DateText S_Rules S_Books S_Commands S_Csv L_Dec L_Amount L_Date L_DateText L_Rules L_Resolve L_Move L_Words L_Ofx2 L_Csv.

(** ** dates *)
Lemma days_in_month y m : 1 <= m <= 12 -> days_in y m = month_days y m.
Proof.
  intros H. assert (E : is_leap y = leapb y). { unfold is_leap, leapb. destruct (y mod 4 =? 0) eqn:E1, (y mod 100 =? 0) eqn:E2, (y mod 400 =? 0) eqn:E3; cbn; try reflexivity; lia. }
  unfold days_in, month_days. rewrite E. assert (C : m = 1 \/ m = 2 \/ m = 3 \/ m = 4 \/ m = 5 \/ m = 6 \/ m = 7 \/ m = 8 \/ m = 9 \/ m = 10 \/ m = 11 \/ m = 12) by lia.
  destruct C as [->|[->|[->|[->|[->|[->|[->|[->|[->|[->|[->| ->]]]]]]]]]]]; cbn; try reflexivity.
Qed.
Lemma digits_text s : forallb is_digit s = true -> exists ds, digits_ok ds /\ s = dtext ds /\ List.length ds = List.length s.
Proof.
  intros H. exists (map digit_val s). induction s as [|c s IH]; [repeat split; constructor|]. cbn [forallb] in H. apply andb_true_iff in H as [H1 H2]. destruct (IH H2) as (A & E & C). split; [constructor; [apply is_digit_val, H1|exact A]|].
  split; [|cbn; congruence]. unfold dtext in *. cbn [map]. rewrite (is_digit_char c H1), <- E. reflexivity.
Qed.
Lemma num_len_inj a b : digits_ok a -> digits_ok b -> List.length a = List.length b -> num a = num b -> a = b.
Proof.
  revert b. induction a as [|x a IH]; intros [|y b] Ha Hb Hl Hn; try discriminate; [reflexivity|]. inversion Ha; inversion Hb; subst. cbn [List.length] in Hl.
  change (x :: a) with ([x] ++ a) in Hn. change (y :: b) with ([y] ++ b) in Hn. rewrite !num_app in Hn. injection Hl as Hl. rewrite Hl in Hn.
  pose proof (num_bound a ltac:(assumption)) as Ba. pose proof (num_bound b ltac:(assumption)) as Bb. rewrite Hl in Ba. set (P := 10 ^ Z.of_nat (List.length b)) in *. 
  assert (Ex : num [x] = x) by (cbn; lia). assert (Ey : num [y] = y) by (cbn; lia). rewrite Ex, Ey in Hn.
  assert (x = y) by nia. subst y. f_equal. apply IH; auto. lia.
Qed.
Lemma padded s n w : forallb is_digit s = true -> List.length s = w -> (0 < w)%nat -> digits_val s = n -> pad_zero w (print_nat n) = s /\ 0 <= n < 10 ^ Z.of_nat w.
Proof.
  intros H L Hw E. destruct (digits_text s H) as (ds & D & -> & Dl). unfold dtext in E. rewrite digits_val_num in E by exact D. subst n. pose proof (num_bound ds D) as Bd. rewrite Dl, L in Bd. split; [|exact Bd].
  destruct (pad_zero_digits w (num ds) Bd Hw) as (es & [E1 E2] & E3 & ->). f_equal. apply num_len_inj; auto. congruence.
Qed.
Lemma parse_ymd_ok s n : parse_ymd s = Ok n <-> s = format_date n /\ 0 <= year_of n <= 9999.
Proof.
  split.
  - unfold parse_ymd. destruct s as [|y1 [|y2 [|y3 [|y4 [|s1 [|m1 [|m2 [|s2 [|d1 [|d2 [|]]]]]]]]]]]; try discriminate.
    set (y := digits_val [y1; y2; y3; y4]). set (m := digits_val [m1; m2]). set (d := digits_val [d1; d2]).
    destruct (forallb is_digit [y1; y2; y3; y4; m1; m2; d1; d2] && eqc s1 "/"%char && eqc s2 "/"%char && (1 <=? m) && (m <=? 12) && (1 <=? d) && (d <=? days_in y m)) eqn:E; [|discriminate]. intros [= <-].
    rewrite !andb_true_iff in E. destruct E as [[[[[[E1 E2] E3] E4] E5] E6] E7]. apply eqc_eq in E2, E3. subst s1 s2.
    rewrite days_in_month in E7 by lia. assert (V : valid_date y m d) by (split; lia).
    cbn [forallb] in E1. rewrite !andb_true_iff in E1. destruct E1 as (F1 & F2 & F3 & F4 & F5 & F6 & F7 & F8 & _).
    assert (P1 : pad_zero 4 (print_nat y) = [y1; y2; y3; y4] /\ 0 <= y < 10 ^ Z.of_nat 4) by (apply padded; [cbn [forallb]; rewrite F1, F2, F3, F4; reflexivity|reflexivity|lia|reflexivity]).
    assert (P2 : pad_zero 2 (print_nat m) = [m1; m2] /\ 0 <= m < 10 ^ Z.of_nat 2) by (apply padded; [cbn [forallb]; rewrite F5, F6; reflexivity|reflexivity|lia|reflexivity]).
    assert (P3 : pad_zero 2 (print_nat d) = [d1; d2] /\ 0 <= d < 10 ^ Z.of_nat 2) by (apply padded; [cbn [forallb]; rewrite F7, F8; reflexivity|reflexivity|lia|reflexivity]).
    unfold format_date. pose proof (civil_go_date y m d V) as C. unfold year_of, month_of, day_of. rewrite C. cbn [fst snd]. unfold format_year. destruct (Z.ltb_spec y 0); [lia|]. rewrite (proj1 P1), (proj1 P2), (proj1 P3).
    split; [reflexivity|]. change (10 ^ Z.of_nat 4) with 10000 in P1. lia.
  - intros [-> Hy]. pose proof (civil_valid n) as V. destruct V as [V1 V2].
    assert (Vd : 1 <= day_of n <= 31) by (pose proof (month_days_range (year_of n) (month_of n)); lia).
    destruct (pad_zero_digits 4 (year_of n)) as (ys & [Y1 Y2] & Y3 & Y4); [change (10 ^ Z.of_nat 4) with 10000; lia|lia|].
    destruct (pad_zero_digits 2 (month_of n)) as (ms & [M1 M2] & M3 & M4); [change (10 ^ Z.of_nat 2) with 100; lia|lia|].
    destruct (pad_zero_digits 2 (day_of n)) as (ds & [D1 D2] & D3 & D4); [change (10 ^ Z.of_nat 2) with 100; lia|lia|].
    unfold format_date, format_year. destruct (Z.ltb_spec (year_of n) 0); [lia|]. rewrite Y4, M4, D4. clear Y4 M4 D4.
    destruct ys as [|y1 [|y2 [|y3 [|y4 [|]]]]]; try discriminate Y2. destruct ms as [|m1 [|m2 [|]]]; try discriminate M2. destruct ds as [|d1 [|d2 [|]]]; try discriminate D2.
    cbn [dtext map app B list_ascii_of_string]. unfold parse_ymd.
    pose proof (digits_val_num _ Y1) as QY. pose proof (digits_val_num _ M1) as QM. pose proof (digits_val_num _ D1) as QD. cbn [map] in QY, QM, QD. rewrite QY, QM, QD, Y3, M3, D3, !eqc_refl.
    pose proof (map_digits_is_digit _ Y1) as FY. pose proof (map_digits_is_digit _ M1) as FM. pose proof (map_digits_is_digit _ D1) as FD. cbn [map forallb] in FY, FM, FD. rewrite !andb_true_iff in FY. rewrite !andb_true_iff in FM. rewrite !andb_true_iff in FD.
    cbn [forallb]. destruct FY as (Fa & Fb & Fc & Fd & _). destruct FM as (Fe & Ff & _). destruct FD as (Fg & Fh & _). rewrite Fa, Fb, Fc, Fd, Fe, Ff, Fg, Fh. cbn [andb]. rewrite days_in_month by lia.
    replace (1 <=? month_of n) with true by lia. replace (month_of n <=? 12) with true by lia. replace (1 <=? day_of n) with true by lia. replace (day_of n <=? month_days (year_of n) (month_of n)) with true by lia. cbn [andb].
    pose proof (civil_inv n) as I. unfold year_of, month_of, day_of. destruct (civil n) as [[yy mm] dd]. cbn [fst snd]. f_equal. apply I.
Qed.

(** ** the account for a commodity *)
Section Accounts.
Variable children : bytes -> list bytes.
Variable comm : bytes -> commodity.
Lemma fwc_under n : forall a, levels children n a -> forall b, In b (first_with_children n children a) <-> under children a b.
Proof.
  induction n as [|n IH]; intros a H b; [destruct H|]. cbn [first_with_children levels] in *. rewrite in_app_iff, in_flat_map. split.
  - intros [(c & I & J)|[<-|[]]]; [|constructor]. eapply under_child; [exact I|]. apply (IH c (H c I)), J.
  - intros U. inversion U as [|? c ? I U']; subst; [right; left; reflexivity|]. left. exists c. split; [exact I|]. apply (IH c (H c I)), U'.
Qed.
Lemma fold_account c l : forall a0 r, r = fold_left (fun account a => if eq_commodity (comm a) c && eqb_bytes account unbalanced then a else account) l a0 ->
  (a0 <> unbalanced -> r = a0) /\
  (a0 = unbalanced -> (r = unbalanced /\ forall b, In b l -> comm b = c -> b = unbalanced) \/
     (r <> unbalanced /\ comm r = c /\ exists l1 l2, l = l1 ++ r :: l2 /\ forall b, In b l1 -> comm b = c -> b = unbalanced)).
Proof.
  induction l as [|a l IH]; intros a0 r Hr; cbn [fold_left] in Hr.
  - subst r. split; [reflexivity|]. intros ->. left. split; [reflexivity|intros b []].
  - destruct (eqb_bytes a0 unbalanced) eqn:E0.
    + apply eqb_bytes_eq in E0. split; [congruence|]. intros _. rewrite andb_true_r in Hr. destruct (eq_commodity (comm a) c) eqn:Ec.
      * apply eq_commodity_eq in Ec. destruct (IH a r Hr) as [I1 I2]. destruct (eqb_bytes a unbalanced) eqn:Ea.
        -- apply eqb_bytes_eq in Ea. destruct (I2 Ea) as [[R1 R2]|(R1 & R2 & l1 & l2 & El & R3)]; [left; split; [exact R1|]; intros b [<-|J]; auto|].
           right. split; [exact R1|]. split; [exact R2|]. exists (a :: l1), l2. split; [rewrite El; reflexivity|]. intros b [<-|J]; auto.
        -- assert (Na : a <> unbalanced) by (intros ->; rewrite (proj2 (eqb_bytes_eq _ _) eq_refl) in Ea; discriminate). right. rewrite (I1 Na). split; [exact Na|]. split; [exact Ec|]. exists [], l. split; [reflexivity|intros b []].
      * assert (Nc : comm a <> c) by (intros Q; apply eq_commodity_eq in Q; congruence). destruct (IH a0 r Hr) as [I1 I2]. destruct (I2 E0) as [[R1 R2]|(R1 & R2 & l1 & l2 & El & R3)]; [left; split; [exact R1|]; intros b [<-|J] Q; [congruence|auto]|].
        right. split; [exact R1|]. split; [exact R2|]. exists (a :: l1), l2. split; [rewrite El; reflexivity|]. intros b [<-|J] Q; [congruence|auto].
    + assert (N0 : a0 <> unbalanced) by (intros ->; rewrite (proj2 (eqb_bytes_eq _ _) eq_refl) in E0; discriminate). split; [|congruence]. intros _. rewrite andb_false_r in Hr. apply (IH a0 r Hr), N0.
Qed.
(** descendants come before their ancestors *)
Lemma fwc_before n : forall a, levels children n a -> forall l1 x l2, first_with_children n children a = l1 ++ x :: l2 -> forall k b, In k (children x) -> under children k b -> In b l1.
Proof.
  induction n as [|n IH]; intros a H l1 x l2 E k b Hk U; [destruct H|]. cbn [first_with_children levels] in *.
  assert (G : forall cs, (forall c, In c cs -> levels children n c) -> forall l1 l2, flat_map (first_with_children n children) cs = l1 ++ x :: l2 -> In b l1).
  { clear E. induction cs as [|c cs IHc]; intros Hc m1 m2 E; cbn [flat_map] in E; [destruct m1; discriminate|].
    apply app_eq_app in E as (m & [[E1 E2]|[E1 E2]]).
    - destruct m as [|z m]; cbn in E2.
      + exfalso. pose proof (IHc ltac:(intros; apply Hc; right; assumption) [] m2 (eq_sym E2)). contradiction.
      + injection E2 as <- E2. eapply IH; [apply Hc; left; reflexivity|exact E1|exact Hk|exact U].
    - subst m1. apply in_or_app. right. eapply IHc; [intros; apply Hc; right; assumption|exact E2]. }
  apply app_eq_app in E as (m & [[E1 E2]|[E1 E2]]).
  - destruct m as [|z m]; cbn in E2.
    + injection E2 as -> _. rewrite app_nil_r in E1. rewrite <- E1. apply in_flat_map. exists k. split; [exact Hk|]. apply fwc_under; [apply H, Hk|exact U].
    + injection E2 as <- E2. eapply G; [exact H|exact E1].
  - destruct m as [|z m]; cbn in E2; [|injection E2 as _ E2; destruct m; discriminate]. injection E2 as -> _. rewrite app_nil_r in E1. subst l1. apply in_flat_map. exists k. split; [exact Hk|]. apply fwc_under; [apply H, Hk|exact U].
Qed.
Lemma account_for_spec n c root : levels children n root -> holds_in children comm root c (account_for n comm children c root).
Proof.
  intros H. unfold account_for. pose proof (fold_account c (first_with_children n children root) unbalanced _ eq_refl) as [_ K]. revert K. generalize (fold_left (fun account a => if eq_commodity (comm a) c && eqb_bytes account unbalanced then a else account) (first_with_children n children root) unbalanced). intros r K. destruct (K eq_refl) as [[R1 R2]|(R1 & R2 & l1 & l2 & E & R3)].
  - left. split; [exact R1|]. intros b U. apply R2. apply (fwc_under n root H), U.
  - right. split; [exact R1|]. split; [apply (fwc_under n root H); rewrite E; apply in_elt|]. split; [exact R2|]. intros k b Hk U. apply R3. eapply fwc_before; eassumption.
Qed.
End Accounts.
