(** C08 continued: the comparisons built on Cmp. C141: amounts from fractions. *)
From Coq Require Import QArith Qabs.
From Verif Require Import Base M_Amount S_Decimal S_Amount L_Dec L_Amount Properties_Amount.
Local Open Scope Z_scope.

(** IsLessThan, IsMoreThan and IsEqual say how the values compare (the first amount has the same number of decimals, or more) *)
Theorem C08_order_partial : forall a b,
  (c_dec (a_com a) = c_dec (a_com b) \/ (c_dec (a_com b) <= c_dec (a_com a) /\ c_dec (a_com a) <= 50)%nat) ->
  exists l e m, is_less_than a b = Ok l /\ is_equal a b = Ok e /\ is_more_than a b = Ok m /\
    (l = true <-> value a < value b)%Q /\ (e = true <-> value a == value b)%Q /\ (m = true <-> value b < value a)%Q.
Proof.
  intros a b H. unfold is_less_than, is_equal, is_more_than. rewrite (C08_compare_partial a b H). cbn [bind]. do 3 eexists. do 3 (split; [reflexivity|]).
  rewrite (Qlt_alt (value a)), Qeq_alt, (Qgt_alt (value a)). destruct (value a ?= value b)%Q; repeat split; congruence.
Qed.
Print Assumptions C08_order_partial.
(** IsBigger compares without the signs, if the decimals are the same *)
Theorem C08_magnitude_partial : forall a b, c_dec (a_com a) = c_dec (a_com b) ->
  (is_bigger a b = true <-> (Qabs (value b) < Qabs (value a))%Q).
Proof.
  intros a b H. unfold is_bigger, cmp_magnitude, value, minor_value. rewrite H.
  set (p := pow10Q (c_dec (a_com b))). assert (P : (0 < p)%Q). { unfold p, pow10Q. change 0%Q with (inject_Z 0). rewrite <- Zlt_Qlt. apply Z.pow_pos_nonneg; lia. }
  assert (E : forall x, (Qabs (inject_Z x / p) == inject_Z (Z.abs x) / p)%Q).
  { intros x. unfold Qdiv. rewrite Qabs_Qmult, (Qabs_pos (/ p)) by (apply Qlt_le_weak, Qinv_lt_0_compat, P). reflexivity. }
  rewrite !E. unfold Qdiv. rewrite (Qmult_lt_r _ _ (/ p)) by (apply Qinv_lt_0_compat, P). rewrite <- Zlt_Qlt. destruct (Z.compare_spec (Z.abs (a_int a)) (Z.abs (a_int b))); split; intros; try congruence; lia.
Qed.
Print Assumptions C08_magnitude_partial.
(** otherwise it compares numbers of different units *)
Theorem C08_magnitude_refuted : exists a b, is_bigger a b = true /\ (Qabs (value a) < Qabs (value b))%Q.
Proof. exists (mkAmount 150 cad), (mkAmount 2 jpy). split; reflexivity. Qed.
Print Assumptions C08_magnitude_refuted.
Example C08_order_example : is_less_than (mkAmount (-5) cad) (mkAmount 3 cad) = Ok true /\ is_more_than (mkAmount 201 cad) (mkAmount 2 jpy) = Ok true /\ is_bigger (mkAmount (-5) cad) (mkAmount 3 cad) = true.
Proof. repeat split. Qed.

(** ** C141 *)
(** the amount of a fraction is the fraction cut to the decimals of the commodity: the next amount below, with a
    negative denominator the next one above *)
Theorem C141_fraction : forall num den c, den <> 0 -> (c_dec c <= 50)%nat ->
  exists a, new_amount_frac num den c = Ok a /\ a_com a = c /\
    let exact := (inject_Z num / inject_Z den)%Q in let unit := minor_value 1 (c_dec c) in
    (0 < den -> (value a <= exact)%Q /\ (exact < value a + unit)%Q) /\ (den < 0 -> (exact <= value a)%Q /\ (value a - unit < exact)%Q).
Proof.
  intros num den c Hd Hc. unfold new_amount_frac.
  assert (E : (if (0 <? c_dec c)%nat then do p <- big_pow10 (c_dec c); Ok (num * p) else Ok num) = Ok (num * 10 ^ Z.of_nat (c_dec c))).
  { destruct (Nat.ltb_spec 0 (c_dec c)) as [L|L].
    - destruct (big_pow10_cases (c_dec c)) as [(_ & ->)|(H & _)]; [reflexivity|lia].
    - replace (c_dec c) with 0%nat by lia. f_equal. cbn. lia. }
  rewrite E. cbn [bind]. destruct (Z.eqb_spec den 0) as [|_]; [congruence|]. eexists. split; [reflexivity|]. split; [reflexivity|]. cbv zeta.
  unfold value, minor_value. cbn [a_int a_com]. unfold pow10Q. set (P := 10 ^ Z.of_nat (c_dec c)). assert (Hp : 0 < P) by (apply Z.pow_pos_nonneg; lia). clearbody P. clear E Hc c.
  unfold euclid_div.
  assert (S : forall n d, 0 < d -> (inject_Z (n * P / d) / inject_Z P <= inject_Z n / inject_Z d)%Q /\ (inject_Z n / inject_Z d < inject_Z (n * P / d) / inject_Z P + 1 / inject_Z P)%Q).
  { intros n d D. assert (Q1 : (0 < inject_Z P)%Q) by (change 0%Q with (inject_Z 0); rewrite <- Zlt_Qlt; exact Hp). assert (Q2 : (0 < inject_Z d)%Q) by (change 0%Q with (inject_Z 0); rewrite <- Zlt_Qlt; exact D).
    pose proof (Z.mul_div_le (n * P) d D) as L. pose proof (Z.mul_succ_div_gt (n * P) d D) as U. set (q := n * P / d) in *. clearbody q. split.
    - apply Qle_shift_div_l; [exact Q2|]. assert (X : (inject_Z q / inject_Z P * inject_Z d == inject_Z (q * d) / inject_Z P)%Q) by (rewrite inject_Z_mult; field; intros X; rewrite X in Q1; apply Qlt_irrefl in Q1; exact Q1).
      rewrite X. apply Qle_shift_div_r; [exact Q1|]. rewrite <- inject_Z_mult. rewrite <- Zle_Qle. lia.
    - apply Qlt_shift_div_r; [exact Q2|]. assert (X : ((inject_Z q / inject_Z P + 1 / inject_Z P) * inject_Z d == inject_Z ((q + 1) * d) / inject_Z P)%Q) by (rewrite inject_Z_mult, inject_Z_plus; change (inject_Z 1) with 1%Q; field; intros X; rewrite X in Q1; apply Qlt_irrefl in Q1; exact Q1).
      rewrite X. apply Qlt_shift_div_l; [exact Q1|]. rewrite <- inject_Z_mult. rewrite <- Zlt_Qlt. lia. }
  split; intros Hs.
  - destruct (Z.ltb_spec den 0); [lia|]. exact (S num den Hs).
  - destruct (Z.ltb_spec den 0); [|lia]. destruct (S num (- den) ltac:(lia)) as (A & C).
    assert (O : forall x, (inject_Z (- x) == - inject_Z x)%Q) by (intros x; rewrite inject_Z_opp; reflexivity).
    assert (N : ~ (inject_Z den == 0)%Q) by (intros X; unfold Qeq in X; cbn in X; lia).
    assert (NP : ~ (inject_Z P == 0)%Q) by (intros X; unfold Qeq in X; cbn in X; lia).
    set (q := inject_Z (num * P / - den)) in *.
    assert (X1 : (inject_Z num / inject_Z (- den) == - (inject_Z num / inject_Z den))%Q) by (rewrite O; field; exact N).
    rewrite O. fold q. rewrite X1 in A, C. assert (X2 : (- q / inject_Z P == - (q / inject_Z P))%Q) by (field; exact NP). rewrite X2. change (inject_Z 1) with 1%Q.
    split.
    + apply Qopp_le_compat in A. rewrite Qopp_involutive in A. exact A.
    + apply Qopp_lt_compat in C. rewrite Qopp_involutive in C. eapply Qle_lt_trans; [|exact C]. apply Qle_lteq. right. field. exact NP.
Qed.
Print Assumptions C141_fraction.
Theorem C141_zero_denominator : forall num c, new_amount_frac num 0 c = Panic.
Proof.
  intros num c. unfold new_amount_frac. destruct (0 <? c_dec c)%nat; [|reflexivity]. destruct (big_pow10_cases (c_dec c)) as [(_ & ->)|(_ & ->)]; reflexivity.
Qed.
Print Assumptions C141_zero_denominator.
(** so an equal fraction may give another amount *)
Theorem C141_equal_fractions_refuted : exists num den c a b, new_amount_frac num den c = Ok a /\ new_amount_frac (- num) (- den) c = Ok b /\ ~ (value a == value b)%Q.
Proof. exists 1, 3, cad, (mkAmount 33 cad), (mkAmount 34 cad). split; [reflexivity|]. split; [reflexivity|]. intros H. discriminate H. Qed.
Print Assumptions C141_equal_fractions_refuted.
(** but not if the denominators are positive *)
Theorem C141_equal_fractions_partial : forall n1 d1 n2 d2 c, 0 < d1 -> 0 < d2 -> n1 * d2 = n2 * d1 -> new_amount_frac n1 d1 c = new_amount_frac n2 d2 c.
Proof.
  intros n1 d1 n2 d2 c H1 H2 E. unfold new_amount_frac.
  assert (G : forall p, n1 * p / d1 = n2 * p / d2). { intros p. rewrite <- (Z.div_mul_cancel_r (n1 * p) d1 d2), <- (Z.div_mul_cancel_r (n2 * p) d2 d1) by lia. f_equal; [|lia]. replace (n1 * p * d2) with (n1 * d2 * p) by ring. rewrite E. ring. }
  destruct (Z.eqb_spec d1 0); [lia|]. destruct (Z.eqb_spec d2 0); [lia|]. unfold euclid_div. destruct (Z.ltb_spec d1 0); [lia|]. destruct (Z.ltb_spec d2 0); [lia|].
  destruct (0 <? c_dec c)%nat; [|cbn [bind]; specialize (G 1); rewrite !Z.mul_1_r in G; rewrite G; reflexivity].
  destruct (big_pow10 (c_dec c)) as [p| |]; cbn [bind]; [|reflexivity|reflexivity]. rewrite (G p). reflexivity.
Qed.
Print Assumptions C141_equal_fractions_partial.
Example C141_example : new_amount_frac (-7) 2 jpy = Ok (mkAmount (-4) jpy) /\ new_amount_frac 7 (-2) jpy = Ok (mkAmount (-3) jpy) /\ new_amount_frac 14 4 cad = new_amount_frac 7 2 cad.
Proof. repeat split. Qed.
