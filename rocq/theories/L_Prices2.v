(** Lemmas: reversed prices. *)
From Coq Require Import QArith Qabs Qround Qpower Lqa ZArith Lia.
From Verif Require Import Base M_Amount M_Web S_Web L_WebQ M_Prices L_Prices.
Local Open Scope Z_scope.

Lemma abs_bounds (x e : Q) : (Qabs x <= e)%Q -> (- e <= x)%Q /\ (x <= e)%Q.
Proof. intros H. apply Qabs_Qle_condition in H. tauto. Qed.
Lemma inj_pos n : 0 < n -> (0 < inject_Z n)%Q.
Proof. intros H. apply (inj_lt 0), H. Qed.
(** the error of a rounded quotient, without absolute values *)
Lemma div_error n b : 0 < n -> 0 < b -> let q := (inject_Z n / inject_Z b)%Q in
  (0 < q)%Q /\ ((q - js_div n b) * inject_Z (2 ^ 52) <= q)%Q /\ ((js_div n b - q) * inject_Z (2 ^ 52) <= q)%Q.
Proof.
  intros Hn Hb q. pose proof (nearest_error n b (js_div n b) Hn Hb (js_div_nearest n b Hb)) as E. fold q in E.
  pose proof (inj_pos n Hn). pose proof (inj_pos b Hb).
  split; [unfold q; apply Qlt_shift_div_l; lra|]. assert (P : (0 < inject_Z (2 ^ 52))%Q) by (apply inj_pos; lia).
  set (K := inject_Z (2 ^ 52)) in *. clearbody K. set (y := js_div n b) in *. clearbody y.
  pose proof (Qle_Qabs (y - q)) as A1. pose proof (Qle_Qabs (- (y - q))) as A2. rewrite Qabs_opp in A2. set (u := Qabs (y - q)) in *. clearbody u. split.
  - apply Qle_trans with (u * K)%Q; [apply Qmult_le_compat_r; lra|exact E].
  - apply Qle_trans with (u * K)%Q; [apply Qmult_le_compat_r; lra|exact E].
Qed.
Lemma two_steps (a x1 x2 k K : Q) : (0 < a)%Q -> (0 < k)%Q -> (4 < K)%Q ->
  ((a - x1) * K <= a)%Q -> ((x1 - a) * K <= a)%Q -> ((x1 * k - x2) * K <= x1 * k)%Q -> ((x2 - x1 * k) * K <= x1 * k)%Q ->
  ((a * k - x2) * K <= 3 * (a * k))%Q /\ ((x2 - a * k) * K <= 3 * (a * k))%Q.
Proof.
  intros Ha Hk HK A1 A2 B1 B2.
  assert (X : (x1 <= 2 * a)%Q).
  { apply Qmult_le_r with (z := K); [lra|]. assert (a * 4 <= a * K)%Q by (rewrite !(Qmult_comm a); apply Qmult_le_compat_r; lra). lra. }
  assert (C1 : (k * ((a - x1) * K) <= k * a)%Q) by (rewrite !(Qmult_comm k); apply Qmult_le_compat_r; lra).
  assert (C2 : (k * ((x1 - a) * K) <= k * a)%Q) by (rewrite !(Qmult_comm k); apply Qmult_le_compat_r; lra).
  assert (X2 : (x1 * k <= 2 * a * k)%Q) by (apply Qmult_le_compat_r; lra).
  split; nra || lra.
Qed.
Lemma round_bounds (x : Q) : let r := math_round x in (inject_Z r <= x + (1 # 2))%Q /\ (x + (1 # 2) < inject_Z r + 1)%Q.
Proof.
  intros r. unfold r, math_round. pose proof (Qfloor_le (x + (1 # 2))) as F1. pose proof (Qlt_floor (x + (1 # 2))) as F2. rewrite inject_Z_plus in F2. change (inject_Z 1) with 1%Q in F2. split; [exact F1|exact F2].
Qed.

(** the reversed price: the nearest number of minor units *)
Lemma reciprocal_spec v d r : 0 < a_int v -> 3 * 10 ^ Z.of_nat (a_dec v + d) < 2 ^ 51 -> reciprocal v d = Some r ->
  (2 * r - 1) * a_int v <= 2 * 10 ^ Z.of_nat (a_dec v + d) <= (2 * r + 1) * a_int v.
Proof.
  intros Hv Hp. unfold reciprocal. destruct (Z.eqb_spec (a_int v) 0) as [E|_]; [lia|]. replace (Z.sgn (a_int v)) with 1 by lia. replace (Z.abs (a_int v)) with (a_int v) by lia.
  rewrite Z.mul_1_r. intros H. injection H as <-.
  rewrite Nat2Z.inj_add, Z.pow_add_r in * by lia.
  set (n := 10 ^ Z.of_nat (a_dec v)) in *. set (k := 10 ^ Z.of_nat d) in *. set (z := a_int v) in *.
  assert (Hn : 0 < n) by (apply Z.pow_pos_nonneg; lia). assert (Hk : 0 < k) by (apply Z.pow_pos_nonneg; lia).
  clearbody n k z. destruct (div_error n z Hn Hv) as (Q0 & Q1 & Q2). set (a := (inject_Z n / inject_Z z)%Q) in *. set (x1 := js_div n z) in *.
  assert (Pz : (0 < inject_Z z)%Q) by (apply inj_pos, Hv). assert (Pk : (0 < inject_Z k)%Q) by (apply inj_pos, Hk).
  assert (K4 : (4 < inject_Z (2 ^ 52))%Q) by reflexivity.
  assert (X1 : (0 < x1)%Q).
  { destruct (Qlt_le_dec 0 x1) as [L|L]; [exact L|exfalso]. assert (a * inject_Z (2 ^ 52) <= (a - x1) * inject_Z (2 ^ 52))%Q by (apply Qmult_le_compat_r; lra).
    assert (a * 4 < a * inject_Z (2 ^ 52))%Q by (apply Qmult_lt_l; lra). lra. }
  clearbody x1.
  assert (N1 : 0 < Qnum x1) by (destruct x1 as [m dd]; unfold Qlt in X1; cbn [Qnum Qden] in *; lia).
  unfold js_mul. destruct (div_error (Qnum x1 * k) (Zpos (Qden x1)) ltac:(lia) ltac:(lia)) as (_ & R1 & R2).
  assert (EQ : (inject_Z (Qnum x1 * k) / inject_Z (Zpos (Qden x1)) == x1 * inject_Z k)%Q).
  { destruct x1 as [m dd]. cbn [Qnum Qden]. unfold Qdiv, Qeq, Qmult, Qinv, inject_Z. cbn [Qnum Qden]. lia. }
  rewrite EQ in R1, R2. set (x2 := js_div (Qnum x1 * k) (Zpos (Qden x1))) in *. clearbody x2. clear EQ N1 X1.
  destruct (two_steps a x1 x2 (inject_Z k) (inject_Z (2 ^ 52)) Q0 Pk K4 Q1 Q2 R1 R2) as [T1 T2].
  destruct (round_bounds x2) as [B1 B2]. set (r := math_round x2) in *. clearbody r.
  assert (EZ : (a * inject_Z k * inject_Z z == inject_Z (n * k))%Q) by (unfold a; rewrite inject_Z_mult; field; lra).
  (* the error is less than half a unit of a fraction by z *)
  assert (S : (3 * inject_Z (n * k) * 2 < inject_Z (2 ^ 52))%Q).
  { change 3%Q with (inject_Z 3). change 2%Q with (inject_Z 2). rewrite <- !inject_Z_mult. apply inj_lt. lia. }
  set (X := (a * inject_Z k)%Q) in *. clearbody X. clear Q0 Q1 Q2 R1 R2 a x1.
  set (K := inject_Z (2 ^ 52)) in *. assert (PK : (0 < K)%Q) by reflexivity. clearbody K.
  assert (U1 : ((X - x2) * inject_Z z < (1 # 2))%Q).
  { apply Qmult_lt_r with (z := K); [exact PK|]. assert ((X - x2) * K * inject_Z z <= 3 * X * inject_Z z)%Q by (apply Qmult_le_compat_r; lra).
    assert (A : ((X - x2) * inject_Z z * K == (X - x2) * K * inject_Z z)%Q) by ring. assert (A2 : (3 * X * inject_Z z == 3 * inject_Z (n * k))%Q) by (rewrite <- EZ; ring). rewrite A. rewrite A2 in H. lra. }
  assert (U2 : ((x2 - X) * inject_Z z < (1 # 2))%Q).
  { apply Qmult_lt_r with (z := K); [exact PK|]. assert ((x2 - X) * K * inject_Z z <= 3 * X * inject_Z z)%Q by (apply Qmult_le_compat_r; lra).
    assert (A : ((x2 - X) * inject_Z z * K == (x2 - X) * K * inject_Z z)%Q) by ring. assert (A2 : (3 * X * inject_Z z == 3 * inject_Z (n * k))%Q) by (rewrite <- EZ; ring). rewrite A. rewrite A2 in H. lra. }
  assert (V1 : ((inject_Z r - (1 # 2)) * inject_Z z <= x2 * inject_Z z)%Q) by (apply Qmult_le_compat_r; lra).
  assert (V2 : (x2 * inject_Z z <= (inject_Z r + (1 # 2)) * inject_Z z)%Q) by (apply Qmult_le_compat_r; lra).
  assert (W1 : (inject_Z ((2 * r - 1) * z) < inject_Z (2 * (n * k) + 1))%Q).
  { unfold Z.sub. rewrite !inject_Z_plus, !inject_Z_mult, !inject_Z_plus, !inject_Z_mult in *. change (inject_Z 2) with 2%Q. change (inject_Z 1) with 1%Q. change (inject_Z (Z.opp 1)) with (-1)%Q. rewrite <- EZ. lra. }
  assert (W2 : (inject_Z (2 * (n * k)) < inject_Z ((2 * r + 1) * z + 1))%Q).
  { unfold Z.sub. rewrite !inject_Z_plus, !inject_Z_mult, !inject_Z_plus, !inject_Z_mult in *. change (inject_Z 2) with 2%Q. change (inject_Z 1) with 1%Q. rewrite <- EZ. lra. }
  rewrite <- Zlt_Qlt in W1, W2. lia.
Qed.
