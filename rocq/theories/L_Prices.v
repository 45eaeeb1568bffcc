(** Lemmas: the prices on the page. *)
From Coq Require Import QArith Qabs Qround Qpower Lqa ZArith Lia.
From Verif Require Import M_Web S_Web L_WebQ.
Local Open Scope Z_scope.

(** a nearest double is within 2^-52 of the number *)
Lemma nearest_error n b x : 0 < n -> 0 < b -> nearest (inject_Z n / inject_Z b) x ->
  (Qabs (x - inject_Z n / inject_Z b) * inject_Z (2 ^ 52) <= inject_Z n / inject_Z b)%Q.
Proof.
  intros Hn Hb [_ N]. set (q := (inject_Z n / inject_Z b)%Q) in *.
  assert (Pb : (0 < inject_Z b)%Q) by (apply (inj_lt 0); exact Hb). assert (Pn : (0 < inject_Z n)%Q) by (apply (inj_lt 0); exact Hn).
  assert (Pq : (0 < q)%Q) by (unfold q; apply Qlt_shift_div_l; lra).
  assert (Eq : (q * inject_Z b == inject_Z n)%Q) by (unfold q; field; lra).
  (* an exponent: 2^e <= q < 2^(e+2) *)
  destruct (Z.log2_spec n Hn) as [Ln Un]. destruct (Z.log2_spec b Hb) as [Lb Ub]. pose proof (Z.log2_nonneg n) as G1. pose proof (Z.log2_nonneg b) as G2.
  set (e := Z.log2 n - Z.log2 b - 1).
  apply inj_le in Ln, Lb. apply inj_lt in Un, Ub. rewrite <- pow2_Z in Ln, Un, Lb, Ub by lia.
  assert (Lo : (Qpower 2 e <= q)%Q).
  { apply Qmult_le_r with (z := inject_Z b); [exact Pb|]. rewrite Eq. pose proof (pow2_pos e).
    assert (Qpower 2 e * inject_Z b <= Qpower 2 e * Qpower 2 (Z.succ (Z.log2 b)))%Q by (rewrite !(Qmult_comm (Qpower 2 e)); apply Qmult_le_compat_r; lra).
    rewrite <- pow2_add in H0. replace (e + Z.succ (Z.log2 b)) with (Z.log2 n) in H0 by lia. lra. }
  assert (Hi : (q < Qpower 2 (e + 2))%Q).
  { apply Qmult_lt_r with (z := inject_Z b); [exact Pb|]. rewrite Eq. pose proof (pow2_pos (e + 2)).
    assert (Qpower 2 (e + 2) * Qpower 2 (Z.log2 b) <= Qpower 2 (e + 2) * inject_Z b)%Q by (rewrite !(Qmult_comm (Qpower 2 (e + 2))); apply Qmult_le_compat_r; lra).
    rewrite <- pow2_add in H0. replace (e + 2 + Z.log2 b) with (Z.succ (Z.log2 n)) in H0 by lia. lra. }
  (* the multiple of 2^f nearest below or above *)
  set (f := if Qlt_le_dec q (Qpower 2 (e + 1)) then e - 52 else e - 51).
  assert (F : (Qpower 2 (f + 52) <= q)%Q /\ (q < Qpower 2 (f + 53))%Q).
  { unfold f. destruct (Qlt_le_dec q (Qpower 2 (e + 1))) as [X|X].
    - replace (e - 52 + 52) with e by lia. replace (e - 52 + 53) with (e + 1) by lia. auto.
    - replace (e - 51 + 52) with (e + 1) by lia. replace (e - 51 + 53) with (e + 2) by lia. auto. }
  clearbody f. destruct F as [F1 F2]. set (s := Qpower 2 f) in *. assert (Ps : (0 < s)%Q) by apply pow2_pos.
  set (m := Qfloor (q / s)). pose proof (Qfloor_le (q / s)) as M1. pose proof (Qlt_floor (q / s)) as M2. fold m in M1, M2.
  assert (Es : (q / s * s == q)%Q) by (field; lra).
  assert (E53 : (Qpower 2 (f + 53) == inject_Z (2 ^ 53) * s)%Q) by (rewrite Z.add_comm, pow2_add, pow2_Z by lia; reflexivity).
  assert (E52 : (Qpower 2 (f + 52) == inject_Z (2 ^ 52) * s)%Q) by (rewrite Z.add_comm, pow2_add, pow2_Z by lia; reflexivity).
  rewrite E53 in F2. rewrite E52 in F1.
  assert (M3 : (inject_Z m * s <= q)%Q) by (rewrite <- Es; apply Qmult_le_compat_r; [exact M1|lra]).
  assert (M4 : (q < inject_Z m * s + s)%Q).
  { rewrite inject_Z_plus in M2. change (inject_Z 1) with 1%Q in M2. assert (H : (q / s * s < (inject_Z m + 1) * s)%Q) by (apply Qmult_lt_r; [exact Ps|exact M2]). rewrite Es in H. assert (X : ((inject_Z m + 1) * s == inject_Z m * s + s)%Q) by ring. rewrite X in H. exact H. }
  assert (D : is_double (inject_Z m * s)).
  { exists m, f. split; [|reflexivity]. assert (A1 : (inject_Z m < inject_Z (2 ^ 53))%Q).
    { apply Qmult_lt_r with (z := s); [exact Ps|]. lra. }
    rewrite <- Zlt_Qlt in A1. assert (A2 : (inject_Z (-1) < inject_Z m)%Q).
    { apply Qmult_lt_r with (z := s); [exact Ps|]. change (inject_Z (-1)) with (-1)%Q. lra. }
    rewrite <- Zlt_Qlt in A2. lia. }
  specialize (N _ D). rewrite (Qabs_neg (inject_Z m * s - q)) in N by lra.
  assert (P52 : (0 < inject_Z (2 ^ 52))%Q) by (apply (inj_lt 0); lia).
  set (K := inject_Z (2 ^ 52)) in *. clearbody K. set (u := Qabs (x - q)) in *. clearbody u. set (w := (inject_Z m * s)%Q) in *. clearbody w.
  assert (U : (u <= s)%Q) by lra. apply Qle_trans with (s * K)%Q; [apply Qmult_le_compat_r; lra|]. rewrite Qmult_comm. exact F1.
Qed.
