(** Lemma: rounding a division of doubles. *)
From Coq Require Import QArith Qabs Qround Qpower Lqa ZArith Lia.
From Verif Require Import M_Web S_Web.
Local Open Scope Z_scope.

Lemma pow2_pos e : (0 < Qpower 2 e)%Q.
Proof. apply Qpower_0_lt. lra. Qed.
Lemma pow2_Z k : 0 <= k -> (Qpower 2 k == inject_Z (2 ^ k))%Q.
Proof. intros H. rewrite Zpower_Qpower by exact H. reflexivity. Qed.
Lemma pow2_add a b : (Qpower 2 (a + b) == Qpower 2 a * Qpower 2 b)%Q.
Proof. apply Qpower_plus. lra. Qed.
Lemma double_frac m k (x : Q) : 0 <= k -> Z.abs m <= 2 ^ 53 -> (x * inject_Z (2 ^ k) == inject_Z m)%Q -> is_double x.
Proof.
  intros Hk Hm E. exists m, (- k). split; [exact Hm|]. rewrite <- E, <- pow2_Z by exact Hk. rewrite <- Qmult_assoc, <- pow2_add.
  rewrite Z.add_opp_diag_r. change (Qpower 2 0) with 1%Q. ring.
Qed.
Lemma inj_le a b : a <= b -> (inject_Z a <= inject_Z b)%Q.
Proof. rewrite <- Zle_Qle. auto. Qed.
Lemma inj_lt a b : a < b -> (inject_Z a < inject_Z b)%Q.
Proof. rewrite <- Zlt_Qlt. auto. Qed.

(** the quotient [q] of [a] by [b] and the integer [N] it rounds to *)
Lemma round_div a b N (x : Q) : 0 < b -> (b = 1 \/ exists b', b = 2 * b') -> Z.abs a + b < 2 ^ 53 ->
  (2 * N - 1) * b <= 2 * a < (2 * N + 1) * b -> nearest (inject_Z a / inject_Z b) x -> math_round x = N.
Proof.
  intros Hb Hev Hlim HN [_ Near].
  set (q := (inject_Z a / inject_Z b)%Q) in *.
  assert (Pb : (0 < inject_Z b)%Q) by (apply (inj_lt 0); exact Hb).
  assert (Eq : (q * inject_Z b == inject_Z a)%Q) by (unfold q; field; lra).
  assert (Lo : (inject_Z N - (1#2) <= q)%Q).
  { destruct HN as [H _]. apply inj_le in H. rewrite !inject_Z_mult in H. unfold Z.sub in H. rewrite inject_Z_plus, inject_Z_mult in H.
    change (inject_Z 2) with 2%Q in H. change (inject_Z (Z.opp 1)) with (-1)%Q in H. rewrite <- Eq in H. 
    apply Qmult_le_r with (z := inject_Z b); [exact Pb|]. lra. }
  assert (Hi : (q < inject_Z N + (1#2))%Q).
  { destruct HN as [_ H]. apply inj_lt in H. rewrite !inject_Z_mult in H. rewrite inject_Z_plus, inject_Z_mult in H.
    change (inject_Z 2) with 2%Q in H. change (inject_Z 1) with 1%Q in H. rewrite <- Eq in H.
    apply Qmult_lt_r with (z := inject_Z b); [exact Pb|]. lra. }
  assert (FIN : (inject_Z N - (1#2) <= x)%Q -> (x < inject_Z N + (1#2))%Q -> math_round x = N).
  { intros X1 X2. unfold math_round. pose proof (Qfloor_le (x + (1 # 2))) as F1. pose proof (Qlt_floor (x + (1 # 2))) as F2.
    set (f := Qfloor (x + (1 # 2))) in *.
    assert (A1 : (inject_Z f < inject_Z (N + 1))%Q) by (rewrite inject_Z_plus; change (inject_Z 1) with 1%Q; lra).
    assert (A2 : (inject_Z N < inject_Z (f + 1))%Q) by lra.
    rewrite <- Zlt_Qlt in A1, A2. lia. }
  destruct (Z.eq_dec b 1) as [E1|N1].
  { assert (Eq' : (q == inject_Z a)%Q) by (rewrite <- Eq, E1; change (inject_Z 1) with 1%Q; ring).
    assert (D : is_double q). { apply (double_frac a 0); [lia|lia|]. rewrite Eq'. change (inject_Z (2 ^ 0)) with 1%Q. ring. }
    specialize (Near q D). assert (Z0 : (q - q == 0)%Q) by ring. rewrite Z0 in Near. change (Qabs 0) with 0%Q in Near.
    pose proof (Qle_Qabs (x - q)). pose proof (Qle_Qabs (- (x - q))). rewrite Qabs_opp in H0. apply FIN; lra. }
  destruct Hev as [E1|(b' & Eb)]; [congruence|].
  assert (HNb : Z.abs (2 * N - 1) <= 2 ^ 53 /\ Z.abs (2 * N + 1) * b <= 2 * Z.abs a + 2 * b).
  { clear - HN Hlim Hb N1. change (2 ^ 53) with 9007199254740992 in *.
    assert (T1 : Z.abs (2 * N - 1) * b <= 2 * Z.abs a + 2 * b) by (rewrite <- (Z.abs_eq b) at 1 by lia; rewrite <- Z.abs_mul; lia).
    assert (T2 : Z.abs (2 * N + 1) * b <= 2 * Z.abs a + 2 * b) by (rewrite <- (Z.abs_eq b) at 1 by lia; rewrite <- Z.abs_mul; lia).
    split; [|exact T2]. assert (Z.abs (2 * N - 1) * 2 <= Z.abs (2 * N - 1) * b) by (apply Z.mul_le_mono_nonneg_l; lia). lia. }
  assert (X1 : (inject_Z N - (1#2) <= x)%Q).
  { destruct (Qlt_le_dec x (inject_Z N - (1#2))) as [L|G]; [|exact G]. exfalso.
    assert (D : is_double (inject_Z N - (1#2))).
    { apply (double_frac (2 * N - 1) 1); [lia|apply HNb|]. unfold Z.sub. rewrite inject_Z_plus, inject_Z_mult. change (inject_Z 2) with 2%Q. change (inject_Z (Z.opp 1)) with (-1)%Q.
      change (inject_Z (2 ^ 1)) with 2%Q. ring. }
    specialize (Near _ D). rewrite !Qabs_neg in Near by lra. lra. }
  assert (X2 : (x < inject_Z N + (1#2))%Q).
  { destruct (Qlt_le_dec x (inject_Z N + (1#2))) as [L|G]; [exact L|]. exfalso.
    set (j := Z.log2 b) in *.
      destruct (Z.log2_spec b Hb) as [L1 L2]. fold j in L1, L2. assert (Hj : 1 <= j).
      { unfold j. change 1 with (Z.log2 2). apply Z.log2_le_mono. lia. }
      assert (Ej : 2 ^ j = 2 * 2 ^ (j - 1)) by (replace j with (Z.succ (j - 1)) at 1 by lia; rewrite Z.pow_succ_r by lia; reflexivity).
      rewrite Z.pow_succ_r in L2 by lia.
      assert (Pj : 0 < 2 ^ (j - 1)) by (apply Z.pow_pos_nonneg; lia).
      set (J := 2 ^ (j - 1)) in *.
      set (m := (2 * N + 1) * J - 1). set (y := (inject_Z m / inject_Z (2 ^ j))%Q).
      assert (PJ : (0 < inject_Z (2 ^ j))%Q) by (apply (inj_lt 0); lia).
      assert (Ey : (y * inject_Z (2 ^ j) == inject_Z m)%Q) by (unfold y; field; lra).
      assert (D : is_double y).
      { apply (double_frac m j); [lia| |exact Ey]. unfold m. destruct HNb as [_ HNb]. assert (2 * J <= b) by lia.
        assert (Z.abs (2 * N + 1) * (2 * J) <= Z.abs (2 * N + 1) * b) by (apply Z.mul_le_mono_nonneg_l; lia).
        assert (Z.abs ((2 * N + 1) * J - 1) <= Z.abs (2 * N + 1) * J + 1) by (rewrite <- (Z.abs_eq J) at 2 by lia; rewrite <- Z.abs_mul; lia).
        change (2 ^ 53) with 9007199254740992 in *. lia. }
      set (g := (inject_Z N + (1 # 2))%Q) in *. set (u := (1 / inject_Z (2 ^ j))%Q).
      assert (Eyg : (y == g - u)%Q).
      { unfold y, u, g, m. unfold Z.sub. rewrite Ej. rewrite !inject_Z_plus, !inject_Z_mult, !inject_Z_plus, !inject_Z_mult. change (inject_Z 2) with 2%Q. change (inject_Z 1) with 1%Q. change (inject_Z (Z.opp 1)) with (-1)%Q.
        field. assert (0 < inject_Z J)%Q by (apply (inj_lt 0); lia). lra. }
      (* the gap is at least 1/b *)
      assert (GAP : (1 <= (g - q) * inject_Z b)%Q).
      { assert (Zg : 1 <= (2 * N + 1) * b' - a) by (rewrite Eb in HN; nia). apply inj_le in Zg. unfold Z.sub in Zg. rewrite inject_Z_plus, inject_Z_mult, inject_Z_opp, inject_Z_plus, inject_Z_mult, <- Eq in Zg.
        change (inject_Z 2) with 2%Q in Zg. change (inject_Z 1) with 1%Q in Zg. unfold g. rewrite Eb in *. rewrite inject_Z_mult in *. change (inject_Z 2) with 2%Q in *. lra. }
      assert (U : (u * inject_Z (2 ^ j) == 1)%Q) by (unfold u; field; lra).
      assert (UB : (u * inject_Z b < 2)%Q).
      { assert (B2 : (inject_Z b < 2 * inject_Z (2 ^ j))%Q) by (change 2%Q with (inject_Z 2); rewrite <- inject_Z_mult; apply inj_lt; lia).
        assert (Pu : (0 < u)%Q). { apply Qmult_lt_r with (z := inject_Z (2 ^ j)); [exact PJ|]. rewrite U. lra. }
        assert (u * inject_Z b < u * (2 * inject_Z (2 ^ j)))%Q by (apply Qmult_lt_l; auto). lra. }
      assert (UG : (u < 2 * (g - q))%Q).
      { apply Qmult_lt_r with (z := inject_Z b); [exact Pb|]. lra. }
      assert (Pu : (0 < u)%Q). { apply Qmult_lt_r with (z := inject_Z (2 ^ j)); [exact PJ|]. rewrite U. lra. }
      specialize (Near y D). rewrite (Qabs_pos (x - q)) in Near by lra.
      destruct (Qlt_le_dec y q) as [Ly|Gy].
      + rewrite Qabs_neg in Near by lra. lra.
      + rewrite Qabs_pos in Near by lra. lra. }
  apply FIN; auto.
Qed.

(** the division is rounded to nearest *)
Lemma round_even_nearest num den k : 0 < den -> Z.abs (round_even num den * den - num) <= Z.abs (k * den - num).
Proof.
  intros H. unfold round_even. pose proof (Z.div_mod num den ltac:(lia)) as E. pose proof (Z.mod_pos_bound num den H) as R.
  set (q := num / den) in *. set (r := num mod den) in *. clearbody q r.
  destruct (Z.le_gt_cases k q) as [K|K].
  - assert (k * den <= q * den) by (apply Z.mul_le_mono_nonneg_r; lia). destruct ((den <? 2 * r) || _) eqn:X.
    + assert (den <= 2 * r) by (destruct (den <? 2 * r) eqn:?; [lia|]; destruct (den =? 2 * r) eqn:?; [lia|discriminate]). lia.
    + lia.
  - assert ((q + 1) * den <= k * den) by (apply Z.mul_le_mono_nonneg_r; lia). destruct ((den <? 2 * r) || _) eqn:X.
    + lia.
    + assert (2 * r <= den) by (destruct (den <? 2 * r) eqn:?; [discriminate|lia]). lia.
Qed.
Lemma nearest_opp q x : nearest q x -> nearest (- q) (- x).
Proof.
  assert (D : forall y, is_double y -> is_double (- y)).
  { intros y (m & e & H & E). exists (- m), e. split; [lia|]. rewrite E, inject_Z_opp. ring. }
  intros [Dx N]. split; [apply D, Dx|]. intros y Dy. specialize (N (- y)%Q (D y Dy)).
  assert (E1 : (- x - - q == - (x - q))%Q) by ring. assert (E2 : (y - - q == - (- y - q))%Q) by ring. rewrite E1, E2, !Qabs_opp. exact N.
Qed.
Lemma abs_scale u v w (x y : Q) : Z.abs u <= Z.abs v -> (0 < w)%Q -> (x * w == inject_Z u)%Q -> (y * w == inject_Z v)%Q -> (Qabs x <= Qabs y)%Q.
Proof.
  intros H Hw Ex Ey. apply Qmult_le_r with (z := w); [exact Hw|].
  rewrite <- (Qabs_pos w) by lra. rewrite <- !Qabs_Qmult. rewrite Ex, Ey. unfold Qabs, inject_Z. rewrite <- Zle_Qle || idtac. unfold Qle. cbn [Qnum Qden]. lia.
Qed.
Lemma scale_exp n b e : 0 < b -> exists num den, num = n * 2 ^ Z.max 0 (- e) /\ den = b * 2 ^ Z.max 0 e /\ 0 < den /\
   (inject_Z n * inject_Z den == inject_Z b * Qpower 2 e * inject_Z num)%Q.
Proof.
  intros Hb. exists (n * 2 ^ Z.max 0 (- e)), (b * 2 ^ Z.max 0 e). split; [reflexivity|split; [reflexivity|split]].
  - apply Z.mul_pos_pos; [exact Hb|]. apply Z.pow_pos_nonneg; lia.
  - rewrite !inject_Z_mult, <- !pow2_Z by lia. assert (E : (Qpower 2 (Z.max 0 e) == Qpower 2 e * Qpower 2 (Z.max 0 (- e)))%Q).
    { rewrite <- pow2_add. replace (e + Z.max 0 (- e)) with (Z.max 0 e) by lia. reflexivity. }
    rewrite E. ring.
Qed.
Lemma pow2_le a b : a <= b -> (Qpower 2 a <= Qpower 2 b)%Q.
Proof.
  intros H. replace b with (a + (b - a)) by lia. rewrite pow2_add. assert (1 <= Qpower 2 (b - a))%Q.
  { rewrite pow2_Z by lia. change 1%Q with (inject_Z 1). apply inj_le. assert (0 < 2 ^ (b - a)) by (apply Z.pow_pos_nonneg; lia). lia. }
  pose proof (pow2_pos a). assert (Qpower 2 a * 1 <= Qpower 2 a * Qpower 2 (b - a))%Q by (apply Qmult_le_l; auto). lra.
Qed.
Lemma round_pos n b e : 0 < n -> 0 < b -> let q := (inject_Z n / inject_Z b)%Q in (inject_Z (2 ^ 52) * Qpower 2 e <= q)%Q -> (q < inject_Z (2 ^ 53) * Qpower 2 e)%Q ->
  nearest q (inject_Z (round_even (n * 2 ^ Z.max 0 (- e)) (b * 2 ^ Z.max 0 e)) * Qpower 2 e).
Proof.
  intros Hn Hb q Lo Hi. destruct (scale_exp n b e Hb) as (num & den & <- & <- & Hd & E).
  assert (Pb : (0 < inject_Z b)%Q) by (apply (inj_lt 0); exact Hb). assert (Pd : (0 < inject_Z den)%Q) by (apply (inj_lt 0); exact Hd).
  pose proof (pow2_pos e) as Ps. set (s := Qpower 2 e) in *. set (m := round_even num den).
  assert (Eq : (q * inject_Z den == s * inject_Z num)%Q).
  { unfold q. assert (X : (inject_Z n / inject_Z b * inject_Z den == inject_Z n * inject_Z den / inject_Z b)%Q) by (field; lra). rewrite X, E. field. lra. }
  (* nearest among the multiples of s *)
  assert (Mul : forall k, (Qabs (inject_Z m * s - q) <= Qabs (inject_Z k * s - q))%Q).
  { intros k. apply (abs_scale (m * den - num) (k * den - num) (inject_Z den / s)).
    - apply round_even_nearest, Hd.
    - apply Qlt_shift_div_l; [exact Ps|]. lra.
    - unfold Z.sub. rewrite inject_Z_plus, inject_Z_mult, inject_Z_opp. assert (X : ((inject_Z m * s - q) * (inject_Z den / s) == inject_Z m * inject_Z den - q * inject_Z den / s)%Q) by (field; lra).
      rewrite X, Eq. field. lra.
    - unfold Z.sub. rewrite inject_Z_plus, inject_Z_mult, inject_Z_opp. assert (X : ((inject_Z k * s - q) * (inject_Z den / s) == inject_Z k * inject_Z den - q * inject_Z den / s)%Q) by (field; lra).
      rewrite X, Eq. field. lra. }
  assert (Mb : 2 ^ 52 <= m <= 2 ^ 53).
  { assert (N1 : 2 ^ 52 * den <= num).
    { rewrite Zle_Qle, inject_Z_mult. apply Qmult_le_r with (z := s); [exact Ps|]. assert (inject_Z (2 ^ 52) * s * inject_Z den <= q * inject_Z den)%Q by (apply Qmult_le_r; auto). rewrite Eq in H. lra. }
    assert (N2 : num < 2 ^ 53 * den).
    { rewrite Zlt_Qlt, inject_Z_mult. apply Qmult_lt_r with (z := s); [exact Ps|]. assert (q * inject_Z den < inject_Z (2 ^ 53) * s * inject_Z den)%Q by (apply Qmult_lt_r; auto). rewrite Eq in H. lra. }
    unfold m, round_even. assert (A1 : 2 ^ 52 <= num / den) by (apply Z.div_le_lower_bound; lia). assert (A2 : num / den < 2 ^ 53) by (apply Z.div_lt_upper_bound; lia).
    destruct ((den <? 2 * (num mod den)) || _); lia. }
  split.
  - exists m, e. split; [lia|]. reflexivity.
  - intros y (m' & e' & Hm' & Ey). destruct (Z.le_gt_cases e e') as [Ge|Lt].
    + assert (X : (y == inject_Z (m' * 2 ^ (e' - e)) * s)%Q).
      { rewrite Ey, inject_Z_mult, <- pow2_Z by lia. unfold s. rewrite <- Qmult_assoc, <- pow2_add. replace (e' - e + e) with e' by lia. reflexivity. }
      rewrite X. apply Mul.
    + assert (Y : (y <= inject_Z (2 ^ 52) * s)%Q).
      { rewrite Ey. pose proof (pow2_pos e'). assert (H1 : (inject_Z m' * Qpower 2 e' <= inject_Z (2 ^ 53) * Qpower 2 e')%Q) by (apply Qmult_le_r; [auto|apply inj_le; lia]).
        assert (H2 : (Qpower 2 e' <= Qpower 2 (e - 1))%Q) by (apply pow2_le; lia). assert (H3 : (s == Qpower 2 (e - 1) * 2)%Q) by (unfold s; replace e with (e - 1 + 1) at 1 by lia; rewrite pow2_add; change (Qpower 2 1) with 2%Q; reflexivity).
        change (inject_Z (2 ^ 52)) with (9007199254740992 / 2)%Q || change (2 ^ 53) with (2 * 2 ^ 52) in H1; rewrite ?inject_Z_mult in H1. change (inject_Z 2) with 2%Q in H1.
        assert (Z52 : (0 <= inject_Z (2 ^ 52))%Q) by (apply (inj_le 0); lia).
        assert (H4 : (inject_Z (2 ^ 52) * Qpower 2 e' <= inject_Z (2 ^ 52) * Qpower 2 (e - 1))%Q) by (rewrite !(Qmult_comm (inject_Z (2 ^ 52))); apply Qmult_le_compat_r; auto). rewrite H3. lra. }
      specialize (Mul (2 ^ 52)). rewrite (Qabs_neg (inject_Z (2 ^ 52) * s - q)) in Mul by lra. rewrite (Qabs_neg (y - q)) by lra. lra.
Qed.
Lemma zero_nearest : nearest 0 0.
Proof. split; [exists 0, 0; split; [lia|reflexivity]|]. intros y _. apply Qabs_nonneg. Qed.
Lemma nearest_comp q q' x x' : (q == q')%Q -> (x == x')%Q -> nearest q x -> nearest q' x'.
Proof.
  intros E1 E2 [(m & e & H & E) N]. split; [exists m, e; split; [exact H|rewrite <- E2; exact E]|]. intros y D. rewrite <- E1, <- E2. apply N, D.
Qed.
Theorem js_div_nearest a b : 0 < b -> nearest (inject_Z a / inject_Z b) (js_div a b).
Proof.
  intros Hb. unfold js_div. destruct (Z.eqb_spec a 0) as [-> |Na].
  { apply (nearest_comp 0 _ 0 0); [unfold Qdiv; change (inject_Z 0) with 0%Q; ring|reflexivity|apply zero_nearest]. }
  set (n := Z.abs a). assert (Hn : 0 < n) by lia. set (l := Z.log2 n - Z.log2 b).
  assert (Pb : (0 < inject_Z b)%Q) by (apply (inj_lt 0); exact Hb). set (q := (inject_Z n / inject_Z b)%Q).
  assert (Eq : (q * inject_Z b == inject_Z n)%Q) by (unfold q; field; lra).
  assert (T : forall k, (n * 2 ^ Z.max 0 (- k) <? b * 2 ^ Z.max 0 k) = true <-> (q < Qpower 2 k)%Q).
  { intros k. destruct (scale_exp n b k Hb) as (num & den & <- & <- & Hd & E). rewrite Z.ltb_lt.
    assert (Pd : (0 < inject_Z den)%Q) by (apply (inj_lt 0); exact Hd). pose proof (pow2_pos k) as Pk. set (s := Qpower 2 k) in *.
    assert (E2 : (q * inject_Z den == s * inject_Z num)%Q).
    { unfold q. assert (X : (inject_Z n / inject_Z b * inject_Z den == inject_Z n * inject_Z den / inject_Z b)%Q) by (field; lra). rewrite X, E. field. lra. }
    split; intros H.
    - apply Qmult_lt_r with (z := inject_Z den); [exact Pd|]. rewrite E2. rewrite Zlt_Qlt in H. apply Qmult_lt_l; auto.
    - rewrite Zlt_Qlt. apply Qmult_lt_l with (z := s); [exact Pk|]. rewrite <- E2. apply Qmult_lt_r; auto. }
  destruct (Z.log2_spec n Hn) as [Ln Un]. destruct (Z.log2_spec b Hb) as [Lb Ub].
  assert (LL : (Qpower 2 (l - 1) <= q)%Q /\ (q < Qpower 2 (l + 1))%Q).
  { pose proof (Z.log2_nonneg n). pose proof (Z.log2_nonneg b).
    apply inj_le in Ln, Lb. apply inj_lt in Un, Ub. rewrite <- !pow2_Z in * by lia. split.
    - apply Qmult_le_r with (z := inject_Z b); [exact Pb|]. rewrite Eq. pose proof (pow2_pos (l - 1)).
      assert (Qpower 2 (l - 1) * inject_Z b <= Qpower 2 (l - 1) * Qpower 2 (Z.succ (Z.log2 b)))%Q by (rewrite !(Qmult_comm (Qpower 2 (l - 1))); apply Qmult_le_compat_r; lra).
      rewrite <- pow2_add in H2. replace (l - 1 + Z.succ (Z.log2 b)) with (Z.log2 n) in H2 by lia. lra.
    - apply Qmult_lt_r with (z := inject_Z b); [exact Pb|]. rewrite Eq. pose proof (pow2_pos (l + 1)).
      assert (Qpower 2 (l + 1) * Qpower 2 (Z.log2 b) <= Qpower 2 (l + 1) * inject_Z b)%Q by (rewrite !(Qmult_comm (Qpower 2 (l + 1))); apply Qmult_le_compat_r; lra).
      rewrite <- pow2_add in H2. replace (l + 1 + Z.log2 b) with (Z.succ (Z.log2 n)) in H2 by lia. lra. }
  set (e := (if n * 2 ^ Z.max 0 (- l) <? b * 2 ^ Z.max 0 l then l - 1 else l) - 52).
  assert (R : nearest q (inject_Z (round_even (n * 2 ^ Z.max 0 (- e)) (b * 2 ^ Z.max 0 e)) * Qpower 2 e)).
  { assert (P52 : (inject_Z (2 ^ 52) * Qpower 2 e == Qpower 2 (e + 52))%Q) by (rewrite <- pow2_Z, <- pow2_add by lia; replace (52 + e) with (e + 52) by lia; reflexivity).
    assert (P53 : (inject_Z (2 ^ 53) * Qpower 2 e == Qpower 2 (e + 53))%Q) by (rewrite <- pow2_Z, <- pow2_add by lia; replace (53 + e) with (e + 53) by lia; reflexivity).
    specialize (T l). destruct (n * 2 ^ Z.max 0 (- l) <? b * 2 ^ Z.max 0 l).
    - assert (Tl : (q < Qpower 2 l)%Q) by (apply T; reflexivity). apply round_pos; auto.
      + rewrite P52. replace (e + 52) with (l - 1) by (unfold e; lia). apply LL.
      + rewrite P53. replace (e + 53) with l by (unfold e; lia). exact Tl.
    - assert (Tl : (Qpower 2 l <= q)%Q). { destruct (Qlt_le_dec q (Qpower 2 l)) as [X|X]; [apply T in X; discriminate|exact X]. } apply round_pos; auto.
      + rewrite P52. replace (e + 52) with l by (unfold e; lia). exact Tl.
      + rewrite P53. replace (e + 53) with (l + 1) by (unfold e; lia). apply LL. }
  destruct (Z.le_gt_cases 0 a) as [P|N].
  - replace (Z.sgn a) with 1 by lia. rewrite Z.mul_1_l. replace a with n by lia. exact R.
  - replace (Z.sgn a) with (-1) by lia. apply nearest_opp in R. eapply nearest_comp; [| |exact R].
    + replace a with (- n) by lia. rewrite inject_Z_opp. unfold q. field. lra.
    + replace (-1 * round_even (n * 2 ^ Z.max 0 (- e)) (b * 2 ^ Z.max 0 e)) with (- round_even (n * 2 ^ Z.max 0 (- e)) (b * 2 ^ Z.max 0 e)) by lia. rewrite inject_Z_opp. ring.
Qed.
