(** C01-C09: amounts. Only statements, [exact], [Print Assumptions] and examples. *)
From Coq Require Import Permutation Qabs.
From Verif Require Import Base M_Amount S_Decimal S_Amount L_Dec L_Amount.
Local Open Scope Z_scope.

Definition cad := mkCommodity 1 (B "CAD") 2.
Definition jpy := mkCommodity 2 (B "JPY") 0.
Definition oz := mkCommodity 3 (B "OZ") 3.

(** ** C01 *)
Theorem C01_parse_floor : forall l c a, lit_ok l -> parse_amount (lit_text l) c = Ok a ->
  a_com a = c /\ a_int a = Qfloor (lit_value l * pow10Q (c_dec c)).
Proof. exact parse_sound. Qed.
Print Assumptions C01_parse_floor.
Theorem C01_parse_exact : forall l c a, lit_ok l -> (List.length (l_frac l) <= c_dec c)%nat ->
  parse_amount (lit_text l) c = Ok a -> (value a == lit_value l)%Q.
Proof. exact parse_exact. Qed.
Print Assumptions C01_parse_exact.
Theorem C01_parse_succeeds : forall l c, lit_ok l ->
  (parse_amount (lit_text l) c = Fail <-> fits64 (lit_int l) = false) /\
  ((c_dec c <= 50)%nat -> (List.length (l_frac l) <= 50)%nat ->
   fits64 (lit_int l) = true -> exists a, parse_amount (lit_text l) c = Ok a).
Proof. exact parse_total. Qed.
Print Assumptions C01_parse_succeeds.
Example C01_example : let l := mkLit true [0;1;2] [3;4;5] in
  lit_ok l /\ lit_text l = B "-012.345" /\ parse_amount (lit_text l) cad = Ok (mkAmount (-1235) cad).
Proof. repeat split; repeat constructor; try lia; discriminate. Qed.

(** ** C02: refuted for literals with more fraction digits than the commodity; exact extent *)
Theorem C02_sign_symmetry_refuted : exists ip fp c a b,
  lit_ok (mkLit false ip fp) /\
  parse_amount (lit_text (mkLit false ip fp)) c = Ok a /\
  parse_amount (lit_text (mkLit true ip fp)) c = Ok b /\ b <> negated a.
Proof. exists [0], [0;1;1], cad, (mkAmount 1 cad), (mkAmount (-2) cad).
  repeat split; repeat constructor; try lia; discriminate. Qed.
Print Assumptions C02_sign_symmetry_refuted.
Theorem C02_sign_symmetry_partial : forall ip fp c a b, lit_ok (mkLit false ip fp) ->
  parse_amount (lit_text (mkLit false ip fp)) c = Ok a ->
  parse_amount (lit_text (mkLit true ip fp)) c = Ok b ->
  (a_int b = - a_int a \/ a_int b = - a_int a - 1) /\
  (a_int b = - a_int a <-> (minor_value (a_int a) (c_dec c) == lit_value (mkLit false ip fp))%Q).
Proof. exact parse_sign_gap. Qed.
Print Assumptions C02_sign_symmetry_partial.

(** ** C03 *)
Theorem C03_amount_round_trip : forall a, (c_dec (a_com a) <= 50)%nat ->
  exists s, format_amount a (c_dec (a_com a)) = Ok s /\
    write_amount a = Ok (s ++ B " " ++ c_id (a_com a)) /\
    parse_amount s (a_com a) = if fits64 (a_int a) then Ok a else Fail.
Proof. intros a H. destruct (format_parse a H) as (s & F & P). exists s. split; [exact F|]. split; [|exact P].
  unfold write_amount. unfold a_dec in *. rewrite F. reflexivity. Qed.
Print Assumptions C03_amount_round_trip.
Example C03_example : write_amount (mkAmount (-5) cad) = Ok (B "-0.05 CAD") /\ parse_amount (B "-0.05") cad = Ok (mkAmount (-5) cad)
  /\ (c_dec cad <= 50)%nat /\ fits64 (-5) = true.
Proof. repeat split. cbn. lia. Qed.

(** ** C04 *)
Theorem C04_width : forall a d, (c_dec (a_com a) <= 50)%nat -> (c_dec (a_com a) <= d)%nat ->
  Z.abs (a_int a) < 10 ^ 50 ->
  exists s, format_amount a d = Ok s /\ width a d = Ok (List.length s).
Proof. exact width_ok. Qed.
Print Assumptions C04_width.
Theorem C04_width_too_big : forall a d, 10 ^ 50 <= Z.abs (a_int a) -> width a d = Panic.
Proof. exact width_panic. Qed.
Print Assumptions C04_width_too_big.
Example C04_example : width (mkAmount (-1234) cad) 2 = Ok 6%nat /\ format_amount (mkAmount (-1234) cad) 2 = Ok (B "-12.34").
Proof. split; reflexivity. Qed.
(** Printing with fewer decimals than the commodity can be wider than predicted. *)
Theorem C04_width_fewer_decimals_refuted : exists a d s w,
  format_amount a d = Ok s /\ width a d = Ok w /\ w <> List.length s.
Proof. exists (mkAmount 999 cad), 1%nat, (B "10.0"), 3%nat. repeat split. discriminate. Qed.
Print Assumptions C04_width_fewer_decimals_refuted.

(** ** C05 *)
Theorem C05_rounding : forall a p, (c_dec (a_com a) <= 50)%nat ->
  exists l, format_amount a p = Ok (lit_text l) /\ lit_ok l /\
    List.length (l_frac l) = p /\ l_neg l = (a_int a <? 0) /\
    (l_int l = [0] \/ exists d r, l_int l = d :: r /\ 0 < d) /\
    (Qabs (lit_value l - value a) <= (1 # 2) / pow10Q p)%Q /\
    ((Qabs (lit_value l - value a) == (1 # 2) / pow10Q p)%Q -> (Qabs (value a) < Qabs (lit_value l))%Q).
Proof.
  exact (fun a p H =>
    let b := 10 ^ Z.of_nat (c_dec (a_com a)) in let P := pow10_pos (c_dec (a_com a)) in
    ex_intro _ (fmt_literal (a_int a) b p)
     (conj (format_ok a p H) (conj (fmt_literal_ok (a_int a) b p P)
     (conj (fmt_literal_frac_length (a_int a) b p P) (conj eq_refl
     (conj (fmt_literal_normal (a_int a) b p P) (fmt_round (a_int a) b p P))))))).
Qed.
Print Assumptions C05_rounding.
Example C05_example : format_amount (mkAmount (-995) cad) 1 = Ok (B "-10.0") /\ format_amount (mkAmount (-2) cad) 1 = Ok (B "-0.0")
  /\ format_amount (mkAmount 250 cad) 0 = Ok (B "3").
Proof. repeat split. Qed.

(** ** Bringing an amount to another number of decimals truncates toward zero *)
Definition truncated (d : nat) (v t : Q) : Prop :=
  (Qabs t <= Qabs v /\ Qabs v - Qabs t < 1 / pow10Q d /\ 0 <= t * v)%Q.
Lemma adjusted_truncated b a i : adjusted_to b a = Ok i -> truncated (c_dec (a_com a)) (value b) (value (mkAmount i (a_com a))).
Proof.
  intros H. unfold adjusted_to in H. pose proof (pow10Q_pos (c_dec (a_com a))) as Pa.
  assert (Ex : (value (mkAmount i (a_com a)) == value b)%Q -> truncated (c_dec (a_com a)) (value b) (value (mkAmount i (a_com a)))).
  { intros E. unfold truncated. rewrite E. split; [apply Qle_refl|]. split.
    - setoid_replace (Qabs (value b) - Qabs (value b))%Q with 0%Q by ring. unfold Qdiv. rewrite Qmult_1_l. apply Qinv_lt_0_compat, Pa.
    - unfold Qle, Qmult. cbn. nia. }
  destruct (Nat.ltb_spec (a_dec b) (a_dec a)) as [L|L].
  - destruct (big_pow10_cases (a_dec a - a_dec b)) as [[_ E]|[_ E]]; rewrite E in H; [|discriminate]. injection H as <-. apply Ex.
    unfold value, minor_value. cbn [a_int a_com]. rewrite inject_Z_mult.
    replace (pow10Q (c_dec (a_com a))) with (pow10Q (a_dec b + (a_dec a - a_dec b)))%nat by (f_equal; unfold a_dec in *; lia).
    unfold pow10Q. rewrite pow10_add, inject_Z_mult. unfold a_dec. field. split; apply pow10Q_neq.
  - destruct (Nat.ltb_spec (a_dec a) (a_dec b)) as [L'|L'].
    + destruct (big_pow10_cases (a_dec b - a_dec a)) as [[_ E]|[_ E]]; rewrite E in H; [|discriminate]. injection H as <-.
      set (x := mkAmount (a_int b) (a_com a)). set (y := mkAmount 1 (mkCommodity 0 [] (a_dec b - a_dec a))).
      destruct (times_value x y (mkAmount (Z.quot (a_int b) (10 ^ Z.of_nat (a_dec b - a_dec a))) (a_com a))) as (_ & H1 & H2 & H3).
      { unfold times. change (a_dec y) with (a_dec b - a_dec a)%nat. rewrite E. cbn [bind]. change (a_int x) with (a_int b). change (a_int y) with 1.
        rewrite Z.mul_1_r. reflexivity. }
      assert (V : (minor_value (a_int x) (a_dec x) * minor_value (a_int y) (a_dec y) == value b)%Q).
      { unfold value, minor_value. change (a_int x) with (a_int b). change (a_int y) with 1. change (a_dec x) with (a_dec a). change (a_dec y) with (a_dec b - a_dec a)%nat.
        replace (pow10Q (c_dec (a_com b))) with (pow10Q (a_dec a + (a_dec b - a_dec a)))%nat by (f_equal; unfold a_dec in *; lia).
        unfold pow10Q. rewrite pow10_add, inject_Z_mult. change (inject_Z 1) with 1%Q. field. split; apply pow10Q_neq. }
      rewrite V in H1, H2, H3. unfold truncated, value at 2 4 6. cbn [a_com a_int]. auto.
    + injection H as <-. apply Ex. unfold value, minor_value. cbn [a_int a_com]. replace (c_dec (a_com b)) with (c_dec (a_com a)) by (unfold a_dec in *; lia). reflexivity.
Qed.

(** ** C06 *)
Theorem C06_sum_exact : forall conv c l, Forall (fun b => a_com b = c) l ->
  add_all conv (zero_amount c) l = Ok (mkAmount (zsum (map a_int l)) c).
Proof. exact (fun conv c l H => add_all_same conv l (zero_amount c) H). Qed.
Print Assumptions C06_sum_exact.
Theorem C06_order_independent : forall conv conv' c l l', Forall (fun b => a_com b = c) l -> Permutation l l' ->
  add_all conv (zero_amount c) l = add_all conv' (zero_amount c) l'.
Proof.
  intros conv conv' c l l' H P. rewrite C06_sum_exact by exact H.
  rewrite C06_sum_exact by exact (Permutation_Forall P H).
  rewrite (zsum_perm _ _ (Permutation_map a_int P)). reflexivity. Qed.
Print Assumptions C06_order_independent.
Example C06_example : Forall (fun b => a_com b = cad) [mkAmount 10 cad; mkAmount (-25) cad]
  /\ add_all (fun _ _ _ => Fail) (zero_amount cad) [mkAmount 10 cad; mkAmount (-25) cad] = Ok (mkAmount (-15) cad).
Proof. split; [repeat constructor|reflexivity]. Qed.

(** other commodities: the converted amount, cut to the decimals of the sum, is what is added *)
Theorem C06_add_converted : forall conv a b r, add_in conv a b = Ok r ->
  exists b' t, (a_com a = a_com b -> b' = b) /\ (a_com a <> a_com b -> conv (a_com a) b (a_com b) = Ok b') /\
    a_com r = a_com a /\ a_com t = a_com a /\ truncated (c_dec (a_com a)) (value b') (value t) /\ a_int r = a_int a + a_int t.
Proof.
  intros conv a b r H. unfold add_in in H. destruct (eq_commodity (a_com a) (a_com b)) eqn:E.
  - cbn [bind] in H. destruct (adjusted_to b a) as [i| |] eqn:A; try discriminate. injection H as <-.
    exists b, (mkAmount i (a_com a)). split; [auto|]. split; [intros N; apply eq_commodity_eq in E; tauto|].
    repeat (split; [reflexivity|]). split; [apply (adjusted_truncated b a i A)|reflexivity].
  - destruct (conv (a_com a) b (a_com b)) as [b'| |] eqn:C; try discriminate. cbn [bind] in H.
    destruct (adjusted_to b' a) as [i| |] eqn:A; try discriminate. injection H as <-.
    exists b', (mkAmount i (a_com a)). split; [intros N; rewrite N in E; rewrite eq_commodity_refl in E; discriminate|]. split; [intros _; reflexivity|].
    repeat (split; [reflexivity|]). split; [apply (adjusted_truncated b' a i A)|reflexivity].
Qed.
Print Assumptions C06_add_converted.
Example C06_converted_example : exists r, add_in (fun _ b _ => Ok b) (mkAmount 10 jpy) (mkAmount (-257) cad) = Ok r /\ r = mkAmount 8 jpy.
Proof. eexists. split; reflexivity. Qed.

(** ** C07 *)
Theorem C07_times : forall a b r, times a b = Ok r ->
  a_com r = a_com a /\
  (Qabs (value r) <= Qabs (value a * value b))%Q /\
  (Qabs (value a * value b) - Qabs (value r) < 1 / pow10Q (c_dec (a_com a)))%Q /\
  (0 <= value r * (value a * value b))%Q.
Proof. exact times_value. Qed.
Print Assumptions C07_times.
Theorem C07_times_total : forall a b, (c_dec (a_com b) <= 50)%nat -> exists r, times a b = Ok r.
Proof. exact (fun a b H => ex_intro _ _ (times_ok a b H)). Qed.
Print Assumptions C07_times_total.
Theorem C07_times_negated : forall a b,
  times (negated a) b = (do r <- times a b; Ok (negated r)) /\
  times a (negated b) = (do r <- times a b; Ok (negated r)).
Proof. exact times_negated. Qed.
Print Assumptions C07_times_negated.
Example C07_example : times (mkAmount (-199) cad) (mkAmount 1999 oz) = Ok (mkAmount (-397) cad).
Proof. reflexivity. Qed.

(** ** C08 *)
Theorem C08_equal_symmetric_refuted : exists a b, is_equal a b = Ok true /\ is_equal b a = Ok false.
Proof. exists (mkAmount 1 jpy), (mkAmount 150 cad). split; reflexivity. Qed.
Print Assumptions C08_equal_symmetric_refuted.
Theorem C08_compare_partial : forall a b,
  (c_dec (a_com a) = c_dec (a_com b) \/ (c_dec (a_com b) <= c_dec (a_com a) /\ c_dec (a_com a) <= 50)%nat) ->
  cmp a b = Ok (value a ?= value b)%Q.
Proof. exact (fun a b H => match H with or_introl e => cmp_same_dec a b e | or_intror (conj h l) => cmp_value a b h l end). Qed.
Print Assumptions C08_compare_partial.
(** with more decimals on the right, only its digits up to the decimals of the left are compared *)
Theorem C08_compare_truncates : forall a b r, cmp a b = Ok r ->
  exists t, a_com t = a_com a /\ truncated (c_dec (a_com a)) (value b) (value t) /\ r = (value a ?= value t)%Q.
Proof.
  intros a b r H. unfold cmp in H. destruct (adjusted_to b a) as [i| |] eqn:A; try discriminate. injection H as <-.
  exists (mkAmount i (a_com a)). split; [reflexivity|]. split; [apply adjusted_truncated, A|].
  pose proof (cmp_same_dec a (mkAmount i (a_com a)) eq_refl) as K. unfold cmp in K. rewrite adjusted_same in K by reflexivity. injection K as K. exact K.
Qed.
Print Assumptions C08_compare_truncates.
Example C08_example : cmp (mkAmount 150 cad) (mkAmount 1 jpy) = Ok Gt.
Proof. reflexivity. Qed.

(** ** C09 *)
Theorem C09_pow10 : forall i, (0 <= i <= 18 -> pow10 i = Ok (10 ^ i)) /\ (18 < i -> pow10 i = Panic).
Proof. exact (fun i => conj (pow10_fn_ok i) (pow10_fn_panic i)). Qed.
Print Assumptions C09_pow10.
Theorem C09_big_pow10 : forall i,
  ((i <= 50)%nat /\ big_pow10 i = Ok (10 ^ Z.of_nat i)) \/ ((50 < i)%nat /\ big_pow10 i = Panic).
Proof. exact big_pow10_cases. Qed.
Print Assumptions C09_big_pow10.
Theorem C09_log10 : forall i, (i < 10 -> log10 i = 0) /\
  (0 < i <= 2 ^ 63 - 1 -> 0 <= log10 i /\ 10 ^ log10 i <= i < 10 ^ (log10 i + 1)).
Proof. exact (fun i => conj (log10_lt10 i) (log10_spec i)). Qed.
Print Assumptions C09_log10.
Theorem C09_big_log10 : forall b, big_log10 (- b) = big_log10 b /\
  (Z.abs b < 10 ^ 50 -> exists k, big_log10 b = Ok k /\ (k < 50)%nat /\ Z.abs b < 10 ^ Z.of_nat (S k)
            /\ (k <> O -> 10 ^ Z.of_nat k <= Z.abs b)) /\
  (10 ^ 50 <= Z.abs b -> big_log10 b = Panic).
Proof. exact (fun b => conj (big_log10_neg b) (conj (big_log10_ok b) (big_log10_panic b))). Qed.
Print Assumptions C09_big_log10.
Theorem C09_set_fraction : forall k, 0 <= k <= 18 -> set_fraction (10 ^ k) = k.
Proof. exact log10_of_pow. Qed.
Print Assumptions C09_set_fraction.
Example C09_example : log10 99999 = 4 /\ log10 100000 = 5 /\ big_log10 (-1000) = Ok 3%nat.
Proof. repeat split. Qed.
