(** Lemmas about the amount model. *)
From Coq Require Import Permutation Qabs.
From Verif Require Import Base M_Amount S_Decimal S_Amount L_Dec.
Local Open Scope Z_scope.

Arguments Z.pow : simpl never.

Lemma nth_pow_table n : forall p k,
  nth_error (pow_table n p) k = if (k <? n)%nat then Some (p * 10 ^ Z.of_nat (S k)) else None.
Proof.
  induction n as [|n IH]; intros p k; cbn [pow_table].
  - destruct k; reflexivity.
  - destruct k as [|k]; cbn [nth_error].
    + change (0 <? S n)%nat with true. reflexivity.
    + rewrite IH. change (S k <? S n)%nat with (k <? n)%nat. destruct (k <? n)%nat; auto.
      f_equal. rewrite (pow10_S (S k)). ring.
Qed.
Lemma big_pow10_ok i : (i <= 50)%nat -> big_pow10 i = Ok (10 ^ Z.of_nat i).
Proof.
  intros H. destruct i as [|k]; [reflexivity|]. unfold big_pow10, bigPow10s. rewrite nth_pow_table.
  replace (k <? 50)%nat with true by lia. f_equal. ring.
Qed.
Lemma big_pow10_panic i : (50 < i)%nat -> big_pow10 i = Panic.
Proof.
  intros H. destruct i as [|k]; [lia|]. unfold big_pow10, bigPow10s. rewrite nth_pow_table.
  replace (k <? 50)%nat with false by lia. reflexivity.
Qed.
Lemma big_pow10_cases i :
  ((i <= 50)%nat /\ big_pow10 i = Ok (10 ^ Z.of_nat i)) \/ ((50 < i)%nat /\ big_pow10 i = Panic).
Proof.
  destruct (Nat.le_gt_cases i 50); [left|right]; split; auto using big_pow10_ok, big_pow10_panic.
Qed.
Lemma pow10_fn_ok i : 0 <= i <= 18 -> pow10 i = Ok (10 ^ i).
Proof.
  intros H. unfold pow10. destruct (i <? 1) eqn:E.
  - replace i with 0 by lia. reflexivity.
  - unfold log10s. rewrite nth_pow_table. replace (Z.to_nat (i - 1) <? 18)%nat with true by lia.
    f_equal. replace (Z.of_nat (S (Z.to_nat (i - 1)))) with i by lia. ring.
Qed.

Lemma nth_pow_table_d n p k : (k < n)%nat -> nth k (pow_table n p) 0 = p * 10 ^ Z.of_nat (S k).
Proof.
  intros H. apply nth_error_nth. rewrite nth_pow_table. replace (k <? n)%nat with true by lia. reflexivity.
Qed.
Lemma length_pow_table n : forall p, List.length (pow_table n p) = n.
Proof. induction n; intros; cbn [pow_table List.length]; auto. Qed.

Lemma log10_small i k : 10 <= i -> 0 < k -> 10 ^ k <= i < 10 ^ (k + 1) -> k <= 18 -> i <= int64_max -> log10 i = k.
Proof.
  intros H Hk Hb Hk18 Hi. unfold log10. replace (i <? 10) with false by lia.
  destruct (i <? 100) eqn:E2.
  { assert (k < 2) by (apply (Z.pow_lt_mono_r_iff 10); lia). lia. }
  destruct (i <? 1000) eqn:E3.
  { assert (k < 3) by (apply (Z.pow_lt_mono_r_iff 10); lia).
    assert (2 < k + 1) by (apply (Z.pow_lt_mono_r_iff 10); lia). lia. }
  destruct (i <? 10000) eqn:E4.
  { assert (k < 4) by (apply (Z.pow_lt_mono_r_iff 10); lia).
    assert (3 < k + 1) by (apply (Z.pow_lt_mono_r_iff 10); lia). lia. }
  unfold log10s at 1. rewrite length_pow_table.
  assert (forall j, (j < 18)%nat -> nth j log10s 0 = 10 ^ Z.of_nat (S j)) as N.
  { intros j Hj. unfold log10s. rewrite nth_pow_table_d by auto. ring. }
  destruct (search_spec 18 (fun j => i <? nth j log10s 0)) as (R & L & U).
  { intros a b Hab Hbn. rewrite !N by lia. intros Ha.
    assert (10 ^ Z.of_nat (S a) <= 10 ^ Z.of_nat (S b)) by (apply Z.pow_le_mono_r; lia). lia. }
  set (r := search 18 (fun j => i <? nth j log10s 0)) in *.
  destruct (Z.lt_trichotomy (Z.of_nat r) k) as [C|[C|C]]; auto; exfalso.
  - specialize (U r ltac:(lia)). cbv beta in U. rewrite N in U by lia.
    assert (k < Z.of_nat (S r)) by (apply (Z.pow_lt_mono_r_iff 10); lia). lia.
  - specialize (L (Z.to_nat k) ltac:(lia)). cbv beta in L. rewrite N in L by lia.
    replace (Z.of_nat (S (Z.to_nat k))) with (k + 1) in L by lia. lia.
Qed.
Lemma log10_lt10 i : i < 10 -> log10 i = 0.
Proof. intros H. unfold log10. replace (i <? 10) with true by lia. reflexivity. Qed.

Lemma log10_spec i : 0 < i <= int64_max ->
  0 <= log10 i /\ 10 ^ log10 i <= i < 10 ^ (log10 i + 1).
Proof.
  intros H. destruct (Z.lt_ge_cases i 10) as [C|C].
  - rewrite log10_lt10 by auto. change (10^0) with 1. change (10^(0+1)) with 10. lia.
  - (* the exponent is digits_of length - 1 *)
    pose proof (digits_of_length i ltac:(lia)) as [L U].
    set (n := List.length (digits_of i)) in *.
    assert (1 < Z.of_nat n) by (apply (Z.pow_lt_mono_r_iff 10); lia).
    assert (Z.of_nat n - 1 < 19).
    { apply (Z.pow_lt_mono_r_iff 10); try lia. unfold int64_max in H. lia. }
    rewrite (log10_small i (Z.of_nat n - 1)); try lia.
    + replace (Z.of_nat n - 1 + 1) with (Z.of_nat n) by lia. lia.
    + replace (Z.of_nat n - 1 + 1) with (Z.of_nat n) by lia. lia.
Qed.

(** bigLog10 *)
Lemma big_log10_scan_spec n : forall i p b, 0 < p ->
  match big_log10_scan i (pow_table n p) b with
  | Ok k => (i <= k < i + n)%nat /\ Z.abs b < p * 10 ^ Z.of_nat (S (k - i))
            /\ ((i < k)%nat -> p * 10 ^ Z.of_nat (k - i) <= Z.abs b)
  | Panic => p * 10 ^ Z.of_nat n <= Z.abs b \/ n = O
  | Fail => False
  end.
Proof.
  induction n as [|n IH]; intros i p b Hp; cbn [pow_table big_log10_scan]; [auto|].
  destruct (Z.abs b <? Z.abs (p * 10)) eqn:E.
  - split; [lia|]. split; [|lia]. replace (i - i)%nat with O by lia. change (10 ^ Z.of_nat 1) with 10. lia.
  - specialize (IH (S i) (p * 10) b ltac:(lia)).
    destruct (big_log10_scan (S i) (pow_table n (p * 10)) b) as [k| |].
    + destruct IH as (R & U & L). split; [lia|].
      assert (k - i = S (k - S i))%nat as -> by lia.
      split.
      * rewrite pow10_S. lia.
      * intros _. destruct (Nat.eq_dec k (S i)) as [->|N].
        -- replace (S i - S i)%nat with O by lia. change (10 ^ Z.of_nat 1) with 10. lia.
        -- specialize (L ltac:(lia)). rewrite pow10_S. lia.
    + contradiction.
    + left. destruct IH as [IH| ->].
      * rewrite pow10_S. lia.
      * change (10 ^ Z.of_nat 1) with 10. lia.
Qed.
Lemma big_log10_ok b : Z.abs b < 10 ^ 50 ->
  exists k, big_log10 b = Ok k /\ (k < 50)%nat /\ Z.abs b < 10 ^ Z.of_nat (S k)
            /\ (k <> O -> 10 ^ Z.of_nat k <= Z.abs b).
Proof.
  intros H. pose proof (big_log10_scan_spec 50 0 1 b ltac:(lia)) as S.
  unfold big_log10, bigPow10s. destruct (big_log10_scan 0 (pow_table 50 1) b) as [k| |].
  - destruct S as (R & U & L). exists k. rewrite Nat.sub_0_r in *.
    split; auto. split; [lia|]. split; [lia|]. intros; specialize (L ltac:(lia)); lia.
  - contradiction.
  - destruct S as [S|S]; [|discriminate]. change (Z.of_nat 50) with 50 in S. lia.
Qed.
Lemma big_log10_panic b : 10 ^ 50 <= Z.abs b -> big_log10 b = Panic.
Proof.
  intros H. pose proof (big_log10_scan_spec 50 0 1 b ltac:(lia)) as S.
  unfold big_log10, bigPow10s. destruct (big_log10_scan 0 (pow_table 50 1) b) as [k| |]; auto; [|contradiction].
  destruct S as (R & U & _). rewrite Nat.sub_0_r in U.
  assert (10 ^ Z.of_nat (S k) <= 10 ^ 50) by (apply Z.pow_le_mono_r; lia). lia.
Qed.
Lemma big_log10_neg b : big_log10 (- b) = big_log10 b.
Proof.
  unfold big_log10. generalize 0%nat, bigPow10s. intros i l. revert i.
  induction l as [|p r IH]; intros i; cbn [big_log10_scan]; auto.
  rewrite Z.abs_opp, IH. reflexivity.
Qed.

(** reading of literals *)
Lemma parse_int64_digits (neg : bool) ds : digits_ok ds -> ds <> [] ->
  parse_int64 ((if neg then B "-" else []) ++ map digit_char ds) =
  let v := if neg then - num ds else num ds in
  if (int64_min <=? v) && (v <=? int64_max) then Ok v else Fail.
Proof.
  intros H N. unfold parse_int64.
  assert (split_sign ((if neg then B "-" else []) ++ map digit_char ds) = (neg, map digit_char ds)) as ->.
  { destruct neg; [reflexivity|]. destruct ds as [|d r]; [congruence|].
    cbn [app map split_sign]. inversion H; subst.
    pose proof (digit_char_is_digit d ltac:(lia)) as D.
    destruct (eqc (digit_char d) "-"%char) eqn:E1; [apply eqc_eq in E1; rewrite E1 in D; discriminate|].
    destruct (eqc (digit_char d) "+"%char) eqn:E2; [apply eqc_eq in E2; rewrite E2 in D; discriminate|].
    reflexivity. }
  cbn [fst snd]. rewrite map_digits_is_digit by auto. rewrite map_length.
  replace (List.length ds =? 0)%nat with false by (destruct ds; [congruence|reflexivity]).
  cbn [negb orb]. rewrite digits_val_num by auto. reflexivity.
Qed.

Lemma lit_no_dot (neg : bool) ds : digits_ok ds -> forall c, In c ((if neg then B "-" else []) ++ map digit_char ds) -> c <> "."%char.
Proof.
  intros H c Hc. apply in_app_or in Hc. destruct Hc as [Hc|Hc].
  - destruct neg; cbn in Hc; intuition (subst; discriminate).
  - apply in_map_iff in Hc. destruct Hc as (d & <- & Hd). unfold digits_ok in H. rewrite Forall_forall in H.
    apply digit_not_dot, digit_char_is_digit. auto.
Qed.

Definition parse_expected (l : literal) (c : commodity) : res amount :=
  if negb (fits64 (lit_int l)) then Fail
  else match l_frac l with
       | [] => if (c_dec c <=? 50)%nat then Ok (mkAmount (lit_int l * 10 ^ Z.of_nat (c_dec c)) c) else Panic
       | f => if (c_dec c =? List.length f)%nat then Ok (mkAmount (lit_int l) c)
              else if (c_dec c <=? 50)%nat && (List.length f <=? 50)%nat then
                     Ok (mkAmount (lit_int l * 10 ^ Z.of_nat (c_dec c) / 10 ^ Z.of_nat (List.length f)) c)
                   else Panic
       end.

Lemma parse_amount_lit l c : lit_ok l -> parse_amount (lit_text l) c = parse_expected l c.
Proof.
  intros (Hi & Hf & Hn). unfold parse_amount, lit_text, parse_expected, lit_int, fits64.
  destruct (l_frac l) as [|f0 fr] eqn:EF.
  - rewrite app_nil_r, split_on_none by (apply lit_no_dot; auto).
    rewrite parse_int64_digits by auto. rewrite app_nil_r.
    replace (if l_neg l then - num (l_int l) else num (l_int l))
      with ((if l_neg l then -1 else 1) * num (l_int l)) by (destruct (l_neg l); lia).
    cbv zeta. destruct (_ && _); cbn [bind negb]; auto.
    destruct (0 <? c_dec c)%nat eqn:D.
    + destruct (big_pow10_cases (c_dec c)) as [[L ->]|[L ->]]; cbn [bind].
      * replace (c_dec c <=? 50)%nat with true by lia. reflexivity.
      * replace (c_dec c <=? 50)%nat with false by lia. reflexivity.
    + replace (c_dec c) with O by lia. replace (0 <=? 50)%nat with true by lia.
      change (10 ^ Z.of_nat 0) with 1. rewrite Z.mul_1_r. reflexivity.
  - rewrite <- EF in *. assert (l_frac l <> []) as Hfn by congruence. clear EF f0 fr.
    change (B "." ++ map digit_char (l_frac l)) with ("."%char :: map digit_char (l_frac l)).
    rewrite app_assoc. rewrite split_on_one by (apply lit_no_dot; auto).
    rewrite split_on_none by (apply (lit_no_dot false); auto).
    rewrite <- app_assoc, <- map_app.
    rewrite parse_int64_digits; [|apply digits_ok_app; auto|destruct (l_int l); [congruence|discriminate]].
    replace (if l_neg l then - num (l_int l ++ l_frac l) else num (l_int l ++ l_frac l))
      with ((if l_neg l then -1 else 1) * num (l_int l ++ l_frac l)) by (destruct (l_neg l); lia).
    cbv zeta. destruct (_ && _); cbn [bind negb]; auto. rewrite map_length.
    destruct (c_dec c =? List.length (l_frac l))%nat eqn:E; cbn [negb]; auto.
    destruct (big_pow10_cases (c_dec c)) as [[L ->]|[L ->]]; cbn [bind].
    + replace (c_dec c <=? 50)%nat with true by lia. cbn [andb].
      destruct (big_pow10_cases (List.length (l_frac l))) as [[L2 ->]|[L2 ->]]; cbn [bind].
      * replace (List.length (l_frac l) <=? 50)%nat with true by lia. reflexivity.
      * replace (List.length (l_frac l) <=? 50)%nat with false by lia. reflexivity.
    + replace (c_dec c <=? 50)%nat with false by lia. reflexivity.
Qed.

Lemma pow10Q_pos n : (0 < pow10Q n)%Q.
Proof. unfold pow10Q, Qlt, inject_Z. cbn. pose proof (pow10_pos n). lia. Qed.
Lemma pow10Q_neq n : ~ (pow10Q n == 0)%Q.
Proof. pose proof (pow10Q_pos n). intros H2. rewrite H2 in H. discriminate. Qed.

(** the rational value is lit_int / 10^|frac| *)
Lemma lit_value_int l : (lit_value l == inject_Z (lit_int l) / pow10Q (List.length (l_frac l)))%Q.
Proof.
  unfold lit_value, lit_int. rewrite num_app. set (n := List.length (l_frac l)).
  assert (inject_Z ((if l_neg l then -1 else 1) * (num (l_int l) * 10 ^ Z.of_nat n + num (l_frac l)))
          == (if l_neg l then -1 # 1 else 1 # 1) * (inject_Z (num (l_int l)) * pow10Q n + inject_Z (num (l_frac l))))%Q as ->.
  { rewrite inject_Z_mult, inject_Z_plus, inject_Z_mult. unfold pow10Q. destruct (l_neg l); reflexivity. }
  field. apply pow10Q_neq.
Qed.

Lemma Qfloor_div a b : 0 < b -> Qfloor (inject_Z a / inject_Z b) = a / b.
Proof. intros H. rewrite <- Zdiv_Qdiv. reflexivity. Qed.
Lemma Qfloor_comp' x y : (x == y)%Q -> Qfloor x = Qfloor y.
Proof. apply Qfloor_comp. Qed.

Lemma lit_floor l d : Qfloor (lit_value l * pow10Q d) = lit_int l * 10 ^ Z.of_nat d / 10 ^ Z.of_nat (List.length (l_frac l)).
Proof.
  rewrite <- Qfloor_div by apply pow10_pos. apply Qfloor_comp. rewrite lit_value_int, inject_Z_mult.
  unfold pow10Q. field. apply pow10Q_neq.
Qed.

Lemma parse_expected_floor l c a : parse_expected l c = Ok a ->
  a = mkAmount (Qfloor (lit_value l * pow10Q (c_dec c))) c.
Proof.
  unfold parse_expected. rewrite lit_floor. destruct (negb _); [discriminate|].
  destruct (l_frac l) as [|f0 fr] eqn:E.
  - destruct (c_dec c <=? 50)%nat; [|discriminate]. intros H; injection H as <-. cbn [List.length].
    change (10 ^ Z.of_nat 0) with 1. rewrite Z.div_1_r. reflexivity.
  - rewrite <- E. destruct (c_dec c =? _)%nat eqn:D.
    + intros H; injection H as <-. apply Nat.eqb_eq in D. rewrite <- D.
      rewrite Z.div_mul by (pose proof (pow10_pos (c_dec c)); lia). reflexivity.
    + destruct (_ && _); [|discriminate]. intros H; injection H as <-. reflexivity.
Qed.

Lemma parse_sound l c a : lit_ok l -> parse_amount (lit_text l) c = Ok a ->
  a_com a = c /\ a_int a = Qfloor (lit_value l * pow10Q (c_dec c)).
Proof. intros H. rewrite parse_amount_lit by auto. intros E. apply parse_expected_floor in E. subst. auto. Qed.

Lemma parse_exact l c a : lit_ok l -> (List.length (l_frac l) <= c_dec c)%nat ->
  parse_amount (lit_text l) c = Ok a -> (minor_value (a_int a) (a_dec a) == lit_value l)%Q.
Proof.
  intros H Hl E. destruct (parse_sound _ _ _ H E) as [C I]. unfold a_dec. rewrite C, I, lit_floor.
  unfold minor_value. rewrite lit_value_int.
  set (n := List.length (l_frac l)) in *.
  replace (c_dec c) with (n + (c_dec c - n))%nat by lia. set (k := (c_dec c - n)%nat).
  rewrite pow10_add. replace (lit_int l * (10 ^ Z.of_nat n * 10 ^ Z.of_nat k)) with (lit_int l * 10 ^ Z.of_nat k * 10 ^ Z.of_nat n) by ring.
  rewrite Z.div_mul by (pose proof (pow10_pos n); lia). rewrite inject_Z_mult. unfold pow10Q. rewrite pow10_add, inject_Z_mult.
  field. split; apply pow10Q_neq.
Qed.

Lemma parse_total l c : lit_ok l ->
  (parse_amount (lit_text l) c = Fail <-> fits64 (lit_int l) = false) /\
  ((c_dec c <= 50)%nat -> (List.length (l_frac l) <= 50)%nat ->
   fits64 (lit_int l) = true -> exists a, parse_amount (lit_text l) c = Ok a).
Proof.
  intros H. rewrite parse_amount_lit by auto. unfold parse_expected. split.
  - destruct (fits64 _); cbn [negb]; split; auto; try discriminate.
    destruct (l_frac l).
    + destruct (_ <=? _)%nat; discriminate.
    + destruct (_ =? _)%nat; [discriminate|]. destruct (_ && _); discriminate.
  - intros D F ->. cbn [negb]. destruct (l_frac l) as [|f0 fr].
    + replace (c_dec c <=? 50)%nat with true by lia. eauto.
    + destruct (_ =? _)%nat; eauto. replace ((c_dec c <=? 50)%nat && _) with true by lia. eauto.
Qed.

(** formatting *)
(** rounded number of units in the last printed place *)
Definition round_units (a b : Z) (prec : nat) : Z :=
  let n := Z.abs a * 10 ^ Z.of_nat prec in n / b + (if b <=? 2 * (n mod b) then 1 else 0).

Lemma map_repeat_zero n : map digit_char (repeat 0 n) = rep "0"%char n.
Proof. unfold rep. induction n; cbn [repeat map]; [reflexivity|]. rewrite IHn. reflexivity. Qed.

Definition padded_digits (p : nat) (r : Z) : list Z := repeat 0 (p - List.length (digits_of r)) ++ digits_of r.
Lemma padded_digits_length p r : 0 <= r < 10 ^ Z.of_nat p -> (0 < p)%nat -> List.length (padded_digits p r) = p.
Proof.
  intros H Hp. unfold padded_digits. rewrite app_length, repeat_length.
  enough (List.length (digits_of r) <= p)%nat by lia.
  destruct (Z.eq_dec r 0) as [->|N]; [rewrite digits_of_0; cbn; lia|].
  pose proof (digits_of_length r ltac:(lia)) as [L _].
  assert (Z.of_nat (List.length (digits_of r)) - 1 < Z.of_nat p) by (apply (Z.pow_lt_mono_r_iff 10); lia). lia.
Qed.
Lemma padded_digits_num p r : 0 <= r -> num (padded_digits p r) = r.
Proof. intros H. unfold padded_digits. rewrite num_app, num_zeros, num_digits_of by auto. lia. Qed.
Lemma padded_digits_ok p r : digits_ok (padded_digits p r).
Proof.
  apply digits_ok_app. split; [|apply digits_of_ok].
  apply Forall_forall. intros x Hx. apply repeat_spec in Hx. lia.
Qed.

Definition fmt_literal (a b : Z) (prec : nat) : literal :=
  let u := round_units a b prec in
  let p := 10 ^ Z.of_nat prec in
  mkLit (a <? 0) (digits_of (u / p)) (match prec with O => [] | _ => padded_digits prec (u mod p) end).

Lemma padded_text p r : (0 < p)%nat ->
  map digit_char (padded_digits p r) = rep "0"%char (p - List.length (print_nat r)) ++ print_nat r.
Proof.
  intros H. unfold padded_digits. rewrite map_app, map_repeat_zero, print_nat_digits, map_length. reflexivity.
Qed.

Lemma padded_nonempty p r : (0 < p)%nat -> padded_digits p r <> [].
Proof. intros _. unfold padded_digits. intros H. apply app_eq_nil in H. destruct H as [_ H]. apply (digits_of_nonempty r H). Qed.
Lemma fmt_text_frac p r : (0 < p)%nat ->
  (match padded_digits p r with [] => [] | f => B "." ++ map digit_char f end)
  = "."%char :: rep "0"%char (p - List.length (print_nat r)) ++ print_nat r.
Proof.
  intros H. pose proof (padded_nonempty p r H). rewrite <- padded_text by auto.
  destruct (padded_digits p r); [congruence|reflexivity].
Qed.

Lemma round_units_split a b prec : 0 < b ->
  let q := Z.abs a / b in let r := Z.abs a mod b in
  let p := 10 ^ Z.of_nat prec in
  let r1 := r * p / b in let r2 := 2 * ((r * p) mod b) in
  round_units a b prec = q * p + (if b <=? r2 then r1 + 1 else r1) /\ 0 <= r1 < p.
Proof.
  intros Hb q r p r1 r2. unfold round_units. fold p. set (n := Z.abs a).
  pose proof (Z.div_mod n b ltac:(lia)) as D. fold q r in D.
  assert (0 <= r < b) as Hr by (unfold r; apply Z.mod_pos_bound; lia).
  assert (n * p = q * p * b + r * p) as E by (subst n; nia).
  assert (n * p / b = q * p + r1) as ->.
  { rewrite E. rewrite Z.div_add_l by lia. reflexivity. }
  assert ((n * p) mod b = (r * p) mod b) as ->.
  { rewrite E, Z.add_comm. apply Z.mod_add. lia. }
  assert (0 < p) by apply pow10_pos.
  split.
  - fold r2. destruct (b <=? r2); lia.
  - split; [apply Z.div_pos; nia|]. apply Z.div_lt_upper_bound; nia.
Qed.

Lemma float_string_lit a b prec : 0 < b -> float_string a b prec = lit_text (fmt_literal a b prec).
Proof.
  intros Hb. unfold fmt_literal, lit_text. cbn [l_neg l_int l_frac].
  destruct (round_units_split a b prec Hb) as [U R]. cbv zeta in U, R.
  pose proof (pow10_pos prec) as Pp.
  unfold float_string. destruct (a mod b =? 0) eqn:M.
  - (* whole number *)
    assert (a mod b = 0) as M0 by lia.
    assert (Z.abs a mod b = 0) as MA.
    { destruct (Z.abs_eq_or_opp a) as [->| ->]; auto. apply Z_mod_zero_opp_full. auto. }
    assert (round_units a b prec = Z.abs a / b * 10 ^ Z.of_nat prec) as U'.
    { rewrite U, MA, Z.mul_0_l, Z.div_0_l, Z.mod_0_l by lia.
      destruct (b <=? 2 * 0) eqn:E0; lia. }
    rewrite U'.
    rewrite Z.div_mul, Z.mod_mul by lia.
    assert (print_int (a / b) = (if a <? 0 then B "-" else []) ++ map digit_char (digits_of (Z.abs a / b))) as ->.
    { unfold print_int. rewrite !print_nat_digits.
      destruct (a <? 0) eqn:S.
      - assert (a / b < 0) as AB by (apply Z.div_lt_upper_bound; lia).
        replace (a / b <? 0) with true by lia.
        rewrite Z.abs_neq by lia. rewrite Z.div_opp_l_z by lia. reflexivity.
      - assert (0 <= a / b) by (apply Z.div_pos; lia).
        replace (a / b <? 0) with false by lia. rewrite Z.abs_eq by lia. reflexivity. }
    rewrite <- app_assoc. f_equal. f_equal.
    destruct prec as [|k]; [reflexivity|]. cbn [Nat.ltb Nat.leb].
    rewrite fmt_text_frac by lia. f_equal.
    change (print_nat 0) with ["0"%char]. cbn [List.length].
    replace (S k - 1)%nat with k by lia. unfold rep.
    change ["0"%char] with (repeat "0"%char 1). rewrite <- repeat_app. f_equal. lia.
  - set (q := Z.abs a / b) in *. set (r := Z.abs a mod b) in *. set (p := 10 ^ Z.of_nat prec) in *.
    set (r1 := r * p / b) in *. set (r2 := 2 * ((r * p) mod b)) in *. cbv zeta.
    assert (0 <= q) by (apply Z.div_pos; lia).
    assert (let '(q', r1') := (if b <=? r2 then if p <=? r1 + 1 then (q + 1, r1 + 1 - p) else (q, r1 + 1) else (q, r1)) in
            round_units a b prec / p = q' /\ round_units a b prec mod p = r1') as G.
    { rewrite U. destruct (b <=? r2).
      - destruct (p <=? r1 + 1) eqn:C.
        + replace (q * p + (r1 + 1)) with ((r1 + 1 - p) + (q + 1) * p) by ring.
          rewrite Z.div_add, Z.mod_add by lia. rewrite Z.div_small, Z.mod_small by lia. lia.
        + replace (q * p + (r1 + 1)) with ((r1 + 1) + q * p) by ring.
          rewrite Z.div_add, Z.mod_add by lia. rewrite Z.div_small, Z.mod_small by lia. lia.
      - rewrite Z.add_comm, Z.div_add, Z.mod_add by lia. rewrite Z.div_small, Z.mod_small by lia. lia. }
    destruct (if b <=? r2 then if p <=? r1 + 1 then (q + 1, r1 + 1 - p) else (q, r1 + 1) else (q, r1)) as [q' r1'].
    destruct G as [G1 G2]. rewrite G1, G2. rewrite print_nat_digits.
    f_equal. f_equal. destruct prec as [|k]; [reflexivity|]. cbn [Nat.ltb Nat.leb].
    symmetry. apply fmt_text_frac. lia.
Qed.

Lemma fmt_literal_ok a b prec : 0 < b -> lit_ok (fmt_literal a b prec).
Proof.
  intros Hb. unfold fmt_literal. split; [|split]; cbn [l_int l_frac].
  - apply digits_of_ok.
  - destruct prec; [constructor|apply padded_digits_ok].
  - apply digits_of_nonempty.
Qed.
Lemma round_units_nonneg a b prec : 0 < b -> 0 <= round_units a b prec.
Proof.
  intros H. unfold round_units. pose proof (pow10_pos prec). cbv zeta.
  assert (0 <= Z.abs a * 10 ^ Z.of_nat prec / b) by (apply Z.div_pos; nia).
  destruct (b <=? _); lia.
Qed.
Lemma fmt_literal_frac_length a b prec : 0 < b -> List.length (l_frac (fmt_literal a b prec)) = prec.
Proof.
  intros Hb. unfold fmt_literal. cbn [l_frac]. destruct prec as [|k]; [reflexivity|].
  apply padded_digits_length; [|lia]. apply Z.mod_pos_bound, pow10_pos.
Qed.
Lemma fmt_literal_int a b prec : 0 < b ->
  lit_int (fmt_literal a b prec) = (if a <? 0 then -1 else 1) * round_units a b prec.
Proof.
  intros Hb. unfold lit_int. rewrite num_app, fmt_literal_frac_length by auto.
  unfold fmt_literal. cbn [l_neg l_int l_frac]. f_equal.
  pose proof (round_units_nonneg a b prec Hb) as N. pose proof (pow10_pos prec) as P.
  rewrite num_digits_of by (apply Z.div_pos; lia).
  destruct prec as [|k].
  - change (10 ^ Z.of_nat 0) with 1. rewrite Z.div_1_r. cbn [num]. lia.
  - rewrite padded_digits_num by (apply Z.mod_pos_bound; auto).
    pose proof (Z.div_mod (round_units a b (S k)) (10 ^ Z.of_nat (S k)) ltac:(lia)). lia.
Qed.
Lemma round_units_own a d : round_units a (10 ^ Z.of_nat d) d = Z.abs a.
Proof.
  unfold round_units. cbv zeta. pose proof (pow10_pos d).
  rewrite Z.div_mul, Z.mod_mul by lia. replace (10 ^ Z.of_nat d <=? 2 * 0) with false by lia. lia.
Qed.

Lemma format_ok a prec : (a_dec a <= 50)%nat ->
  format_amount a prec = Ok (lit_text (fmt_literal (a_int a) (10 ^ Z.of_nat (a_dec a)) prec)).
Proof.
  intros H. unfold format_amount. rewrite big_pow10_ok by auto. cbn [bind].
  rewrite float_string_lit by apply pow10_pos. reflexivity.
Qed.

Lemma format_parse a : (a_dec a <= 50)%nat ->
  exists s, format_amount a (a_dec a) = Ok s /\
    parse_amount s (a_com a) = if fits64 (a_int a) then Ok a else Fail.
Proof.
  intros H. eexists; split; [apply format_ok; auto|].
  rewrite parse_amount_lit by (apply fmt_literal_ok, pow10_pos).
  unfold parse_expected. rewrite fmt_literal_int, round_units_own by apply pow10_pos.
  replace ((if a_int a <? 0 then -1 else 1) * Z.abs (a_int a)) with (a_int a) by (destruct (a_int a <? 0) eqn:?; lia).
  destruct (fits64 (a_int a)); cbn [negb]; auto.
  pose proof (fmt_literal_frac_length (a_int a) (10 ^ Z.of_nat (a_dec a)) (a_dec a) (pow10_pos _)) as L.
  fold (a_dec a). destruct (l_frac _) as [|f0 fr].
  - cbn [List.length] in L. rewrite <- L. replace (0 <=? 50)%nat with true by lia.
    change (10 ^ Z.of_nat 0) with 1. rewrite Z.mul_1_r. destruct a; reflexivity.
  - rewrite <- L. rewrite Nat.eqb_refl. destruct a; reflexivity.
Qed.

(** rounding statement *)
Lemma round_units_spec a b prec : 0 < b ->
  let n := Z.abs a * 10 ^ Z.of_nat prec in let u := round_units a b prec in
  2 * Z.abs (n - u * b) <= b /\ (2 * Z.abs (n - u * b) = b -> n < u * b).
Proof.
  intros Hb. unfold round_units. cbv zeta. set (n := Z.abs a * 10 ^ Z.of_nat prec).
  pose proof (Z.div_mod n b ltac:(lia)). pose proof (Z.mod_pos_bound n b Hb).
  destruct (b <=? 2 * (n mod b)) eqn:E; split; try intros; nia.
Qed.

Lemma Qabs_div_pos x (d : Q) : (0 < d)%Q -> (Qabs (inject_Z x / d) == inject_Z (Z.abs x) / d)%Q.
Proof.
  intros P. unfold Qdiv. rewrite Qabs_Qmult.
  rewrite (Qabs_pos (/ _)) by (apply Qlt_le_weak, Qinv_lt_0_compat, P). reflexivity.
Qed.
Lemma sgn_abs a : a = (if a <? 0 then -1 else 1) * Z.abs a.
Proof. destruct (a <? 0) eqn:E; lia. Qed.

Lemma fmt_literal_value a b prec : 0 < b ->
  (lit_value (fmt_literal a b prec) == inject_Z ((if (a <? 0)%Z then -1 else 1) * round_units a b prec) / pow10Q prec)%Q.
Proof.
  intros Hb. rewrite lit_value_int, fmt_literal_int, fmt_literal_frac_length by auto. reflexivity.
Qed.

Lemma fmt_round a b prec : 0 < b ->
  (Qabs (lit_value (fmt_literal a b prec) - inject_Z a / inject_Z b) <= (1 # 2) / pow10Q prec)%Q /\
  ((Qabs (lit_value (fmt_literal a b prec) - inject_Z a / inject_Z b) == (1 # 2) / pow10Q prec)%Q ->
   (Qabs (inject_Z a / inject_Z b) < Qabs (lit_value (fmt_literal a b prec)))%Q).
Proof.
  intros Hb. destruct (round_units_spec a b prec Hb) as [R1 R2]. cbv zeta in R1, R2.
  rewrite fmt_literal_value by auto. set (u := round_units a b prec) in *.
  set (sg := if a <? 0 then -1 else 1).
  assert (0 < inject_Z b)%Q as Bp by (unfold Qlt, inject_Z; cbn; lia).
  assert (~ inject_Z b == 0)%Q as Bn by (intros E; rewrite E in Bp; discriminate).
  pose proof (pow10Q_pos prec) as Pp. pose proof (pow10Q_neq prec) as Pn.
  assert (0 < inject_Z b * pow10Q prec)%Q as BPp by (rewrite <- (Qmult_0_l (pow10Q prec)); apply Qmult_lt_compat_r; auto).
  assert (inject_Z (sg * u) / pow10Q prec - inject_Z a / inject_Z b
          == inject_Z (sg * (u * b - Z.abs a * 10 ^ Z.of_nat prec)) / (inject_Z b * pow10Q prec))%Q as D.
  { rewrite (sgn_abs a) at 1. fold sg. unfold Zminus. rewrite !inject_Z_mult, inject_Z_plus, inject_Z_opp, !inject_Z_mult.
    fold (pow10Q prec). field. auto. }
  assert (Qabs (inject_Z (sg * u) / pow10Q prec - inject_Z a / inject_Z b)
          == inject_Z (Z.abs (Z.abs a * 10 ^ Z.of_nat prec - u * b)) / (inject_Z b * pow10Q prec))%Q as DA.
  { rewrite D, Qabs_div_pos by auto. apply Qmult_comp; [|reflexivity].
    replace (Z.abs (sg * (u * b - Z.abs a * 10 ^ Z.of_nat prec))) with (Z.abs (Z.abs a * 10 ^ Z.of_nat prec - u * b)); [reflexivity|].
    subst sg. destruct (a <? 0); lia. }
  rewrite DA. set (m := Z.abs (Z.abs a * 10 ^ Z.of_nat prec - u * b)) in *.
  assert ((1 # 2) / pow10Q prec == ((1 # 2) * inject_Z b) / (inject_Z b * pow10Q prec))%Q as H2 by (field; auto).
  rewrite H2. split.
  - unfold Qdiv. apply Qmult_le_compat_r; [|apply Qlt_le_weak, Qinv_lt_0_compat; auto].
    unfold Qle, inject_Z, Qmult; cbn [Qnum Qden]; lia.
  - intros E.
    assert (inject_Z m == (1 # 2) * inject_Z b)%Q as E2.
    { apply (Qmult_inj_r _ _ (/ (inject_Z b * pow10Q prec))); [|exact E].
      intros Z0. pose proof (Qinv_lt_0_compat _ BPp) as X. rewrite Z0 in X. discriminate. }
    assert (2 * m = b) as E3 by (unfold Qeq, inject_Z, Qmult in E2; cbn [Qnum Qden] in E2; lia).
    specialize (R2 E3).
    rewrite !Qabs_div_pos by auto.
    assert (inject_Z (Z.abs a) / inject_Z b == inject_Z (Z.abs a * 10 ^ Z.of_nat prec) / (inject_Z b * pow10Q prec))%Q as ->.
    { rewrite inject_Z_mult. fold (pow10Q prec). field; auto. }
    assert (inject_Z (Z.abs (sg * u)) / pow10Q prec == inject_Z (u * b) / (inject_Z b * pow10Q prec))%Q as ->.
    { replace (Z.abs (sg * u)) with u by (pose proof (round_units_nonneg a b prec Hb); subst sg; destruct (a <? 0); lia).
      rewrite inject_Z_mult. field; auto. }
    unfold Qdiv. apply Qmult_lt_compat_r; [apply Qinv_lt_0_compat; auto|].
    unfold Qlt, inject_Z; cbn [Qnum Qden]; lia.
Qed.

Lemma digits_of_normal n : 0 <= n -> digits_of n = [0] \/ exists d r, digits_of n = d :: r /\ 0 < d.
Proof.
  intros H. destruct (Z.eq_dec n 0) as [->|N]; [left; reflexivity|right]. apply digits_of_head. lia.
Qed.
Lemma fmt_literal_normal a b prec : 0 < b ->
  l_int (fmt_literal a b prec) = [0] \/ exists d r, l_int (fmt_literal a b prec) = d :: r /\ 0 < d.
Proof.
  intros Hb. apply digits_of_normal. apply Z.div_pos; [apply round_units_nonneg; auto|apply pow10_pos].
Qed.

(** width *)
Lemma width_ok a d : (a_dec a <= 50)%nat -> (a_dec a <= d)%nat -> Z.abs (a_int a) < 10 ^ 50 ->
  exists s, format_amount a d = Ok s /\ width a d = Ok (List.length s).
Proof.
  intros HD Hd Hb. eexists; split; [apply format_ok; auto|].
  set (D := a_dec a) in *. set (b := 10 ^ Z.of_nat D).
  assert (0 < b) as Hb0 by apply pow10_pos.
  unfold lit_text. rewrite !app_length, map_length.
  assert (l_neg (fmt_literal (a_int a) b d) = (a_int a <? 0)) as -> by reflexivity.
  assert (round_units (a_int a) b d = Z.abs (a_int a) * 10 ^ Z.of_nat (d - D)) as U.
  { unfold round_units. cbv zeta. replace d with (D + (d - D))%nat at 1 2 by lia. rewrite pow10_add. fold b.
    replace (Z.abs (a_int a) * (b * 10 ^ Z.of_nat (d - D))) with (Z.abs (a_int a) * 10 ^ Z.of_nat (d - D) * b) by ring.
    rewrite Z.div_mul, Z.mod_mul by lia. replace (b <=? 2 * 0) with false by lia. lia. }
  assert (l_int (fmt_literal (a_int a) b d) = digits_of (Z.abs (a_int a) / b)) as ->.
  { cbn [fmt_literal l_int]. f_equal. rewrite U. replace d with (D + (d - D))%nat at 2 by lia. rewrite pow10_add.
    fold b. pose proof (pow10_pos (d - D)). rewrite Z.mul_comm, (Z.mul_comm b), Z.div_mul_cancel_l by lia. reflexivity. }
  assert (List.length (match l_frac (fmt_literal (a_int a) b d) with [] => [] | f => B "." ++ map digit_char f end)
          = if (0 <? d)%nat then (d + 1)%nat else O) as ->.
  { pose proof (fmt_literal_frac_length (a_int a) b d Hb0) as L.
    destruct (l_frac (fmt_literal (a_int a) b d)) as [|f0 fr]; cbn [List.length] in L.
    - subst d. reflexivity.
    - rewrite app_length, map_length. cbn [List.length]. rewrite L. replace (0 <? d)%nat with true by lia.
      change (List.length (B ".")) with 1%nat. lia. }
  unfold width. destruct (big_log10_ok _ Hb) as (k & -> & Hk & KU & KL). cbn [bind]. f_equal.
  fold D.
  assert (List.length (digits_of (Z.abs (a_int a) / b)) =
          ((if (k + 1 <=? D)%nat then D + 1 else k + 1) - D)%nat) as ->.
  { destruct (k + 1 <=? D)%nat eqn:E.
    - replace (Z.abs (a_int a) / b) with 0. { rewrite digits_of_0. cbn. lia. }
      symmetry. apply Z.div_small. split; [lia|]. unfold b.
      assert (10 ^ Z.of_nat (S k) <= 10 ^ Z.of_nat D) by (apply Z.pow_le_mono_r; lia). lia.
    - destruct (Nat.eq_dec k 0) as [->|Nk].
      + assert (D = O) by lia. unfold b. rewrite H. change (10 ^ Z.of_nat 0) with 1. rewrite Z.div_1_r.
        destruct (Z.eq_dec (Z.abs (a_int a)) 0) as [->|NZ]; [reflexivity|].
        rewrite (digits_of_length_unique _ 0); [reflexivity|lia|]. change (10 ^ Z.of_nat 0) with 1. lia.
      + specialize (KL Nk).
        assert (10 ^ Z.of_nat (k - D) <= Z.abs (a_int a) / b < 10 ^ Z.of_nat (S (k - D))) as Q.
        { unfold b. split.
          - apply Z.div_le_lower_bound; [lia|]. rewrite <- pow10_add. replace (D + (k - D))%nat with k by lia. auto.
          - apply Z.div_lt_upper_bound; [lia|]. rewrite <- pow10_add. replace (D + S (k - D))%nat with (S k) by lia. auto. }
        rewrite (digits_of_length_unique _ (k - D)); [lia| |auto].
        pose proof (pow10_pos (k - D)). lia. }
  change (List.length (B "-")) with 1%nat.
  destruct (k + 1 <=? D)%nat eqn:E1; destruct (0 <? d)%nat eqn:E2; destruct (a_int a <? 0) eqn:E3;
    cbn [List.length]; try change (List.length (B "-")) with 1%nat; lia.
Qed.
Lemma width_panic a d : 10 ^ 50 <= Z.abs (a_int a) -> width a d = Panic.
Proof. intros H. unfold width. rewrite big_log10_panic by auto. reflexivity. Qed.

(** arithmetic *)
Lemma adjusted_same b a : a_dec a = a_dec b -> adjusted_to b a = Ok (a_int b).
Proof. intros H. unfold adjusted_to. rewrite H, Nat.ltb_irrefl. reflexivity. Qed.
Lemma eq_commodity_refl c : eq_commodity c c = true.
Proof. unfold eq_commodity. rewrite !Nat.eqb_refl. rewrite (proj2 (eqb_bytes_eq _ _)); reflexivity. Qed.
Lemma eq_commodity_eq a b : eq_commodity a b = true <-> a = b.
Proof.
  split; [|intros ->; apply eq_commodity_refl]. unfold eq_commodity.
  rewrite !andb_true_iff, !Nat.eqb_eq, eqb_bytes_eq. destruct a, b; cbn. intros [[-> ->] ->]. reflexivity.
Qed.
Lemma eq_commodity_neq a b : eq_commodity a b = false <-> a <> b.
Proof. rewrite <- (eq_commodity_eq a b). destruct (eq_commodity a b); split; congruence. Qed.
Lemma commodity_dec (a b : commodity) : {a = b} + {a <> b}.
Proof. destruct (eq_commodity a b) eqn:E; [left; apply eq_commodity_eq; auto|right; apply eq_commodity_neq; auto]. Qed.
Lemma add_in_same conv a b : a_com b = a_com a -> add_in conv a b = Ok (mkAmount (a_int a + a_int b) (a_com a)).
Proof.
  intros H. unfold add_in. rewrite H, eq_commodity_refl. cbn [bind].
  rewrite adjusted_same by (unfold a_dec; congruence). reflexivity.
Qed.

Lemma add_all_same conv l : forall a, Forall (fun b => a_com b = a_com a) l ->
  add_all conv a l = Ok (mkAmount (a_int a + zsum (map a_int l)) (a_com a)).
Proof.
  induction l as [|b r IH]; intros a H; cbn [add_all map zsum fold_right].
  - rewrite Z.add_0_r. destruct a; reflexivity.
  - inversion H; subst. rewrite add_in_same by auto. cbn [bind]. rewrite IH by (cbn; auto). cbn [a_int a_com].
    f_equal. f_equal. unfold zsum. lia.
Qed.
Lemma zsum_perm l l' : Permutation l l' -> zsum l = zsum l'.
Proof. unfold zsum. induction 1; cbn; lia. Qed.
Lemma zsum_app a b : zsum (a ++ b) = zsum a + zsum b.
Proof. unfold zsum. induction a; cbn in *; lia. Qed.

Lemma times_ok a b : (a_dec b <= 50)%nat ->
  times a b = Ok (mkAmount (Z.quot (a_int a * a_int b) (10 ^ Z.of_nat (a_dec b))) (a_com a)).
Proof. intros H. unfold times. rewrite big_pow10_ok by auto. reflexivity. Qed.

Lemma quot_abs_bound x p : 0 < p ->
  Z.abs (Z.quot x p) * p <= Z.abs x < (Z.abs (Z.quot x p) + 1) * p /\ (0 <= x * Z.quot x p).
Proof.
  intros H. pose proof (Z.quot_rem x p ltac:(lia)) as E.
  destruct (Z.le_gt_cases 0 x).
  - pose proof (Z.rem_bound_pos x p ltac:(lia) ltac:(lia)). pose proof (Z.quot_pos x p ltac:(lia) ltac:(lia)). nia.
  - pose proof (Z.quot_opp_l x p ltac:(lia)). pose proof (Z.rem_opp_l x p ltac:(lia)).
    pose proof (Z.rem_bound_pos (- x) p ltac:(lia) ltac:(lia)). pose proof (Z.quot_pos (- x) p ltac:(lia) ltac:(lia)). nia.
Qed.

Lemma times_value a b r : times a b = Ok r ->
  a_com r = a_com a /\
  (Qabs (minor_value (a_int r) (a_dec r)) <= Qabs (minor_value (a_int a) (a_dec a) * minor_value (a_int b) (a_dec b)))%Q /\
  (Qabs (minor_value (a_int a) (a_dec a) * minor_value (a_int b) (a_dec b)) - Qabs (minor_value (a_int r) (a_dec r)) < 1 / pow10Q (a_dec a))%Q /\
  (0 <= minor_value (a_int r) (a_dec r) * (minor_value (a_int a) (a_dec a) * minor_value (a_int b) (a_dec b)))%Q.
Proof.
  intros H. assert (a_dec b <= 50)%nat as L.
  { destruct (big_pow10_cases (a_dec b)) as [[? _]|[_ E]]; auto. unfold times in H. rewrite E in H. discriminate. }
  rewrite times_ok in H by auto. injection H as <-.
  split; [reflexivity|].
  change (a_dec (mkAmount (a_int a * a_int b ÷ 10 ^ Z.of_nat (a_dec b)) (a_com a))) with (a_dec a).
  change (a_int (mkAmount (a_int a * a_int b ÷ 10 ^ Z.of_nat (a_dec b)) (a_com a))) with (a_int a * a_int b ÷ 10 ^ Z.of_nat (a_dec b)).
  destruct (quot_abs_bound (a_int a * a_int b) (10 ^ Z.of_nat (a_dec b)) (pow10_pos _)) as [[Q1 Q2] Q3].
  set (x := a_int a * a_int b) in *. set (q := Z.quot x (10 ^ Z.of_nat (a_dec b))) in *.
  pose proof (pow10Q_pos (a_dec a)) as Pa. pose proof (pow10Q_pos (a_dec b)) as Pb.
  pose proof (pow10Q_neq (a_dec a)) as Na. pose proof (pow10Q_neq (a_dec b)) as Nb.
  assert (minor_value (a_int a) (a_dec a) * minor_value (a_int b) (a_dec b) == inject_Z x / (pow10Q (a_dec a) * pow10Q (a_dec b)))%Q as E1.
  { unfold minor_value, x. rewrite inject_Z_mult. field; auto. }
  assert (minor_value q (a_dec a) == inject_Z (q * 10 ^ Z.of_nat (a_dec b)) / (pow10Q (a_dec a) * pow10Q (a_dec b)))%Q as E2.
  { unfold minor_value. rewrite inject_Z_mult. fold (pow10Q (a_dec b)). field; auto. }
  assert (0 < pow10Q (a_dec a) * pow10Q (a_dec b))%Q as PP
    by (rewrite <- (Qmult_0_l (pow10Q (a_dec b))); apply Qmult_lt_compat_r; auto).
  assert (~ pow10Q (a_dec a) * pow10Q (a_dec b) == 0)%Q as PN by (intros E; rewrite E in PP; discriminate).
  pose proof (Qinv_lt_0_compat _ PP) as PI.
  rewrite E1, E2. rewrite !Qabs_div_pos by auto. rewrite Z.abs_mul, (Z.abs_eq (10 ^ _)) by (pose proof (pow10_pos (a_dec b)); lia).
  split; [|split].
  - unfold Qdiv. apply Qmult_le_compat_r; [|apply Qlt_le_weak; auto]. rewrite <- Zle_Qle. lia.
  - assert (1 / pow10Q (a_dec a) == inject_Z (10 ^ Z.of_nat (a_dec b)) / (pow10Q (a_dec a) * pow10Q (a_dec b)))%Q as ->.
    { fold (pow10Q (a_dec b)). field; auto. }
    unfold Qdiv.
    assert (inject_Z (Z.abs x) * / (pow10Q (a_dec a) * pow10Q (a_dec b)) - inject_Z (Z.abs q * 10 ^ Z.of_nat (a_dec b)) * / (pow10Q (a_dec a) * pow10Q (a_dec b))
            == inject_Z (Z.abs x - Z.abs q * 10 ^ Z.of_nat (a_dec b)) * / (pow10Q (a_dec a) * pow10Q (a_dec b)))%Q as ->.
    { unfold Zminus. rewrite inject_Z_plus, inject_Z_opp. ring. }
    apply Qmult_lt_compat_r; auto. rewrite <- Zlt_Qlt. lia.
  - assert (inject_Z (q * 10 ^ Z.of_nat (a_dec b)) / (pow10Q (a_dec a) * pow10Q (a_dec b)) * (inject_Z x / (pow10Q (a_dec a) * pow10Q (a_dec b)))
            == inject_Z (q * 10 ^ Z.of_nat (a_dec b) * x) * (/ (pow10Q (a_dec a) * pow10Q (a_dec b)) * / (pow10Q (a_dec a) * pow10Q (a_dec b))))%Q as ->.
    { rewrite (inject_Z_mult _ x). field; auto. }
    apply Qmult_le_0_compat; [|apply Qmult_le_0_compat; apply Qlt_le_weak; auto].
    change 0%Q with (inject_Z 0). rewrite <- Zle_Qle. pose proof (pow10_pos (a_dec b)). nia.
Qed.

Lemma times_negated a b : times (negated a) b = (do r <- times a b; Ok (negated r)) /\
                          times a (negated b) = (do r <- times a b; Ok (negated r)).
Proof.
  unfold times, a_dec, negated. cbn [a_com a_int].
  destruct (big_pow10_cases (c_dec (a_com b))) as [[L ->]|[L ->]]; cbn [bind]; auto.
  pose proof (pow10_pos (c_dec (a_com b))).
  rewrite Z.mul_opp_l, Z.mul_opp_r, Z.quot_opp_l by lia. auto.
Qed.

(** comparison *)
Lemma value_compare x y d : (minor_value x d ?= minor_value y d)%Q = (x ?= y).
Proof.
  pose proof (pow10Q_pos d) as P. pose proof (pow10Q_neq d) as N.
  destruct (Z.compare_spec x y) as [->|H|H].
  - apply Qeq_alt. reflexivity.
  - apply Qlt_alt. unfold minor_value, Qdiv. apply Qmult_lt_compat_r; [apply Qinv_lt_0_compat; auto|]. rewrite <- Zlt_Qlt. auto.
  - apply Qgt_alt. unfold minor_value, Qdiv. apply Qmult_lt_compat_r; [apply Qinv_lt_0_compat; auto|]. rewrite <- Zlt_Qlt. auto.
Qed.
Lemma value_scale x d k : (minor_value (x * 10 ^ Z.of_nat k) (d + k) == minor_value x d)%Q.
Proof.
  unfold minor_value. rewrite inject_Z_mult. unfold pow10Q. rewrite pow10_add, inject_Z_mult.
  field. split; apply pow10Q_neq.
Qed.
(** finer or equal receiver: comparison is the comparison of values *)
Lemma cmp_value a b : (a_dec b <= a_dec a)%nat -> (a_dec a <= 50)%nat ->
  cmp a b = Ok (minor_value (a_int a) (a_dec a) ?= minor_value (a_int b) (a_dec b))%Q.
Proof.
  intros H L. unfold cmp, adjusted_to. destruct (a_dec b <? a_dec a)%nat eqn:E.
  - rewrite big_pow10_ok by lia. cbn [bind]. f_equal.
    rewrite <- (value_scale (a_int b) (a_dec b) (a_dec a - a_dec b)).
    replace (a_dec b + (a_dec a - a_dec b))%nat with (a_dec a) by lia. rewrite value_compare. reflexivity.
  - assert (a_dec a = a_dec b) as Eq by lia. rewrite Eq, Nat.ltb_irrefl. cbn [bind]. rewrite value_compare. reflexivity.
Qed.
Lemma cmp_same_dec a b : a_dec a = a_dec b ->
  cmp a b = Ok (minor_value (a_int a) (a_dec a) ?= minor_value (a_int b) (a_dec b))%Q.
Proof. intros H. unfold cmp. rewrite adjusted_same by auto. cbn [bind]. rewrite H, value_compare. reflexivity. Qed.

Lemma parse_sign_gap (ip fp : list Z) c a b : lit_ok (mkLit false ip fp) ->
  parse_amount (lit_text (mkLit false ip fp)) c = Ok a ->
  parse_amount (lit_text (mkLit true ip fp)) c = Ok b ->
  (a_int b = - a_int a \/ a_int b = - a_int a - 1) /\
  (a_int b = - a_int a <-> (minor_value (a_int a) (c_dec c) == lit_value (mkLit false ip fp))%Q).
Proof.
  intros H Ha Hb.
  destruct (parse_sound _ _ _ H Ha) as [_ Ia].
  destruct (parse_sound (mkLit true ip fp) _ _ H Hb) as [_ Ib].
  rewrite lit_floor in Ia, Ib. unfold lit_int in Ia, Ib. cbn [l_neg l_int l_frac] in *.
  pose proof (pow10_pos (List.length fp)) as P. set (n := num (ip ++ fp)) in *.
  set (q := 10 ^ Z.of_nat (List.length fp)) in *. set (p := 10 ^ Z.of_nat (c_dec c)) in *.
  rewrite Z.mul_1_l in Ia. replace (-1 * n * p) with (- (n * p)) in Ib by ring.
  assert (a_int b = - a_int a <-> (n * p) mod q = 0) as G.
  { rewrite Ia, Ib. split; intros; nia. }
  split; [|rewrite G].
  - rewrite Ia, Ib. nia.
  - rewrite lit_value_int. unfold lit_int. cbn [l_neg l_int l_frac]. fold n.
    unfold minor_value, Qdiv. rewrite Z.mul_1_l.
    assert ((inject_Z (a_int a) * / pow10Q (c_dec c) == inject_Z n * / pow10Q (List.length fp))%Q
            <-> a_int a * q = n * p) as ->.
    { pose proof (pow10Q_neq (c_dec c)) as N1. pose proof (pow10Q_neq (List.length fp)) as N2.
      split; intros E.
      - apply inject_Z_injective. rewrite !inject_Z_mult. unfold q, p. fold (pow10Q (List.length fp)) (pow10Q (c_dec c)).
        assert (inject_Z (a_int a) == inject_Z (a_int a) * / pow10Q (c_dec c) * pow10Q (c_dec c))%Q as -> by (field; auto).
        rewrite E. field; auto.
      - assert (inject_Z (a_int a) * pow10Q (List.length fp) == inject_Z n * pow10Q (c_dec c))%Q as E2.
        { unfold pow10Q. fold q p. rewrite <- !inject_Z_mult, E. reflexivity. }
        assert (inject_Z (a_int a) == inject_Z n * pow10Q (c_dec c) * / pow10Q (List.length fp))%Q as ->.
        { rewrite <- E2. field; auto. }
        field; auto. }
    rewrite Ia. nia.
Qed.
Lemma log10_of_pow k : 0 <= k <= 18 -> log10 (10 ^ k) = k.
Proof.
  intros H. destruct (Z.eq_dec k 0) as [->|N]; [reflexivity|].
  assert (10 ^ 1 <= 10 ^ k) by (apply Z.pow_le_mono_r; lia).
  assert (10 ^ k <= 10 ^ 18) by (apply Z.pow_le_mono_r; lia).
  assert (10 ^ k < 10 ^ (k + 1)) by (apply Z.pow_lt_mono_r; lia).
  apply log10_small; unfold int64_max; lia.
Qed.
Lemma pow10_fn_panic i : 18 < i -> pow10 i = Panic.
Proof.
  intros H. unfold pow10. replace (i <? 1) with false by lia. unfold log10s. rewrite nth_pow_table.
  replace (Z.to_nat (i - 1) <? 18)%nat with false by lia. reflexivity.
Qed.
