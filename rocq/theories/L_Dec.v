(** Lemmas: digits, decimal printing and reading, powers, searches. *)
From Verif Require Import Base S_Decimal.

Lemma code_range c : 0 <= code c < 256.
Proof. unfold code. pose proof (N_ascii_bounded c). lia. Qed.
Lemma code_chr z : 0 <= z < 256 -> code (chr z) = z.
Proof. intros H. unfold code, chr. rewrite N_ascii_embedding; lia. Qed.
Lemma chr_code c : chr (code c) = c.
Proof. unfold code, chr. rewrite N2Z.id. apply ascii_N_embedding. Qed.
Lemma code_inj a b : code a = code b -> a = b.
Proof. intros H. rewrite <- (chr_code a), <- (chr_code b), H. reflexivity. Qed.
Lemma eqc_eq a b : eqc a b = true <-> a = b.
Proof. apply Ascii.eqb_eq. Qed.
Lemma eqc_refl a : eqc a a = true.
Proof. apply Ascii.eqb_refl. Qed.
Lemma eqc_code a b : eqc a b = (code a =? code b).
Proof.
  destruct (eqc a b) eqn:E.
  - apply eqc_eq in E. subst. symmetry. apply Z.eqb_refl.
  - symmetry. apply Z.eqb_neq. intros H. apply code_inj in H. subst. rewrite eqc_refl in E. discriminate.
Qed.
Lemma eqb_bytes_eq a b : eqb_bytes a b = true <-> a = b.
Proof.
  revert b; induction a as [|x a IH]; destruct b as [|y b]; simpl; try (split; congruence).
  rewrite andb_true_iff, eqc_eq, IH. split; [intros [-> ->]; reflexivity | intros H; injection H; auto].
Qed.

Lemma digit_char_code d : 0 <= d <= 9 -> digit_char d = chr (48 + d).
Proof.
  intros H. assert (d=0\/d=1\/d=2\/d=3\/d=4\/d=5\/d=6\/d=7\/d=8\/d=9) as D by lia.
  repeat (destruct D as [-> | D]; [reflexivity|]). subst; reflexivity.
Qed.
Lemma digit_char_is_digit d : 0 <= d <= 9 -> is_digit (digit_char d) = true.
Proof. intros H. rewrite digit_char_code by lia. unfold is_digit. rewrite code_chr; lia. Qed.
Lemma digit_char_val d : 0 <= d <= 9 -> digit_val (digit_char d) = d.
Proof. intros H. rewrite digit_char_code by lia. unfold digit_val. rewrite code_chr; lia. Qed.
Lemma is_digit_val c : is_digit c = true -> 0 <= digit_val c <= 9.
Proof. unfold is_digit, digit_val. lia. Qed.
Lemma is_digit_char c : is_digit c = true -> digit_char (digit_val c) = c.
Proof.
  intros H. rewrite digit_char_code by (apply is_digit_val; auto). unfold digit_val.
  replace (48 + (code c - 48)) with (code c) by lia. apply chr_code.
Qed.

Lemma pow10_pos n : 0 < 10 ^ Z.of_nat n.
Proof. apply Z.pow_pos_nonneg; lia. Qed.
Lemma pow10_S n : 10 ^ Z.of_nat (S n) = 10 * 10 ^ Z.of_nat n.
Proof. rewrite Nat2Z.inj_succ, Z.pow_succ_r; lia. Qed.
Lemma pow10_add m n : 10 ^ Z.of_nat (m + n) = 10 ^ Z.of_nat m * 10 ^ Z.of_nat n.
Proof. rewrite Nat2Z.inj_add, Z.pow_add_r; lia. Qed.

(** digits_val against positional value *)
Lemma digits_val_acc_num ds acc :
  digits_ok ds ->
  digits_val_acc acc (map digit_char ds) = acc * 10 ^ Z.of_nat (List.length ds) + num ds.
Proof.
  intros H; revert acc; induction H as [|d r Hd Hr IH]; intros acc; cbn [map digits_val_acc num List.length].
  - simpl. lia.
  - rewrite IH, digit_char_val by lia. rewrite pow10_S. lia.
Qed.
Lemma digits_val_num ds : digits_ok ds -> digits_val (map digit_char ds) = num ds.
Proof. intros H. unfold digits_val. rewrite digits_val_acc_num by auto. lia. Qed.
Lemma num_app a b : num (a ++ b) = num a * 10 ^ Z.of_nat (List.length b) + num b.
Proof.
  induction a as [|d r IH]; cbn [app num]; [lia|].
  rewrite IH, app_length, pow10_add. lia.
Qed.
Lemma num_bound ds : digits_ok ds -> 0 <= num ds < 10 ^ Z.of_nat (List.length ds).
Proof.
  induction 1 as [|d r Hd Hr IH]; cbn [num List.length].
  - simpl; lia.
  - rewrite pow10_S. pose proof (pow10_pos (List.length r)). nia.
Qed.
Lemma num_zeros n : num (repeat 0 n) = 0.
Proof. induction n; cbn [repeat num]; lia. Qed.

Lemma digits_ok_app a b : digits_ok (a ++ b) <-> digits_ok a /\ digits_ok b.
Proof. apply Forall_app. Qed.
Lemma map_digits_is_digit ds : digits_ok ds -> forallb is_digit (map digit_char ds) = true.
Proof.
  induction 1 as [|d r Hd Hr IH]; cbn [map forallb]; auto.
  rewrite digit_char_is_digit by lia. auto.
Qed.

(** decimal printing *)
Fixpoint print_digits_aux (fuel : nat) (n : Z) (acc : list Z) : list Z :=
  let acc' := (n mod 10) :: acc in
  match fuel with
  | O => acc'
  | S f => if n / 10 =? 0 then acc' else print_digits_aux f (n / 10) acc'
  end.
Definition digits_of (n : Z) : list Z := print_digits_aux (Z.to_nat (Z.log2 n)) n [].

Lemma print_aux_digits fuel : forall n acc accb,
  accb = map digit_char acc ->
  print_nat_aux fuel n accb = map digit_char (print_digits_aux fuel n acc).
Proof.
  induction fuel as [|f IH]; intros n acc accb ->; cbn [print_nat_aux print_digits_aux].
  - cbn [map]. rewrite digit_char_code by lia. reflexivity.
  - destruct (n / 10 =? 0) eqn:E.
    + cbn [map]. rewrite digit_char_code by lia. reflexivity.
    + apply IH. cbn [map]. rewrite digit_char_code by lia. reflexivity.
Qed.
Lemma print_nat_digits n : print_nat n = map digit_char (digits_of n).
Proof. apply print_aux_digits. reflexivity. Qed.

Lemma print_digits_ok fuel : forall n acc, digits_ok acc -> digits_ok (print_digits_aux fuel n acc).
Proof.
  induction fuel as [|f IH]; intros n acc H; cbn [print_digits_aux].
  - constructor; [lia|auto].
  - destruct (n / 10 =? 0); [|apply IH]; constructor; auto; lia.
Qed.
Lemma digits_of_ok n : digits_ok (digits_of n).
Proof. apply print_digits_ok. constructor. Qed.

Lemma print_digits_num fuel : forall n acc, 0 <= n < 2 ^ (Z.of_nat fuel + 1) ->
  num (print_digits_aux fuel n acc) = n * 10 ^ Z.of_nat (List.length acc) + num acc.
Proof.
  induction fuel as [|f IH]; intros n acc H; cbn [print_digits_aux].
  - cbn [num]. change (2 ^ (Z.of_nat 0 + 1)) with 2 in H.
    rewrite Z.mod_small by lia. lia.
  - destruct (n / 10 =? 0) eqn:E.
    + cbn [num]. rewrite Z.mod_small by lia. lia.
    + rewrite IH.
      * cbn [num List.length]. rewrite pow10_S.
        pose proof (Z.div_mod n 10 ltac:(lia)). nia.
      * rewrite Nat2Z.inj_succ in H.
        replace (Z.succ (Z.of_nat f) + 1) with (Z.succ (Z.of_nat f + 1)) in H by lia.
        rewrite Z.pow_succ_r in H by lia. lia.
Qed.
Lemma num_digits_of n : 0 <= n -> num (digits_of n) = n.
Proof.
  intros H. unfold digits_of. rewrite print_digits_num.
  - cbn [List.length num]. simpl. lia.
  - split; auto. destruct (Z.eq_dec n 0) as [->|N0]; [reflexivity|].
    pose proof (Z.log2_spec n ltac:(lia)) as [_ L].
    rewrite Z2Nat.id by apply Z.log2_nonneg. rewrite Z.add_1_r. exact L.
Qed.

(** length: no leading zeros *)
Lemma print_digits_head fuel : forall n acc, 0 < n < 2 ^ (Z.of_nat fuel + 1) ->
  exists d r, print_digits_aux fuel n acc = d :: r /\ 0 < d.
Proof.
  induction fuel as [|f IH]; intros n acc H; cbn [print_digits_aux].
  - change (2 ^ (Z.of_nat 0 + 1)) with 2 in H. eexists _, _; split; [reflexivity|].
    rewrite Z.mod_small; lia.
  - destruct (n / 10 =? 0) eqn:E.
    + eexists _, _; split; [reflexivity|]. rewrite Z.mod_small; lia.
    + apply IH.
      rewrite Nat2Z.inj_succ in H.
      replace (Z.succ (Z.of_nat f) + 1) with (Z.succ (Z.of_nat f + 1)) in H by lia.
      rewrite Z.pow_succ_r in H by lia. lia.
Qed.
Lemma digits_of_head n : 0 < n -> exists d r, digits_of n = d :: r /\ 0 < d.
Proof.
  intros H. apply print_digits_head. split; auto.
  pose proof (Z.log2_spec n ltac:(lia)) as [_ L].
  rewrite Z2Nat.id by apply Z.log2_nonneg. rewrite Z.add_1_r. exact L.
Qed.
Lemma digits_of_0 : digits_of 0 = [0].
Proof. reflexivity. Qed.
Lemma print_digits_nonempty fuel : forall n l, print_digits_aux fuel n l <> [].
Proof.
  induction fuel as [|f IH]; intros n l; cbn [print_digits_aux]; [discriminate|].
  destruct (n / 10 =? 0); [discriminate|]. apply IH.
Qed.
Lemma digits_of_nonempty n : digits_of n <> [].
Proof. apply print_digits_nonempty. Qed.
Lemma digits_of_length n : 0 < n ->
  10 ^ (Z.of_nat (List.length (digits_of n)) - 1) <= n < 10 ^ Z.of_nat (List.length (digits_of n)).
Proof.
  intros H. destruct (digits_of_head n H) as (d & r & E & Hd).
  pose proof (digits_of_ok n) as O. pose proof (num_digits_of n ltac:(lia)) as N.
  rewrite E in *. pose proof (num_bound _ O) as Bd. rewrite N in Bd.
  cbn [List.length]. split; [|exact (proj2 Bd)].
  cbn [num] in N. inversion O as [|? ? Od Or]; subst.
  pose proof (num_bound _ Or). replace (Z.of_nat (S (List.length r)) - 1) with (Z.of_nat (List.length r)) by lia.
  pose proof (pow10_pos (List.length r)). nia.
Qed.
Lemma digits_of_length_unique n k : 0 < n -> 10 ^ Z.of_nat k <= n < 10 ^ Z.of_nat (S k) ->
  List.length (digits_of n) = S k.
Proof.
  intros H [L U]. destruct (digits_of_length n H) as [L2 U2].
  destruct (digits_of n) as [|d r] eqn:E; [exfalso; apply (digits_of_nonempty n); auto|].
  cbn [List.length] in *. f_equal.
  replace (Z.of_nat (S (List.length r)) - 1) with (Z.of_nat (List.length r)) in L2 by lia.
  assert (Z.of_nat (List.length r) < Z.of_nat (S k)) by (apply (Z.pow_lt_mono_r_iff 10); lia).
  assert (Z.of_nat k < Z.of_nat (S (List.length r))) by (apply (Z.pow_lt_mono_r_iff 10); lia).
  lia.
Qed.

(** split_on *)
Lemma split_on_none sep s : (forall c, In c s -> c <> sep) -> split_on sep s = [s].
Proof.
  induction s as [|c r IH]; intros H; cbn [split_on]; auto.
  destruct (eqc c sep) eqn:E.
  - apply eqc_eq in E. exfalso. apply (H c); [left|]; auto.
  - rewrite IH; auto. intros x Hx. apply H. right; auto.
Qed.
Lemma split_on_one sep a b : (forall c, In c a -> c <> sep) ->
  split_on sep (a ++ sep :: b) = a :: split_on sep b.
Proof.
  induction a as [|c r IH]; intros H; cbn [app split_on].
  - rewrite eqc_refl. reflexivity.
  - destruct (eqc c sep) eqn:E.
    + apply eqc_eq in E. exfalso. apply (H c); [left|]; auto.
    + rewrite IH; auto. intros x Hx. apply H. right; auto.
Qed.
Lemma digit_not_dot c : is_digit c = true -> c <> "."%char.
Proof. intros H ->. discriminate. Qed.

(** sort.Search *)
Lemma search_loop_spec (f : nat -> bool) : forall fuel i j,
  (j - i <= fuel)%nat -> (i <= j)%nat ->
  (forall a b, (a <= b)%nat -> (b < j)%nat -> f a = true -> f b = true) ->
  let r := search_loop fuel i j f in
  (i <= r <= j)%nat /\ (forall k, (i <= k < r)%nat -> f k = false) /\ (forall k, (r <= k < j)%nat -> f k = true).
Proof.
  induction fuel as [|fu IH]; intros i j Hf Hij Hm; cbn [search_loop].
  - assert (i = j) by lia. subst. repeat split; intros; lia.
  - destruct (i <? j)%nat eqn:E.
    + set (h := ((i + j) / 2)%nat).
      assert (i <= h < j)%nat as Hh by (unfold h; split; [apply Nat.div_le_lower_bound|apply Nat.div_lt_upper_bound]; lia).
      destruct (f h) eqn:Fh; cbn [negb].
      * destruct (IH i h) as (R & L & U); [lia|lia|intros; eapply Hm; eauto; lia|].
        cbv zeta in *. repeat split; try lia; auto.
        intros k Hk. destruct (Nat.lt_ge_cases k h); [apply U; lia|]. eapply (Hm h k); auto; lia.
      * destruct (IH (h + 1)%nat j) as (R & L & U); [lia|lia|intros; eapply Hm; eauto; lia|].
        cbv zeta in *. repeat split; try lia; auto.
        intros k Hk. destruct (Nat.lt_ge_cases k (h+1)); [|apply L; lia].
        destruct (f k) eqn:Fk; auto. rewrite (Hm k h) in Fh; [discriminate|lia|lia|auto].
    + assert (i = j) by lia. subst. repeat split; intros; lia.
Qed.
Lemma search_spec n f :
  (forall a b, (a <= b)%nat -> (b < n)%nat -> f a = true -> f b = true) ->
  (search n f <= n)%nat /\ (forall k, (k < search n f)%nat -> f k = false)
  /\ (forall k, (search n f <= k < n)%nat -> f k = true).
Proof.
  intros H. unfold search. destruct (search_loop_spec f n 0 n) as (R & L & U); [lia|lia|auto|].
  cbv zeta in *. repeat split; try lia; auto. intros; apply L; lia.
Qed.
