(** Lemmas on printed reports. *)
From Coq Require Import Permutation Sorted.
From Verif Require Import Base M_Amount M_Date M_Names M_Parser M_Ledger M_Report M_Json M_Output S_Output L_Dec.
Local Open Scope Z_scope.

(** ** Counting characters *)
Lemma rc_len_ind (P : bytes -> Prop) : (forall s, (forall t, (List.length t < List.length s)%nat -> P t) -> P s) -> forall s, P s.
Proof. intros H s. remember (List.length s) as n eqn:E. revert s E. induction n as [n IH] using lt_wf_ind. intros s ->. apply H. intros t L. apply (IH _ L t eq_refl). Qed.
Lemma rune_count_le : forall s, (rune_count s <= List.length s)%nat.
Proof.
  induction s as [s IH] using rc_len_ind. destruct s as [|c r]; [apply le_n|]. cbn [rune_count List.length]. apply le_n_S.
  destruct r as [|c1 r1]; [apply le_n|]. pose proof (IH (c1 :: r1) ltac:(cbn; lia)) as H0. pose proof (IH r1 ltac:(cbn; lia)) as H1. cbn [List.length] in H0.
  destruct (starts2 c c1); [cbn [List.length]; lia|]. destruct r1 as [|c2 r2]; [exact H0|]. pose proof (IH r2 ltac:(cbn; lia)) as H2.
  destruct (starts3 c c1 && cont_byte c2); [cbn [List.length]; lia|]. destruct r2 as [|c3 r3]; [exact H0|]. pose proof (IH r3 ltac:(cbn; lia)) as H3.
  destruct (starts4 c c1 && cont_byte c2 && cont_byte c3); [cbn [List.length]; lia|exact H0].
Qed.
Definition ascii7 (c : ascii) : bool := code c <? 128.
Lemma ascii7_no2 c d : ascii7 c = true -> starts2 d c = false.
Proof. unfold ascii7, starts2, cont_byte, between. intros H. destruct (128 <=? code c) eqn:E; [lia|]. rewrite andb_false_r. reflexivity. Qed.
Lemma ascii7_no3 c d : ascii7 c = true -> starts3 d c = false.
Proof.
  unfold ascii7, starts3, cont_byte, between. intros H. replace (160 <=? code c) with false by lia. replace (128 <=? code c) with false by lia.
  cbn [andb]. rewrite !andb_false_r. reflexivity.
Qed.
Lemma ascii7_no4 c d : ascii7 c = true -> starts4 d c = false.
Proof.
  unfold ascii7, starts4, cont_byte, between. intros H. replace (144 <=? code c) with false by lia. replace (128 <=? code c) with false by lia.
  cbn [andb]. rewrite !andb_false_r. reflexivity.
Qed.
Lemma ascii7_nocont c : ascii7 c = true -> cont_byte c = false.
Proof. unfold ascii7, cont_byte, between. intros H. replace (128 <=? code c) with false by lia. reflexivity. Qed.
Lemma ascii7_lead c d : ascii7 c = true -> starts2 c d = false /\ starts3 c d = false /\ starts4 c d = false.
Proof.
  unfold ascii7, starts2, starts3, starts4, between. intros H. replace (194 <=? code c) with false by lia. replace (code c =? 224) with false by lia.
  replace (code c =? 237) with false by lia. replace (225 <=? code c) with false by lia. replace (code c =? 240) with false by lia.
  replace (241 <=? code c) with false by lia. replace (code c =? 244) with false by lia. auto.
Qed.
Lemma rune_count_ascii c s : ascii7 c = true -> rune_count (c :: s) = S (rune_count s).
Proof.
  intros H. destruct s as [|c1 r]; [reflexivity|]. destruct (ascii7_lead c c1 H) as (E2 & E3 & E4).
  change (rune_count (c :: c1 :: r)) with
    (S (if starts2 c c1 then rune_count r else match r with
      | [] => rune_count (c1 :: r)
      | c2 :: r2 => if starts3 c c1 && cont_byte c2 then rune_count r2 else match r2 with
           | [] => rune_count (c1 :: r) | c3 :: r3 => if starts4 c c1 && cont_byte c2 && cont_byte c3 then rune_count r3 else rune_count (c1 :: r) end end)).
  rewrite E2, E3, E4. cbn [andb]. destruct r as [|c2 [|c3 r3]]; reflexivity.
Qed.
(** a text before an ASCII character *)
Lemma rune_count_app d t : ascii7 d = true -> forall s, rune_count (s ++ d :: t) = (rune_count s + rune_count (d :: t))%nat.
Proof.
  intros Hd. apply rc_len_ind. intros s IH. destruct s as [|c r]; [reflexivity|].
  destruct r as [|c1 r1].
  { cbn [app]. change (rune_count [c]) with 1%nat. rewrite (rune_count_ascii d t Hd). cbn [rune_count].
    rewrite (ascii7_no2 d c Hd), (ascii7_no3 d c Hd), (ascii7_no4 d c Hd). cbn [andb].
    pose proof (rune_count_ascii d t Hd) as R. destruct t as [|t1 [|t2 t3]]; cbn [rune_count] in R |- *; lia. }
  pose proof (IH (c1 :: r1) ltac:(cbn; lia)) as H0. pose proof (IH r1 ltac:(cbn; lia)) as H1. cbn [app] in *.
  assert (U : forall a b x, rune_count (a :: b :: x) = S (if starts2 a b then rune_count x else match x with
      | [] => rune_count (b :: x)
      | c2 :: r2 => if starts3 a b && cont_byte c2 then rune_count r2 else match r2 with
           | [] => rune_count (b :: x) | c3 :: r3 => if starts4 a b && cont_byte c2 && cont_byte c3 then rune_count r3 else rune_count (b :: x) end end)) by reflexivity.
  rewrite (U c c1), (U c c1). destruct (starts2 c c1); [lia|].
  destruct r1 as [|c2 r2].
  { cbn [app] in *. rewrite (ascii7_nocont d Hd), andb_false_r. rewrite andb_false_r. cbn [andb]. destruct t as [|t1 t2]; lia. }
  pose proof (IH r2 ltac:(cbn; lia)) as H2. cbn [app] in *. destruct (starts3 c c1 && cont_byte c2); [lia|].
  destruct r2 as [|c3 r3].
  { cbn [app] in *. rewrite (ascii7_nocont d Hd), andb_false_r. lia. }
  pose proof (IH r3 ltac:(cbn; lia)) as H3. cbn [app] in *. destruct (starts4 c c1 && cont_byte c2 && cont_byte c3); lia.
Qed.
Lemma rune_count_blanks n s : rune_count (rep " "%char n ++ s) = (n + rune_count s)%nat.
Proof. induction n as [|n IH]; [reflexivity|]. cbn [rep repeat app]. rewrite rune_count_ascii by reflexivity. unfold rep in IH. rewrite IH. reflexivity. Qed.
Lemma rune_count_after n s : rune_count (s ++ rep " "%char n) = (rune_count s + n)%nat.
Proof.
  destruct n as [|n]; [cbn [rep repeat]; rewrite app_nil_r; lia|]. cbn [rep repeat]. rewrite rune_count_app by reflexivity.
  f_equal. change (" "%char :: repeat " "%char n) with (rep " "%char (S n)). pose proof (rune_count_blanks (S n) []) as H. rewrite app_nil_r in H. rewrite H. apply Nat.add_0_r.
Qed.
Lemma rune_count_all s : forallb ascii7 s = true -> rune_count s = List.length s.
Proof.
  induction s as [|c s IH]; [reflexivity|]. cbn [forallb]. intros H. apply andb_true_iff in H as [H1 H2]. rewrite rune_count_ascii by exact H1. cbn [List.length]. rewrite IH by exact H2. reflexivity.
Qed.
Lemma padl_count w s : (rune_count s <= w)%nat -> rune_count (padl w s) = w.
Proof. intros H. unfold padl. rewrite rune_count_blanks. lia. Qed.
Lemma padr_count w s : (rune_count s <= w)%nat -> rune_count (padr w s) = w.
Proof. intros H. unfold padr. rewrite rune_count_after. lia. Qed.
Lemma padl_right w s : right_set s (padl w s). Proof. eexists. reflexivity. Qed.
Lemma padr_left w s : left_set s (padr w s). Proof. eexists. reflexivity. Qed.
Lemma star_nat w s : star (Z.of_nat w) s = padl w s.
Proof. unfold star. replace (Z.of_nat w <? 0) with false by lia. rewrite Nat2Z.id. reflexivity. Qed.
Lemma code_chr z : 0 <= z < 256 -> code (chr z) = z.
Proof. intros H. unfold code, chr. rewrite N_ascii_embedding by lia. lia. Qed.
(** the count is the number of characters encoded *)
Lemma rune_count_utf8 c s : character c -> rune_count (utf8 c ++ s) = S (rune_count s).
Proof.
  intros H. unfold utf8. destruct (c <? 128) eqn:E1.
  { cbn [app]. apply rune_count_ascii. unfold ascii7. rewrite code_chr; destruct H; lia. }
  assert (U : forall a b x, rune_count (a :: b :: x) = S (if starts2 a b then rune_count x else match x with
      | [] => rune_count (b :: x)
      | c2 :: r2 => if starts3 a b && cont_byte c2 then rune_count r2 else match r2 with
           | [] => rune_count (b :: x) | c3 :: r3 => if starts4 a b && cont_byte c2 && cont_byte c3 then rune_count r3 else rune_count (b :: x) end end)) by reflexivity.
  assert (C : forall z, cont_byte (chr (128 + z mod 64)) = true).
  { intros z. unfold cont_byte, between. pose proof (Z.mod_pos_bound z 64). rewrite code_chr by lia. lia. }
  destruct (c <? 2048) eqn:E2.
  { cbn [app]. rewrite U. unfold starts2. rewrite C. unfold between.
    assert (2 <= c / 64 < 32) by (split; [apply Z.div_le_lower_bound|apply Z.div_lt_upper_bound]; lia). rewrite code_chr by lia.
    replace (194 <=? 192 + c / 64) with true by lia. replace (192 + c / 64 <=? 223) with true by lia. reflexivity. }
  destruct (c <? 65536) eqn:E3.
  { cbn [app]. rewrite U.
    assert (D : 0 <= c / 4096 < 16) by (split; [apply Z.div_pos|apply Z.div_lt_upper_bound]; lia).
    assert (N2 : starts2 (chr (224 + c / 4096)) (chr (128 + c / 64 mod 64)) = false).
    { unfold starts2, between. rewrite code_chr by lia. replace (224 + c / 4096 <=? 223) with false by lia. rewrite andb_false_r. reflexivity. }
    rewrite N2, C, andb_true_r.
    assert (S3 : starts3 (chr (224 + c / 4096)) (chr (128 + c / 64 mod 64)) = true); [|rewrite S3; reflexivity].
    pose proof (Z.mod_pos_bound (c / 64) 64 ltac:(lia)) as B1. unfold starts3. rewrite C. unfold between. rewrite !code_chr by lia.
    pose proof (Z.div_mod (c / 64) 64 ltac:(lia)) as DM. replace (c / 64 / 64) with (c / 4096) in DM by (rewrite Z.div_div by lia; reflexivity).
    pose proof (Z.div_mod c 64 ltac:(lia)) as DM2. pose proof (Z.mod_pos_bound c 64 ltac:(lia)) as B2.
    set (q := c / 4096) in *. set (r := c / 64 mod 64) in *. set (u := c / 64) in *. set (v := c mod 64) in *.
    destruct (Z.eq_dec q 0) as [Q|Q]; [rewrite Q in *; replace (160 <=? 128 + r) with true by lia; replace (128 + r <=? 191) with true by lia; reflexivity|].
    destruct (Z.eq_dec q 13) as [Q'|Q']; [rewrite Q' in *; replace (128 <=? 128 + r) with true by lia; replace (128 + r <=? 159) with true by (destruct H; lia); reflexivity|].
    replace (224 + q =? 224) with false by lia. replace (224 + q =? 237) with false by lia. replace (225 <=? 224 + q) with true by lia. replace (224 + q <=? 239) with true by lia. reflexivity. }
  cbn [app]. rewrite U. assert (D : 0 <= c / 262144 < 5) by (split; [apply Z.div_pos|apply Z.div_lt_upper_bound]; destruct H; lia).
  assert (N2 : starts2 (chr (240 + c / 262144)) (chr (128 + c / 4096 mod 64)) = false).
  { unfold starts2, between. rewrite code_chr by lia. replace (240 + c / 262144 <=? 223) with false by lia. rewrite andb_false_r. reflexivity. }
  assert (N3 : starts3 (chr (240 + c / 262144)) (chr (128 + c / 4096 mod 64)) = false).
  { unfold starts3, between. rewrite code_chr by lia. replace (240 + c / 262144 <=? 239) with false by lia.
    replace (240 + c / 262144 =? 224) with false by lia. replace (240 + c / 262144 =? 237) with false by lia. rewrite andb_false_r. reflexivity. }
  rewrite N2, N3, !C. cbn [andb]. rewrite !andb_true_r.
  assert (S4 : starts4 (chr (240 + c / 262144)) (chr (128 + c / 4096 mod 64)) = true); [|rewrite S4; reflexivity].
  pose proof (Z.mod_pos_bound (c / 4096) 64 ltac:(lia)) as B1. unfold starts4. rewrite C. unfold between. rewrite !code_chr by lia.
  pose proof (Z.div_mod (c / 4096) 64 ltac:(lia)) as DM. replace (c / 4096 / 64) with (c / 262144) in DM by (rewrite Z.div_div by lia; reflexivity).
  pose proof (Z.div_mod c 4096 ltac:(lia)) as DM2. pose proof (Z.mod_pos_bound c 4096 ltac:(lia)) as B2.
  set (q := c / 262144) in *. set (r := c / 4096 mod 64) in *. set (u := c / 4096) in *. set (v := c mod 4096) in *.
  destruct (Z.eq_dec q 0) as [Q|Q]; [rewrite Q in *; replace (144 <=? 128 + r) with true by lia; replace (128 + r <=? 191) with true by lia; reflexivity|].
  destruct (Z.eq_dec q 4) as [Q'|Q']; [rewrite Q' in *; replace (128 <=? 128 + r) with true by lia; replace (128 + r <=? 143) with true by (destruct H; lia); reflexivity|].
  replace (240 + q =? 240) with false by lia. replace (241 <=? 240 + q) with true by lia. replace (240 + q <=? 243) with true by lia. reflexivity.
Qed.
Lemma rune_count_text l : Forall character l -> rune_count (utf8_text l) = List.length l.
Proof. induction 1 as [|c l H _ IH]; [reflexivity|]. unfold utf8_text in *. cbn [flat_map]. rewrite rune_count_utf8 by exact H. cbn [List.length]. rewrite IH. reflexivity. Qed.
