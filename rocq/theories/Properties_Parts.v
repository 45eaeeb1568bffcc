(** C158: pricing a total and pricing its parts. *)
From Verif Require Import Base M_Amount S_Decimal S_Amount L_Amount Properties_Amount.

Lemma quot_split P x y : 0 < P -> Z.abs (Z.quot x P + Z.quot y P - Z.quot (x + y) P) <= 1.
Proof.
  intros HP.
  assert (F : forall z, z = P * Z.quot z P + Z.rem z P /\ - P < Z.rem z P < P /\ (0 <= z -> 0 <= Z.rem z P) /\ (z <= 0 -> Z.rem z P <= 0)).
  { intros z. split; [apply Z.quot_rem; lia|]. split; [pose proof (Z.rem_bound_abs z P); lia|]. split; intros; [apply Z.rem_nonneg|apply Z.rem_nonpos]; lia. }
  destruct (F x) as (A & A1 & A2 & A3), (F y) as (C & C1 & C2 & C3), (F (x + y)) as (D & D1 & D2 & D3).
  set (k := Z.quot x P + Z.quot y P - Z.quot (x + y) P).
  assert (E : P * k = Z.rem (x + y) P - Z.rem x P - Z.rem y P).
  { unfold k. rewrite Z.mul_sub_distr_l, Z.mul_add_distr_l. lia. }
  clearbody k. clear A C D F. apply Z.abs_le. split.
  - destruct (Z_lt_le_dec k (-1)) as [L|L]; [|exact L]. exfalso. assert (P * k <= P * -2) by (apply Z.mul_le_mono_nonneg_l; lia). lia.
  - destruct (Z_lt_le_dec 1 k) as [L|L]; [|exact L]. exfalso. assert (P * 2 <= P * k) by (apply Z.mul_le_mono_nonneg_l; lia). lia.
Qed.
Lemma quot_parts P f : 0 < P -> forall l, Z.abs (zsum (map (fun x => Z.quot (x * f) P) l) - Z.quot (zsum l * f) P) <= Z.max 0 (Z.of_nat (List.length l) - 1).
Proof.
  intros HP. induction l as [|x l IH].
  - cbn [map List.length zsum fold_right]. rewrite Z.mul_0_l, Z.quot_0_l by lia. discriminate.
  - cbn [map]. unfold zsum in *. cbn [fold_right List.length]. set (s := fold_right Z.add 0 l) in *. set (t := fold_right Z.add 0 (map _ l)) in *.
    destruct l as [|y l]; [cbn [fold_right map] in s, t; subst s t; rewrite !Z.add_0_r, Z.sub_diag; discriminate|].
    pose proof (quot_split P (x * f) (s * f) HP) as Q. rewrite <- Z.mul_add_distr_r in Q. cbn [List.length] in *. lia.
Qed.
Lemma times_all c b : (c_dec (a_com b) <= 50)%nat -> forall l, Forall (fun x => a_com x = c) l -> exists l', Forall2 (fun x y => times x b = Ok y) l l' /\
  Forall (fun x => a_com x = c) l' /\ map a_int l' = map (fun z => Z.quot (z * a_int b) (10 ^ Z.of_nat (a_dec b))) (map a_int l).
Proof.
  intros Hb. assert (T : forall x, times x b = Ok (mkAmount (Z.quot (a_int x * a_int b) (10 ^ Z.of_nat (a_dec b))) (a_com x))).
  { intros x. unfold times. destruct (big_pow10_cases (a_dec b)) as [[_ E]|[L _]]; [rewrite E; reflexivity|unfold a_dec in L; lia]. }
  induction 1 as [|x l Hx Hl (l' & A & C & D)].
  - exists []. repeat constructor.
  - eexists (_ :: l'). split; [constructor; [apply T|exact A]|]. split; [constructor; [exact Hx|exact C]|]. cbn. rewrite D. reflexivity.
Qed.

(** ** C158 *)
(** n amounts priced one by one and added up, or added up and priced: at most n-1 units of the last decimal apart *)
Theorem C158_parts : forall conv c b l, (c_dec (a_com b) <= 50)%nat -> Forall (fun x => a_com x = c) l ->
  exists l' parts total r, Forall2 (fun x y => times x b = Ok y) l l' /\ add_all conv (zero_amount c) l' = Ok parts /\
    add_all conv (zero_amount c) l = Ok total /\ times total b = Ok r /\ a_com parts = c /\ a_com r = c /\
    Z.abs (a_int parts - a_int r) <= Z.max 0 (Z.of_nat (List.length l) - 1).
Proof.
  intros conv c b l Hb Hl. destruct (times_all c b Hb l Hl) as (l' & A & C & D).
  destruct (times_all c b Hb [mkAmount (zsum (map a_int l)) c]) as (r' & A' & C' & D'); [repeat constructor|].
  inversion A' as [|? r ? ? T N]; subst. inversion N; subst. cbn in D'. injection D' as Er. inversion C'; subst.
  exists l'. do 2 eexists. exists r. split; [exact A|]. split; [apply C06_sum_exact, C|]. split; [apply C06_sum_exact, Hl|]. split; [exact T|].
  repeat (split; [reflexivity|]). cbn [a_int]. rewrite D, Er.
  rewrite <- (map_length a_int l). apply quot_parts. apply Z.pow_pos_nonneg; lia.
Qed.
Print Assumptions C158_parts.
(** at a whole price (2.00, not 2.50) there is no difference *)
Theorem C158_whole_price : forall conv c b l l' parts total r k, a_int b = k * 10 ^ Z.of_nat (c_dec (a_com b)) -> Forall (fun x => a_com x = c) l ->
  Forall2 (fun x y => times x b = Ok y) l l' -> add_all conv (zero_amount c) l' = Ok parts ->
  add_all conv (zero_amount c) l = Ok total -> times total b = Ok r -> parts = r.
Proof.
  intros conv c b l l' parts total r k Hk Hl H2 Hp Ht Hr. set (P := 10 ^ Z.of_nat (c_dec (a_com b))) in *. assert (HP : 0 < P) by (apply Z.pow_pos_nonneg; lia).
  assert (T : forall x y, times x b = Ok y -> y = mkAmount (a_int x * k) (a_com x)).
  { intros x y E. unfold times in E. destruct (big_pow10_cases (a_dec b)) as [[_ Q]|[_ Q]]; rewrite Q in E; [|discriminate]. cbn [bind] in E.
    injection E as <-. unfold a_dec. fold P. rewrite Hk, Z.mul_assoc, Z.quot_mul by lia. reflexivity. }
  assert (Hl' : Forall (fun x => a_com x = c) l' /\ zsum (map a_int l') = zsum (map a_int l) * k).
  { clear Hp Ht Hr. induction H2 as [|x y l l' E _ IH]; [split; [constructor|reflexivity]|]. inversion Hl as [|? ? Hx Hl0]; subst. destruct (IH Hl0) as [F G]. apply T in E. subst y.
    split; [constructor; [reflexivity|exact F]|]. unfold zsum in *. cbn. rewrite G. ring. }
  destruct Hl' as [F G]. rewrite C06_sum_exact in Hp by exact F. rewrite C06_sum_exact in Ht by exact Hl. injection Hp as <-. injection Ht as <-. apply T in Hr. subst r. cbn. rewrite G. reflexivity.
Qed.
Print Assumptions C158_whole_price.
(** the bound is reached for every number of amounts up to 10^50 *)
Theorem C158_bound_reached : forall conv n, (1 <= n)%nat -> Z.of_nat n <= 10 ^ 50 ->
  exists c b l l' parts total r, (c_dec (a_com b) <= 50)%nat /\ List.length l = n /\ Forall (fun x => a_com x = c) l /\ Forall2 (fun x y => times x b = Ok y) l l' /\
    add_all conv (zero_amount c) l' = Ok parts /\ add_all conv (zero_amount c) l = Ok total /\ times total b = Ok r /\ a_int r - a_int parts = Z.of_nat n - 1.
Proof.
  intros conv n Hn Hm. set (c := mkCommodity 0 (B "JPY") 0). set (b := mkAmount 1 (mkCommodity 1 (B "OZ") 50)). set (x := mkAmount (10 ^ 50 - 1) c). set (l := repeat x n).
  assert (Hl : Forall (fun y => a_com y = c) l) by (apply Forall_forall; intros y I; apply repeat_spec in I; subst y; reflexivity).
  assert (Hb : (c_dec (a_com b) <= 50)%nat) by (cbn; lia).
  destruct (times_all c b Hb l Hl) as (l' & A & C & D).
  destruct (times_all c b Hb [mkAmount (zsum (map a_int l)) c]) as (r' & A' & C' & D'); [repeat constructor|].
  inversion A' as [|? r ? ? T N]; subst. inversion N; subst. cbn [map] in D'. injection D' as Er.
  exists c, b, l, l'. do 2 eexists. exists r. split; [exact Hb|]. split; [apply repeat_length|]. split; [exact Hl|]. split; [exact A|].
  split; [apply C06_sum_exact, C|]. split; [apply C06_sum_exact, Hl|]. split; [exact T|]. cbn [a_int]. rewrite Er, D.
  change (a_int b) with 1. change (Z.of_nat (a_dec b)) with 50. change (a_int (mkAmount (zsum (map a_int l)) c)) with (zsum (map a_int l)).
  assert (S1 : zsum (map a_int l) = Z.of_nat n * (10 ^ 50 - 1)).
  { unfold l. clear. induction n as [|n IH]; [reflexivity|]. unfold zsum in *. cbn [repeat map fold_right]. rewrite IH. change (a_int x) with (10 ^ 50 - 1). lia. }
  assert (S2 : zsum (map (fun z => Z.quot (z * 1) (10 ^ 50)) (map a_int l)) = 0).
  { unfold l. clear. induction n as [|n IH]; [reflexivity|]. unfold zsum in *. cbn [repeat map fold_right]. rewrite IH. reflexivity. }
  rewrite S2, S1, Z.mul_1_r. assert (E : Z.quot (Z.of_nat n * (10 ^ 50 - 1)) (10 ^ 50) = Z.of_nat n - 1); [|rewrite E; lia].
  rewrite Z.quot_div_nonneg by lia. symmetry. apply (Z.div_unique _ _ _ (10 ^ 50 - Z.of_nat n)); lia.
Qed.
Print Assumptions C158_bound_reached.
Example C158_example : let c := mkCommodity 0 (B "CAD") 2 in let b := mkAmount 15 (mkCommodity 1 (B "USD") 1) in
  exists l' parts total r, Forall2 (fun x y => times x b = Ok y) [mkAmount 333 c; mkAmount (-55) c; mkAmount 777 c] l' /\
    add_all (fun _ _ _ => Fail) (zero_amount c) l' = Ok parts /\ add_all (fun _ _ _ => Fail) (zero_amount c) [mkAmount 333 c; mkAmount (-55) c; mkAmount 777 c] = Ok total /\
    times total b = Ok r /\ a_int parts = 1582 /\ a_int r = 1582.
Proof. do 4 eexists. split; [repeat constructor|]. repeat split; reflexivity. Qed.
