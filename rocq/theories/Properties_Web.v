(** C97-C101: the amounts, prices and conversions of the coin2html page. *)
From Coq Require Import Permutation Sorted QArith.
From Verif Require Import Base M_Amount M_Date L_Amount S_Decimal L_Dec M_Web S_Web L_Web L_WebQ L_WebBfs L_WebPrice.
Local Open Scope Z_scope.

(** C97. Every exported amount is read by the page as the same amount of the same commodity, and shown back (without separators) as the
    exported text, so the check made on every exported price passes. An amount larger than 2^53 minor units is not. *)
Theorem C97_exported_amounts_partial : forall find a, (a_dec a <= 50)%nat -> Z.abs (a_int a) <= 2 ^ 53 ->
  (forall c, In c (c_id (a_com a)) -> c <> " "%char) -> find (c_id (a_com a)) = Some (a_com a) ->
  exists s, marshal_amount a = Ok s /\ web_parse find s = Ok a /\ web_string false a = s.
Proof.
  intros find a Hd Hi Hs Hf. exists (web_string false a). split; [apply marshal_text, Hd|]. split; [|reflexivity].
  rewrite web_read; auto. rewrite to_num_exact by exact Hi. destruct a; reflexivity.
Qed.
Theorem C97_exported_amounts_refuted : exists find a s b, (a_dec a <= 50)%nat /\ find (c_id (a_com a)) = Some (a_com a) /\
  marshal_amount a = Ok s /\ web_parse find s = Ok b /\ a_int b <> a_int a /\ web_string false b <> s.
Proof.
  set (k := mkCommodity 0 (B "CAD") 2). exists (fun _ => Some k), (mkAmount 9007199254740993 k), (B "90071992547409.93 CAD"), (mkAmount 9007199254740992 k).
  repeat split; try (vm_compute; reflexivity); try (vm_compute; discriminate). cbn. lia.
Qed.
Example C97_example : let k := mkCommodity 0 (B "CAD") 2 in let a := mkAmount (-5) k in
  marshal_amount a = Ok (B "-0.05 CAD") /\ web_parse (fun _ => Some k) (B "-0.05 CAD") = Ok a /\ web_string false a = B "-0.05 CAD".
Proof. vm_compute. auto. Qed.

(** Texts with more or fewer decimals than the commodity has: cut off or filled up with zeroes. *)
Theorem C97_other_decimals : forall find (neg : bool) ds fs c, digits_ok ds -> ds <> [] -> digits_ok fs -> (0 < c_dec c)%nat ->
  (forall x, In x (c_id c) -> x <> " "%char) -> find (c_id c) = Some c ->
  let z := num (ds ++ firstn (c_dec c) (fs ++ repeat 0 (c_dec c))) in
  web_parse find ((if neg then B "-" else []) ++ map digit_char ds ++ B "." ++ map digit_char fs ++ B " " ++ c_id c) =
    Ok (mkAmount (to_num (if neg then - z else z)) c).
Proof.
  intros find neg ds fs c Hd Nd Hf Hc Hs Hk z.
  assert (DG : forall l x, digits_ok l -> In x (map digit_char l) -> is_digit x = true).
  { intros l x H I. pose proof (map_digits_is_digit l H) as D. rewrite forallb_forall in D. apply D, I. }
  set (sg := if neg return list ascii then B "-" else []).
  assert (SG : forall x y, is_digit y = false -> y <> "-"%char -> In x (sg ++ map digit_char ds) -> x <> y).
  { intros x y Hy Ny I. apply in_app_or in I as [I|I].
    - unfold sg in I. destruct neg; [|destruct I]. destruct I as [<-|[]]. congruence.
    - intros ->. rewrite (DG ds y Hd I) in Hy. discriminate. }
  replace (sg ++ map digit_char ds ++ B "." ++ map digit_char fs ++ B " " ++ c_id c)
    with (((sg ++ map digit_char ds) ++ "."%char :: map digit_char fs) ++ " "%char :: c_id c) by (rewrite <- !app_assoc; reflexivity).
  unfold web_parse. rewrite split_on_one.
  2:{ intros x I. apply in_app_or in I as [I|[<-|I]]; [apply SG; auto; discriminate|discriminate|]. intros ->. pose proof (DG fs _ Hf I) as X. discriminate X. }
  rewrite (split_on_none " "%char) by exact Hs. rewrite Hk. rewrite split_on_one by (intros x I; apply SG; auto; discriminate).
  rewrite split_on_none by (intros x I ->; pose proof (DG fs _ Hf I) as X; discriminate X).
  cbn [nth]. assert (E0 : (0 <? c_dec c)%nat = true) by (apply Nat.ltb_lt; exact Hc). rewrite E0.
  assert (RM : forall s, (forall x, In x s -> x <> ","%char) -> remove_first ","%char s = s).
  { induction s as [|x s IH]; intros H; [reflexivity|]. cbn [remove_first]. destruct (eqc x ","%char) eqn:E; [apply eqc_eq in E; elim (H x); [left; reflexivity|exact E]|]. rewrite IH; [reflexivity|]. intros y I. apply H. right. exact I. }
  rewrite RM by (intros x I; apply SG; auto; discriminate).
  assert (E1 : (if (c_dec c <? List.length (map digit_char fs))%nat then firstn (c_dec c) (map digit_char fs) else map digit_char fs ++ rep "0"%char (c_dec c - List.length (map digit_char fs)))
     = map digit_char (firstn (c_dec c) (fs ++ repeat 0 (c_dec c)))).
  { rewrite map_length, firstn_app, map_app. destruct (c_dec c <? List.length fs)%nat eqn:E.
    - apply Nat.ltb_lt in E. replace (c_dec c - List.length fs)%nat with 0%nat by lia. cbn [firstn map]. rewrite app_nil_r, firstn_map. reflexivity.
    - apply Nat.ltb_ge in E. rewrite (firstn_all2 fs) by exact E. f_equal. unfold rep. assert (FR : forall n m, (n <= m)%nat -> firstn n (repeat 0 m) = repeat 0 n).
      { induction n as [|n IH]; intros m H; [reflexivity|]. destruct m; [lia|]. cbn [repeat firstn]. rewrite IH by lia. reflexivity. }
      rewrite FR by lia. generalize (c_dec c - List.length fs)%nat. induction n as [|n IH]; [reflexivity|]. cbn [repeat map]. f_equal. exact IH. }
  rewrite E1. rewrite <- app_assoc, <- map_app. unfold sg. rewrite parse_js_digits.
  - reflexivity.
  - apply digits_ok_app. split; [exact Hd|]. apply Forall_forall. intros x I. assert (I2 : In x (fs ++ repeat 0 (c_dec c))) by (rewrite <- (firstn_skipn (c_dec c)); apply in_or_app; left; exact I).
    apply in_app_or in I2 as [I2|I2]; [exact (proj1 (Forall_forall _ _) Hf x I2)|]. apply repeat_spec in I2. lia.
  - intros E. apply app_eq_nil in E as [E _]. exact (Nd E).
Qed.
Example C97_other_decimals_example : let k := mkCommodity 0 (B "CAD") 2 in web_parse (fun _ => Some k) (B "-1.239 CAD") = Ok (mkAmount (-123) k) /\ web_parse (fun _ => Some k) (B "7.5 CAD") = Ok (mkAmount 750 k).
Proof. vm_compute. auto. Qed.

(** C98. What the page shows: a minus sign if negative, the whole units in groups of three digits separated by commas (the first of one
    to three), the point and exactly the commodity's decimals, the commodity. A commodity without decimals gets no separators. *)
Theorem C98_displayed_amount : forall a, (0 < a_dec a)%nat -> exists g gs frac,
  web_string true a = (if a_int a <? 0 then B "-" else []) ++ join (B ",") (g :: gs) ++ B "." ++ frac ++ B " " ++ c_id (a_com a) /\
  (1 <= List.length g <= 3)%nat /\ Forall (fun x => List.length x = 3%nat) gs /\ List.length frac = a_dec a /\
  forallb is_digit (concat (g :: gs) ++ frac) = true /\
  digits_val (concat (g :: gs) ++ frac) = Z.abs (a_int a) /\
  concat (g :: gs) = print_nat (Z.abs (a_int a) / 10 ^ Z.of_nat (a_dec a)).
Proof.
  intros a Hd. destruct (triplets_spec (whole_text a)) as [E G].
  destruct (triplets (whole_text a)) as [|g gs] eqn:ET; [elim (print_nonempty (Z.abs (a_int a) / 10 ^ Z.of_nat (a_dec a))); exact G|].
  set (fr := padded_digits (a_dec a) (Z.abs (a_int a) mod 10 ^ Z.of_nat (a_dec a))).
  assert (P : 0 < 10 ^ Z.of_nat (a_dec a)) by apply pow10_pos.
  assert (Hm : 0 <= Z.abs (a_int a) mod 10 ^ Z.of_nat (a_dec a) < 10 ^ Z.of_nat (a_dec a)) by (apply Z.mod_pos_bound; exact P).
  exists g, gs, (map digit_char fr). rewrite web_string_text. split; [|split; [apply G|split; [apply G|split; [|split; [|split]]]]].
  - unfold grouped. replace (0 <? a_dec a)%nat with true by lia. cbn [andb]. rewrite ET. unfold rest_text, fr.
    destruct (a_dec a) as [|k]; [lia|]. rewrite <- !app_assoc. reflexivity.
  - rewrite map_length. apply padded_digits_length; auto.
  - rewrite E. unfold whole_text. rewrite print_nat_digits, <- map_app. apply map_digits_is_digit. apply digits_ok_app. split; [apply digits_of_ok|apply padded_digits_ok].
  - rewrite E. unfold whole_text. rewrite print_nat_digits, <- map_app, digits_val_num by (apply digits_ok_app; split; [apply digits_of_ok|apply padded_digits_ok]).
    unfold fr. rewrite num_app, padded_digits_length, padded_digits_num, num_digits_of by (auto; try lia; apply Z.div_pos; lia).
    pose proof (Z.div_mod (Z.abs (a_int a)) (10 ^ Z.of_nat (a_dec a)) ltac:(lia)). lia.
  - exact E.
Qed.
(** The page can read back what it shows below a million units; above, only the first separator is dropped. *)
Theorem C98_reread_partial : forall find a, Z.abs (a_int a) < 10 ^ Z.of_nat (6 + a_dec a) \/ a_dec a = 0%nat -> Z.abs (a_int a) <= 2 ^ 53 ->
  (forall c, In c (c_id (a_com a)) -> c <> " "%char) -> find (c_id (a_com a)) = Some (a_com a) ->
  web_parse find (web_string true a) = Ok a.
Proof. intros find a H Hi Hs Hf. rewrite web_read; auto; [|tauto]. rewrite to_num_exact by exact Hi. destruct a; reflexivity. Qed.
Theorem C98_reread_refuted : exists find a b, Z.abs (a_int a) <= 2 ^ 53 /\ find (c_id (a_com a)) = Some (a_com a) /\ web_string true a = B "1,234,567.89 CAD" /\
  web_parse find (web_string true a) = Ok b /\ a_int b = 1234.
Proof.
  set (k := mkCommodity 0 (B "CAD") 2). exists (fun _ => Some k), (mkAmount 123456789 k), (mkAmount 1234 k).
  repeat split; try (vm_compute; reflexivity). cbn. lia.
Qed.

(** C99. Converting an amount with a price: the exact product, rounded to the minor unit of the price's commodity, halves up - although it
    is computed with doubles - while the product of the two in minor units stays below 2^53. *)
Theorem C99_conversion_rounds_half_up_partial : forall a v, Z.abs (a_int a * a_int v) + 10 ^ Z.of_nat (a_dec a) < 2 ^ 53 ->
  let r := a_int (convert_to a v) in let p := 10 ^ Z.of_nat (a_dec a) in
  a_com (convert_to a v) = a_com v /\ (2 * r - 1) * p <= 2 * (a_int a * a_int v) < (2 * r + 1) * p.
Proof.
  intros a v H r p. split; [reflexivity|]. assert (P : 0 < p) by apply pow10_pos.
  set (z := a_int a * a_int v) in *. set (N := (2 * z + p) / (2 * p)).
  assert (HN : (2 * N - 1) * p <= 2 * z < (2 * N + 1) * p).
  { pose proof (Z.div_mod (2 * z + p) (2 * p) ltac:(lia)) as DM. pose proof (Z.mod_pos_bound (2 * z + p) (2 * p) ltac:(lia)). fold N in DM. nia. }
  assert (E : r = N).
  { unfold r, convert_to. cbn [a_int]. fold z p. assert (E1 : to_num z = z) by (apply to_num_exact; fold p in H; clear -H P; lia). rewrite E1.
    apply (round_div z p); [exact P| |exact H|exact HN|apply js_div_nearest, P].
    unfold p. destruct (a_dec a) as [|k]; [left; reflexivity|right]. exists (5 * 10 ^ Z.of_nat k). rewrite pow10_S. clear. lia. }
  rewrite E. exact HN.
Qed.
Theorem C99_conversion_refuted : exists a v, a_dec a = 0%nat /\ a_int (convert_to a v) <> a_int a * a_int v.
Proof.
  exists (mkAmount 3 (mkCommodity 0 (B "X") 0)), (mkAmount 3002399751580331 (mkCommodity 1 (B "CAD") 2)). split; [reflexivity|]. vm_compute. discriminate.
Qed.
Example C99_example : let usd := mkCommodity 0 (B "USD") 2 in let cad := mkCommodity 1 (B "CAD") 2 in
  a_int (convert_to (mkAmount 333 usd) (mkAmount 150 cad)) = 500 /\ a_int (convert_to (mkAmount (-333) usd) (mkAmount 150 cad)) = -499 /\
  a_int (convert_to (mkAmount 1 usd) (mkAmount 133 cad)) = 1.
Proof. vm_compute. auto. Qed.

(** C100. The price used for a day: always one of the prices of this pair of commodities - the first on or after a Sunday between 16 days
    before and 9 days after the day. If there is a price at least every [g] days it is thus no further away than that. *)
Theorem C100_some_known_price : forall known d, by_date known -> known <> [] -> exists p, conversion_price known d = Ok p /\ In p known.
Proof. intros known d S N. destruct (conversion_spec known d S N) as (p & E & I & _). eauto. Qed.
Theorem C100_price_near_the_day_partial : forall known f t g d, by_date known ->
  (exists q, In q known /\ wp_date q = f) -> (exists q, In q known /\ wp_date q = t) -> (forall q, In q known -> f <= wp_date q <= t) ->
  (forall w, f <= w <= t -> exists q, In q known /\ w <= wp_date q < w + g) ->
  f <= d <= t -> exists p, conversion_price known d = Ok p /\ In p known /\ d - 16 <= wp_date p < d + 9 + g.
Proof.
  intros known f t g d S Hf Ht H G Hd. destruct (conversion_spec known d S) as (p & E & I & C).
  { destruct Hf as (q & Q & _). intros ->. destruct Q. }
  exists p. split; [exact E|split; [exact I|]]. destruct (C f t Hf Ht H Hd) as (w & W1 & W2 & W3).
  destruct W3 as [(_ & A1 & A2)|(W3 & W4)].
  - destruct (G w W2) as (q & Q1 & Q2). specialize (A2 q Q1 ltac:(lia)). lia.
  - destruct (G w W2) as (q & Q1 & Q2). lia.
Qed.
(** It need not be the latest price on or before the day: a later one may be used although there is a price on the very day. *)
Theorem C100_latest_price_refuted : exists known d p, by_date known /\ (exists q, In q known /\ wp_date q = d) /\ conversion_price known d = Ok p /\ wp_date p = d + 300.
Proof.
  set (k := mkCommodity 1 (B "CAD") 2).
  (* Monday 2020/01/06 and 300 days later *)
  set (m := go_date 2020 1 6). exists [mkWprice m (mkAmount 130 k); mkWprice (m + 300) (mkAmount 150 k)], m, (mkWprice (m + 300) (mkAmount 150 k)).
  split; [|split; [|split]].
  - repeat constructor. cbn [wp_date]. lia.
  - eexists. split; [left; reflexivity|reflexivity].
  - vm_compute. reflexivity.
  - reflexivity.
Qed.

(** C101. Conversions through other commodities. [prices c] are the prices of [c]; a commodity is linked to those it has prices in. *)
Definition priced_in (prices : commodity -> list wprice) (c : commodity) : list commodity := map fst (price_groups (prices c)).
Theorem C101_priced_in : forall prices c x, In x (priced_in prices c) <-> exists p, In p (prices c) /\ a_com (wp_value p) = x.
Proof. intros prices c x. apply price_groups_spec. Qed.
(** At first and after any searches a commodity's direct conversions are those of its prices. *)
Inductive searched (prices : commodity -> list wprice) (all : list commodity) : ways -> Prop :=
  | s_first : searched prices all (first_ways prices)
  | s_next W from to : searched prices all W -> In from all -> from <> to -> searched prices all (snd (find_conversion (S (List.length all)) W from to)).
Lemma searched_remembers prices all W : (forall c x, In x (priced_in prices c) -> In x all) -> searched prices all W -> remembers (priced_in prices) W.
Proof.
  intros H. induction 1 as [|W from to _ IH Hf Hn]; [apply first_remembers|].
  apply (find_spec (priced_in prices) all W from to (S (List.length all)) Hn IH H Hf). lia.
Qed.
(** Whatever was searched before, a conversion is found exactly if there is a chain of prices, it is a shortest chain, and the same one as
    before any search. *)
Theorem C101_shortest_chain : forall prices all W from to, (forall c x, In x (priced_in prices c) -> In x all) -> In from all -> from <> to ->
  searched prices all W ->
  match fst (find_conversion (S (List.length all)) W from to) with
  | Some w => chain (priced_in prices) from to w /\ forall w', chain (priced_in prices) from to w' -> (List.length w <= List.length w')%nat
  | None => forall w, ~ chain (priced_in prices) from to w
  end.
Proof.
  intros prices all W from to H Hf Hn S. apply (searched_remembers _ _ _ H) in S.
  apply (find_spec (priced_in prices) all W from to (Datatypes.S (List.length all)) Hn S H Hf). lia.
Qed.
Theorem C101_no_history : forall prices all W from to, (forall c x, In x (priced_in prices c) -> In x all) -> searched prices all W ->
  fst (find_conversion (S (List.length all)) W from to) = fst (find_conversion (S (List.length all)) (first_ways prices) from to).
Proof.
  intros prices all W from to H S. apply (searched_remembers _ _ _ H) in S. apply (find_history (priced_in prices)); [exact S|apply first_remembers].
Qed.
Definition w_a := mkCommodity 0 (B "A") 2. Definition w_b := mkCommodity 1 (B "B") 2. Definition w_c := mkCommodity 2 (B "C") 2. Definition w_d := mkCommodity 3 (B "D") 2.
Definition w_prices (x : commodity) : list wprice :=
  if eq_commodity x w_a then [mkWprice 10 (mkAmount 1 w_b)] else if eq_commodity x w_b then [mkWprice 10 (mkAmount 1 w_a); mkWprice 5 (mkAmount 2 w_c)]
  else if eq_commodity x w_c then [mkWprice 5 (mkAmount 5 w_b); mkWprice 7 (mkAmount 3 w_d)] else [].
Example C101_example : (forall c x, In x (priced_in w_prices c) -> In x [w_a; w_b; w_c; w_d]) /\
  fst (find_conversion 5 (first_ways w_prices) w_a w_d) = Some [w_a; w_b; w_c; w_d] /\
  way_to w_d (snd (find_conversion 5 (first_ways w_prices) w_a w_d) w_b) = Some [w_b; w_c; w_d] /\
  fst (find_conversion 5 (snd (find_conversion 5 (first_ways w_prices) w_a w_d)) w_d w_a) = None.
Proof.
  split; [|vm_compute; auto]. intros c x I. apply C101_priced_in in I as (p & I & <-). unfold w_prices in I.
  destruct (eq_commodity c w_a); [|destruct (eq_commodity c w_b); [|destruct (eq_commodity c w_c)]]; cbn in I; intuition; subst; cbn; auto.
Qed.

Print Assumptions C97_exported_amounts_partial.
Print Assumptions C98_displayed_amount.
Print Assumptions C99_conversion_rounds_half_up_partial.
Print Assumptions C100_price_near_the_day_partial.
Print Assumptions C101_shortest_chain.
