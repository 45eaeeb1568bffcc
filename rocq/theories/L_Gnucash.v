(** Lemmas about M_Gnucash: numbers, times, names. *)
From Coq Require Import Permutation Sorted.
From Verif Require Import Base M_Amount M_Regex M_Date M_Parser M_Names M_Ledger S_Books S_Decimal S_Amount S_Date S_DateText L_Dec L_Amount L_Date L_Sort L_Names
  L_Report L_Resolve L_Csv2 M_Gnucash S_Gnucash.

(** ** numbers *)
Lemma dtext_no_slash ds : digits_ok ds -> ~ In "/"%char (dtext ds).
Proof.
  intros H I. apply in_map_iff in I as (d & E & I). pose proof (proj1 (Forall_forall _ _) H d I) as R.
  pose proof (digit_char_is_digit d R) as F. rewrite E in F. discriminate F.
Qed.
Lemma set_string_signed junk (neg : bool) ds : digits_ok ds -> ds <> [] -> set_string junk ((if neg then B "-" else []) ++ dtext ds) = signed neg (num ds).
Proof.
  intros H N. unfold set_string.
  assert (E : split_sign ((if neg then B "-" else []) ++ dtext ds) = (neg, dtext ds)).
  { destruct neg; [reflexivity|]. destruct ds as [|d ds]; [easy|]. inversion H as [|? ? Hd Hr]; subst. cbn [app dtext map]. unfold split_sign.
    pose proof (digit_char_is_digit d Hd) as F. destruct (eqc (digit_char d) "-"%char) eqn:E1; [apply eqc_eq in E1; rewrite E1 in F; discriminate F|].
    destruct (eqc (digit_char d) "+"%char) eqn:E2; [apply eqc_eq in E2; rewrite E2 in F; discriminate F|]. reflexivity. }
  rewrite E. cbn [fst snd]. rewrite (map_digits_is_digit ds H : forallb is_digit (dtext ds) = true). unfold dtext at 1. rewrite map_length.
  destruct ds as [|d ds]; [easy|]. cbn [List.length Nat.eqb negb andb]. unfold dtext. rewrite digits_val_num by exact H. reflexivity.
Qed.
Lemma fraction_split f n d : fraction f n d -> exists a b, split_on "/"%char f = [a; b] /\ forall junk, set_string junk a = n /\ set_string junk b = d.
Proof.
  intros (neg & a & b & Ha & Na & Hb & Nb & -> & -> & ->). exists ((if neg then B "-" else []) ++ dtext a), (dtext b). split.
  - replace ((if neg then B "-" else []) ++ dtext a ++ B "/" ++ dtext b) with (((if neg then B "-" else []) ++ dtext a) ++ "/"%char :: dtext b) by (rewrite <- app_assoc; reflexivity).
    rewrite split_app, (split_none "/"%char (dtext b)) by (apply dtext_no_slash, Hb). rewrite split_none; [reflexivity|].
    intros I. apply in_app_iff in I as [I|I]; [destruct neg; [destruct I as [I|[]]; discriminate I|destruct I]|exact (dtext_no_slash a Ha I)].
  - intros junk. split; [apply set_string_signed; assumption|]. change (dtext b) with ((if false then B "-" else []) ++ dtext b). rewrite set_string_signed; auto.
Qed.
Lemma frac_floor n d c a : 0 < d -> new_amount_frac n d c = Ok a -> a_com a = c /\ largest_below n d a.
Proof.
  intros D H. unfold new_amount_frac in H.
  assert (P : exists p, p = 10 ^ Z.of_nat (c_dec c) /\ mkAmount (euclid_div (n * p) d) c = a).
  { exists (10 ^ Z.of_nat (c_dec c)). split; [reflexivity|]. destruct (0 <? c_dec c)%nat eqn:E.
    - destruct (big_pow10_cases (c_dec c)) as [[_ Hp]|[_ Hp]]; rewrite Hp in H; cbn [bind] in H; [|discriminate].
      replace (d =? 0) with false in H by lia. injection H as <-. reflexivity.
    - replace (c_dec c) with O by lia. cbn [bind] in H. replace (d =? 0) with false in H by lia. injection H as <-.
      change (10 ^ Z.of_nat 0) with 1. rewrite Z.mul_1_r. reflexivity. }
  destruct P as (p & -> & <-). split; [reflexivity|]. unfold largest_below. cbn [a_int a_com]. unfold euclid_div. replace (d <? 0) with false by lia.
  set (x := n * 10 ^ Z.of_nat (c_dec c)). clearbody x. pose proof (Z.mul_div_le x d D). pose proof (Z.mul_succ_div_gt x d D). lia.
Qed.
Lemma frac_total n d c : 0 < d -> (c_dec c <= 50)%nat -> exists a, new_amount_frac n d c = Ok a.
Proof.
  intros D H. unfold new_amount_frac. destruct (big_pow10_cases (c_dec c)) as [[_ Hp]|[Hc _]]; [|lia]. rewrite Hp. cbn [bind].
  destruct (0 <? c_dec c)%nat; cbn [bind]; replace (d =? 0) with false by lia; eauto.
Qed.
Lemma gnc_amount_com junk f c a : gnc_amount junk f c = Ok a -> a_com a = c /\ forall n d, fraction f n d -> 0 < d /\ largest_below n d a.
Proof.
  intros H. unfold gnc_amount in H. destruct (split_on "/"%char f) as [|x [|y [|]]] eqn:E; try discriminate.
  destruct (set_string junk y <=? 0) eqn:D; [discriminate|].
  assert (P : 0 < set_string junk y) by lia. destruct (frac_floor _ _ _ _ P H) as [C F]. split; [exact C|].
  intros n d Fr. destruct (fraction_split _ _ _ Fr) as (x' & y' & E' & S). rewrite E in E'. injection E' as <- <-. destruct (S junk) as [S1 S2].
  rewrite S1, S2 in F. rewrite S2 in P. split; [lia|exact F].
Qed.
Lemma gnc_amount_total junk f n d c : fraction f n d -> 0 < d -> (c_dec c <= 50)%nat -> exists a, gnc_amount junk f c = Ok a.
Proof.
  intros Fr D C. unfold gnc_amount. destruct (fraction_split _ _ _ Fr) as (x & y & E & S). rewrite E. destruct (S junk) as [-> ->].
  replace (d <=? 0) with false by lia. apply frac_total; assumption.
Qed.

(** ** times *)
Lemma two_dd n c1 c2 : is_digit c1 = true -> is_digit c2 = true -> two c1 c2 = n -> [c1; c2] = dd n /\ 0 <= n <= 99.
Proof.
  intros H1 H2 <-. pose proof (is_digit_val c1 H1). pose proof (is_digit_val c2 H2). unfold two, dd, dtext. cbn [map]. split; [|lia].
  replace ((10 * digit_val c1 + digit_val c2) / 10) with (digit_val c1) by lia.
  replace ((10 * digit_val c1 + digit_val c2) mod 10) with (digit_val c2) by lia.
  rewrite !is_digit_char by assumption. reflexivity.
Qed.
Lemma dd_two n : 0 <= n <= 99 -> exists c1 c2, dd n = [c1; c2] /\ is_digit c1 = true /\ is_digit c2 = true /\ two c1 c2 = n.
Proof.
  intros H. exists (digit_char (n / 10)), (digit_char (n mod 10)). split; [reflexivity|]. unfold two.
  rewrite !digit_char_is_digit, !digit_char_val by lia. repeat split. lia.
Qed.
Lemma dddd_two n : 0 <= n <= 9999 -> dddd n = dd (n / 100) ++ dd (n mod 100).
Proof.
  intros H. unfold dddd, dd, dtext. cbn [map app].
  replace (n / 100 / 10) with (n / 1000) by lia. replace (n mod 100 / 10) with (n / 10 mod 10) by lia. replace ((n mod 100) mod 10) with (n mod 10) by lia. reflexivity.
Qed.
Lemma month_days_tbl y m : 1 <= m <= 12 -> days_before m - days_before (m - 1) + (if is_leap y && (m =? 2) then 1 else 0) = month_days y m.
Proof.
  intros H. assert (L : is_leap y = leapb y) by (unfold is_leap, leapb; lia). rewrite L. unfold month_days.
  assert (D : m=1\/m=2\/m=3\/m=4\/m=5\/m=6\/m=7\/m=8\/m=9\/m=10\/m=11\/m=12) by lia.
  repeat (destruct D as [->|D]; [destruct (leapb y); reflexivity|]). subst m. destruct (leapb y); reflexivity.
Qed.
Lemma dash_colon h1 h2 b1 c1 c2 b2 : eqb_bytes [h1; h2; b1; c1; c2; b2] (B "-- :: ") = true ->
  h1 = "-"%char /\ h2 = "-"%char /\ b1 = " "%char /\ c1 = ":"%char /\ c2 = ":"%char /\ b2 = " "%char.
Proof. intros H. apply eqb_bytes_eq in H. change (B "-- :: ") with ["-"%char; "-"%char; " "%char; ":"%char; ":"%char; " "%char] in H. injection H; intros; subst. repeat split. Qed.
Lemma stamp_sound s t : parse_stamp s = Ok t -> written_at s t.
Proof.
  intros H. unfold parse_stamp in H.
  destruct s as [|y1 [|y2 [|y3 [|y4 [|h1 [|m1 [|m2 [|h2 [|d1 [|d2 [|b1 [|H1 [|H2 [|c1 [|M1 [|M2 [|c2 [|S1 [|S2 [|b2 [|sg [|z1 [|z2 [|z3 [|z4 [|]]]]]]]]]]]]]]]]]]]]]]]]]]; try discriminate.
  cbn zeta in H.
  match type of H with (if ?b then _ else _) = _ => destruct b eqn:E; [|discriminate] end.
  rewrite !andb_true_iff in E. destruct E as [[[[[[[[[[[ED EP] ES] E1] E2] E3] E4] E5] E6] E7] E8] E9].
  cbn [forallb] in ED. rewrite !andb_true_iff in ED.
  destruct ED as (Y1 & Y2 & Y3 & Y4 & MM1 & MM2 & D1 & D2 & HH1 & HH2 & MI1 & MI2 & SS1 & SS2 & Z1 & Z2 & Z3 & Z4 & _).
  apply dash_colon in EP as (-> & -> & -> & -> & -> & ->).
  set (y := 100 * two y1 y2 + two y3 y4) in *.
  destruct (two_dd _ y1 y2 Y1 Y2 eq_refl) as [Ty Ry]. destruct (two_dd _ y3 y4 Y3 Y4 eq_refl) as [Ty' Ry'].
  destruct (two_dd _ m1 m2 MM1 MM2 eq_refl) as [Tm Rm]. destruct (two_dd _ d1 d2 D1 D2 eq_refl) as [Td Rd].
  destruct (two_dd _ H1 H2 HH1 HH2 eq_refl) as [Th Rh]. destruct (two_dd _ M1 M2 MI1 MI2 eq_refl) as [Tmi Rmi].
  destruct (two_dd _ S1 S2 SS1 SS2 eq_refl) as [Ts Rs]. destruct (two_dd _ z1 z2 Z1 Z2 eq_refl) as [Tz Rz]. destruct (two_dd _ z3 z4 Z3 Z4 eq_refl) as [Tz' Rz'].
  assert (Hm : 1 <= two m1 m2 <= 12) by lia. rewrite (month_days_tbl y _ Hm) in E4.
  exists (mkMoment y (two m1 m2) (two d1 d2) (two H1 H2) (two M1 M2) (two S1 S2) (eqc sg "-"%char) (two z1 z2) (two z3 z4)).
  assert (Ey : dddd y = dd (two y1 y2) ++ dd (two y3 y4)).
  { rewrite dddd_two by (subst y; lia). f_equal; f_equal; subst y; lia. }
  apply (f_equal (fun r => match r with Ok x => x | _ => t end)) in H. cbv beta iota in H. subst t. split; [|split; [|split]].
  - unfold moment_ok, valid_date. cbn. repeat split; try lia.
  - unfold moment_text. cbn [mo_y mo_m mo_d mo_h mo_min mo_s mo_neg mo_zh mo_zm]. rewrite Ey, <- Ty, <- Ty', <- Tm, <- Td, <- Th, <- Tmi, <- Ts, <- Tz, <- Tz'.
    apply orb_true_iff in ES as [ES|ES]; apply eqc_eq in ES; subst sg; reflexivity.
  - reflexivity.
  - unfold instant, moment_second. cbn [st_day st_secs st_off mo_h mo_min mo_s mo_neg mo_zh mo_zm]. unfold moment_day. cbn [mo_y mo_m mo_d].
    generalize (go_date y (two m1 m2) (two d1 d2)). intros g. unfold signed. clear -g. destruct (eqc sg "-"%char); lia.
Qed.
Lemma stamp_complete m : moment_ok m -> exists t, parse_stamp (moment_text m) = Ok t.
Proof.
  intros (Hy & [Hm Hd] & Hh & Hmi & Hs & Hz & Hz'). unfold moment_text. pose proof (dddd_two _ Hy) as ->.
  destruct m as [y m d h mi s neg zh zm]. cbn [mo_y mo_m mo_d mo_h mo_min mo_s mo_neg mo_zh mo_zm] in *.
  pose proof (month_days_range y m) as Hr.
  destruct (dd_two (y / 100)) as (y1 & y2 & -> & Y1 & Y2 & Ty); [lia|]. destruct (dd_two (y mod 100)) as (y3 & y4 & -> & Y3 & Y4 & Ty'); [lia|].
  destruct (dd_two m) as (m1 & m2 & -> & M1 & M2 & Tm); [lia|]. destruct (dd_two d) as (d1 & d2 & -> & D1 & D2 & Td); [lia|].
  destruct (dd_two h) as (h1 & h2 & -> & H1 & H2 & Th); [lia|]. destruct (dd_two mi) as (i1 & i2 & -> & I1 & I2 & Ti); [lia|].
  destruct (dd_two s) as (s1 & s2 & -> & S1 & S2 & Ts); [lia|]. destruct (dd_two zh) as (z1 & z2 & -> & Z1 & Z2 & Tz); [lia|].
  destruct (dd_two zm) as (z3 & z4 & -> & Z3 & Z4 & Tz'); [lia|].
  assert (G : forall sg, (eqc sg "-"%char || eqc sg "+"%char) = true -> exists t, parse_stamp ([y1; y2] ++ [y3; y4] ++ B "-" ++ [m1; m2] ++ B "-" ++ [d1; d2] ++ B " " ++ [h1; h2] ++ B ":" ++ [i1; i2] ++ B ":" ++ [s1; s2] ++ B " " ++ [sg] ++ [z1; z2] ++ [z3; z4]) = Ok t).
  2:{ rewrite <- app_assoc. destruct neg; [apply (G "-"%char)|apply (G "+"%char)]; reflexivity. }
  intros sg Hsg.
  cbn [app B list_ascii_of_string]. unfold parse_stamp. cbn zeta. rewrite Ty, Ty', Tm, Td, Th, Ti, Ts, Tz, Tz'.
  replace (100 * (y / 100) + y mod 100) with y by lia. rewrite (month_days_tbl y m Hm).
  cbn [forallb]. rewrite Y1, Y2, Y3, Y4, M1, M2, D1, D2, H1, H2, I1, I2, S1, S2, Z1, Z2, Z3, Z4.
  replace (eqb_bytes ["-"%char; "-"%char; " "%char; ":"%char; ":"%char; " "%char] (B "-- :: ")) with true by reflexivity.
  rewrite Hsg.
  replace (1 <=? m) with true by lia. replace (m <=? 12) with true by lia. replace (1 <=? d) with true by lia.
  replace (d <=? month_days y m) with true by lia. replace (h <? 24) with true by lia. replace (mi <? 60) with true by lia.
  replace (s <? 60) with true by lia. replace (zh <=? 24) with true by lia. replace (zm <=? 60) with true by lia.
  cbn [andb]. eauto.
Qed.
