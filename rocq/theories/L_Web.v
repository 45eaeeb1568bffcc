(** Lemmas: the page's amounts. *)
From Coq Require Import Permutation.
From Verif Require Import Base M_Amount S_Decimal S_Amount L_Dec L_Amount L_Csv2 M_Web.
Local Open Scope Z_scope.

(** ** digits *)
Lemma digits_split n d : (0 < d)%nat -> 10 ^ Z.of_nat d <= n ->
  digits_of n = digits_of (n / 10 ^ Z.of_nat d) ++ padded_digits d (n mod 10 ^ Z.of_nat d).
Proof.
  intros Hd Hn. pose proof (pow10_pos d) as P.
  assert (Hq : 0 < n / 10 ^ Z.of_nat d) by (apply Z.div_str_pos; lia).
  pose proof (Z.mod_pos_bound n (10 ^ Z.of_nat d) P) as Hr.
  set (q := n / 10 ^ Z.of_nat d) in *. set (r := n mod 10 ^ Z.of_nat d) in *.
  assert (En : n = q * 10 ^ Z.of_nat d + r) by (unfold q, r; pose proof (Z.div_mod n (10 ^ Z.of_nat d) ltac:(lia)); lia).
  clearbody q r. apply num_len_inj.
  - apply digits_of_ok.
  - apply digits_ok_app. split; [apply digits_of_ok|apply padded_digits_ok].
  - rewrite app_length, padded_digits_length by auto.
    destruct (digits_of_length q Hq) as [Lq Uq].
    assert (NE : List.length (digits_of q) <> 0%nat) by (intros E; apply length_zero_iff_nil in E; exact (digits_of_nonempty q E)).
    destruct (List.length (digits_of q)) as [|k] eqn:Ek; [congruence|]. clear NE.
    replace (S k + d)%nat with (S (k + d)) by lia. apply digits_of_length_unique; [lia|].
    replace (Z.of_nat (S k) - 1) with (Z.of_nat k) in Lq by lia.
    rewrite pow10_S, pow10_add. rewrite pow10_S in Uq. pose proof (pow10_pos k). nia.
  - rewrite num_app, padded_digits_length, padded_digits_num, !num_digits_of by lia. exact En.
Qed.
Lemma digits_short n d : (0 < d)%nat -> 0 <= n < 10 ^ Z.of_nat d -> (List.length (digits_of n) <= d)%nat.
Proof. intros Hd H. pose proof (padded_digits_length d n H Hd) as L. unfold padded_digits in L. rewrite app_length in L. lia. Qed.
Lemma digits_long n d : 10 ^ Z.of_nat d <= n -> (d < List.length (digits_of n))%nat.
Proof.
  intros H. pose proof (pow10_pos d). destruct (digits_of_length n ltac:(lia)) as [_ U].
  assert (Z.of_nat d < Z.of_nat (List.length (digits_of n))) by (apply (Z.pow_lt_mono_r_iff 10); lia). lia.
Qed.

(** the text of the whole part and of the rest *)
Definition whole_text (a : amount) : bytes := print_nat (Z.abs (a_int a) / 10 ^ Z.of_nat (a_dec a)).
Definition rest_text (a : amount) : bytes :=
  match a_dec a with O => [] | d => B "." ++ map digit_char (padded_digits d (Z.abs (a_int a) mod 10 ^ Z.of_nat d)) end.
Definition grouped (sep : bool) (a : amount) (s : bytes) : bytes :=
  if sep && (0 <? a_dec a)%nat then join (B ",") (triplets s) else s.

Lemma triplets_nonempty s : s <> [] -> exists c r, join (B ",") (triplets s) = c :: r /\ In c s.
Proof.
  unfold triplets. intros H. assert (Hr : rev s <> []) by (intros E; apply (f_equal (@rev ascii)) in E; rewrite rev_involutive in E; cbn in E; auto).
  assert (G : forall n (l : bytes), (List.length l <= n)%nat -> l <> [] -> exists c r, join (B ",") (triplets_rev l) = c :: r /\ In c l).
  { induction n as [|n IH]; intros l L N; [destruct l; [congruence|cbn in L; lia]|].
    destruct l as [|a [|b [|c r]]]; [congruence| | |].
    - exists a, []. cbn. auto.
    - exists b, [a]. cbn. auto.
    - cbn [triplets_rev]. destruct r as [|x r]; [exists c, [b; a]; cbn; auto|].
      destruct (IH (x :: r)) as (c' & r' & E & I); [cbn [List.length] in *; lia|discriminate|].
      destruct (triplets_rev (x :: r)) as [|t ts] eqn:ET; [discriminate E|].
      exists c'. destruct ts as [|t' ts].
      + cbn [app join]. cbn [join] in E. rewrite E. eexists. cbn [app]. split; [reflexivity|]. cbn [In] in *. tauto.
      + cbn [app join] in *. destruct t as [|c0 t]; cbn [app] in *.
        * injection E as <- <-. eexists. split; [reflexivity|]. cbn [In] in *. tauto.
        * injection E as <- <-. eexists. split; [reflexivity|]. cbn [In] in *. tauto. }
  destruct (G _ (rev s) (le_n _) Hr) as (c & r & E & I). exists c, r. split; [exact E|]. apply in_rev in I. exact I.
Qed.
Lemma print_is_digit n c : In c (print_nat n) -> is_digit c = true.
Proof.
  rewrite print_nat_digits. intros H. apply in_map_iff in H as (d & <- & I). apply digit_char_is_digit.
  pose proof (digits_of_ok n) as D. unfold digits_ok in D. rewrite Forall_forall in D. apply (D d I).
Qed.
Lemma print_nonempty n : print_nat n <> [].
Proof. rewrite print_nat_digits. intros E. apply map_eq_nil in E. exact (digits_of_nonempty n E). Qed.

Lemma web_string_text sep a : web_string sep a =
  (if a_int a <? 0 then B "-" else []) ++ grouped sep a (whole_text a) ++ rest_text a ++ B " " ++ c_id (a_com a).
Proof.
  unfold web_string, grouped, whole_text, rest_text. f_equal. set (n := Z.abs (a_int a)). assert (Hn : 0 <= n) by (unfold n; lia). clearbody n.
  destruct (a_dec a) as [|k] eqn:Ed.
  { change (0 <? 0)%nat with false. rewrite andb_false_r. change (10 ^ Z.of_nat 0) with 1. rewrite Z.div_1_r. cbn [app]. reflexivity. }
  set (d := S k) in *. assert (Hd : (0 < d)%nat) by (unfold d; lia). clearbody d. clear Ed k.
  replace (0 <? d)%nat with true by lia. rewrite andb_true_r.
  replace (match d with O => [] | S _ => B "." ++ map digit_char (padded_digits d (n mod 10 ^ Z.of_nat d)) end)
    with (B "." ++ map digit_char (padded_digits d (n mod 10 ^ Z.of_nat d))) by (destruct d; [lia|reflexivity]).
  pose proof (pow10_pos d) as P. rewrite !print_nat_digits. rewrite map_length.
  assert (EQ : (let str := if (List.length (digits_of n) <? d)%nat then rep "0"%char (d - List.length (digits_of n) + 1) ++ map digit_char (digits_of n) else map digit_char (digits_of n) in
     let k := (List.length str - d)%nat in
     (firstn k str = [] /\ n / 10 ^ Z.of_nat d = 0 \/ firstn k str = map digit_char (digits_of (n / 10 ^ Z.of_nat d)))
     /\ skipn k str = map digit_char (padded_digits d (n mod 10 ^ Z.of_nat d)))).
  { destruct (Z_lt_ge_dec n (10 ^ Z.of_nat d)) as [L|G].
    - assert (Q0 : n / 10 ^ Z.of_nat d = 0) by (apply Z.div_small; lia). rewrite Q0, Z.mod_small by lia.
      pose proof (digits_short n d Hd (conj Hn L)) as LS. pose proof (padded_digits_length d n (conj Hn L) Hd) as LP.
      destruct (Nat.ltb_spec (List.length (digits_of n)) d) as [L1|L1]; cbn zeta.
      + rewrite app_length, map_length. unfold rep. rewrite repeat_length.
        replace (d - List.length (digits_of n) + 1 + List.length (digits_of n) - d)%nat with 1%nat by lia.
        replace (d - List.length (digits_of n) + 1)%nat with (S (d - List.length (digits_of n))) by lia. cbn [repeat app firstn skipn].
        split; [right; reflexivity|]. unfold padded_digits. rewrite map_app, map_repeat_zero. reflexivity.
      + rewrite map_length. replace (List.length (digits_of n) - d)%nat with 0%nat by lia. cbn [firstn skipn]. split; [left; auto|].
        unfold padded_digits. replace (d - List.length (digits_of n))%nat with 0%nat by lia. reflexivity.
    - pose proof (digits_long n d ltac:(lia)) as LL. replace (List.length (digits_of n) <? d)%nat with false by lia. cbn zeta.
      rewrite map_length. rewrite (digits_split n d Hd) at 2 4 6 by lia. rewrite map_app.
      assert (E : (List.length (digits_of n) - d)%nat = List.length (map digit_char (digits_of (n / 10 ^ Z.of_nat d)))).
      { rewrite (digits_split n d Hd) at 1 by lia. rewrite app_length, map_length, padded_digits_length; [lia| |exact Hd]. apply Z.mod_pos_bound; lia. }
      rewrite E, firstn_app, skipn_app, Nat.sub_diag, firstn_all, skipn_all. cbn [firstn skipn app]. rewrite app_nil_r. auto. }
  cbn zeta in EQ.
  match type of EQ with context [if ?b then ?x else ?y] => set (str := if b then x else y) in * end. clearbody str.
  set (k := (List.length str - d)%nat) in *. clearbody k.
  destruct EQ as [EF ES]. rewrite ES.
  assert (C0 : forall c r X, is_digit c = true -> match (c :: r) ++ X with [] => (c :: r) ++ X | x :: _ => if eqc x "."%char then "0"%char :: (c :: r) ++ X else (c :: r) ++ X end = (c :: r) ++ X).
  { intros c r X H. cbn [app]. destruct (eqc c ".") eqn:E; [|reflexivity]. apply eqc_eq in E. subst c. discriminate H. }
  set (rest := B "." ++ map digit_char (padded_digits d (n mod 10 ^ Z.of_nat d))) in *.
  destruct EF as [(-> & ->)| ->].
  - rewrite digits_of_0. change (map digit_char [0]) with (B "0"). unfold triplets. cbn [rev app triplets_rev join].
    replace (if sep then [] else []) with (@nil ascii) by (destruct sep; reflexivity). cbn [app].
    destruct sep; unfold rest; cbn; reflexivity.
  - rewrite <- print_nat_digits. pose proof (print_nonempty (n / 10 ^ Z.of_nat d)) as NE.
    pose proof (fun c H => print_is_digit (n / 10 ^ Z.of_nat d) c H) as DG. set (w := print_nat (n / 10 ^ Z.of_nat d)) in *. clearbody w.
    rewrite app_assoc with (l := if sep then _ else _) || idtac.
    destruct sep.
    + destruct (triplets_nonempty w NE) as (c & r & E & I). rewrite E. fold rest. rewrite C0 by (apply DG, I). rewrite <- app_assoc. reflexivity.
    + destruct w as [|c w]; [congruence|]. fold rest. rewrite C0 by (apply DG; left; reflexivity). rewrite <- app_assoc. reflexivity.
Qed.

(** ** the groups of three *)
Lemma triplets_rev_spec : forall n (l : bytes), (List.length l <= n)%nat ->
  concat (triplets_rev l) = rev l /\ match triplets_rev l with
     | [] => l = []
     | g :: r => (1 <= List.length g <= 3)%nat /\ Forall (fun x => List.length x = 3%nat) r end.
Proof.
  induction n as [|n IH]; intros l L.
  - destruct l; [|cbn in L; lia]. cbn. auto.
  - destruct l as [|a [|b [|c r]]]; try (cbn; repeat split; auto; fail).
    cbn [triplets_rev]. destruct (IH r) as [E G]; [cbn [List.length] in L; lia|].
    rewrite concat_app, E. cbn [rev concat app]. rewrite <- !app_assoc. cbn [app]. split; [reflexivity|].
    destruct (triplets_rev r) as [|g gs]; cbn [app].
    + cbn. split; [lia|constructor].
    + split; [apply G|]. apply Forall_app. split; [apply G|]. repeat constructor.
Qed.
Lemma triplets_spec s : concat (triplets s) = s /\ match triplets s with
     | [] => s = []
     | g :: r => (1 <= List.length g <= 3)%nat /\ Forall (fun x => List.length x = 3%nat) r end.
Proof.
  unfold triplets. destruct (triplets_rev_spec _ (rev s) (le_n _)) as [E G]. rewrite rev_involutive in E. split; [exact E|].
  destruct (triplets_rev (rev s)); [|exact G]. apply (f_equal (@rev ascii)) in G. rewrite rev_involutive in G. exact G.
Qed.
Lemma triplets_count s : List.length s = match triplets s with [] => 0 | g :: r => List.length g + 3 * List.length r end%nat.
Proof.
  destruct (triplets_spec s) as [E G]. rewrite <- E at 1. destruct (triplets s) as [|g r]; [reflexivity|]. cbn [concat]. rewrite app_length. f_equal.
  destruct G as [_ G]. clear E. induction r as [|x r IH]; [reflexivity|]. inversion G; subst. cbn [concat List.length]. rewrite app_length, IH by assumption. lia.
Qed.

(** ** reading *)
Lemma remove_first_none c s : (forall x, In x s -> x <> c) -> remove_first c s = s.
Proof.
  induction s as [|x s IH]; intros H; [reflexivity|]. cbn [remove_first]. destruct (eqc x c) eqn:E; [apply eqc_eq in E; elim (H x); [left|]; auto|].
  rewrite IH; [reflexivity|]. intros y Hy. apply H. right. exact Hy.
Qed.
Lemma remove_first_app c a b : (forall x, In x a -> x <> c) -> remove_first c (a ++ c :: b) = a ++ b.
Proof.
  induction a as [|x a IH]; intros H; cbn [app remove_first].
  - rewrite eqc_refl. reflexivity.
  - destruct (eqc x c) eqn:E; [apply eqc_eq in E; elim (H x); [left|]; auto|]. f_equal. apply IH. intros y Hy. apply H. right. exact Hy.
Qed.
Lemma take_digits_all s : forallb is_digit s = true -> take_digits s = s.
Proof. induction s as [|c s IH]; cbn [forallb take_digits]; [reflexivity|]. intros H. apply andb_true_iff in H as [-> H]. rewrite IH; auto. Qed.
Lemma parse_js_digits (neg : bool) ds : digits_ok ds -> ds <> [] ->
  parse_js_int ((if neg then B "-" else []) ++ map digit_char ds) = Some (if neg then - num ds else num ds).
Proof.
  intros O N. unfold parse_js_int.
  assert (E : split_sign ((if neg then B "-" else []) ++ map digit_char ds) = (neg, map digit_char ds)).
  { destruct neg; [reflexivity|]. destruct ds as [|d ds]; [congruence|]. cbn [app map split_sign]. inversion O; subst.
    pose proof (digit_char_is_digit d ltac:(assumption)) as D.
    destruct (eqc (digit_char d) "-") eqn:E1; [apply eqc_eq in E1; rewrite E1 in D; discriminate|].
    destruct (eqc (digit_char d) "+") eqn:E2; [apply eqc_eq in E2; rewrite E2 in D; discriminate|]. reflexivity. }
  rewrite E, take_digits_all by (apply map_digits_is_digit, O). destruct ds as [|d ds]; [congruence|]. cbn [map]. 
  change (digit_char d :: map digit_char ds) with (map digit_char (d :: ds)). rewrite digits_val_num by exact O. reflexivity.
Qed.
Lemma to_num_exact z : Z.abs z <= 2 ^ 53 -> to_num z = z.
Proof. intros H. unfold to_num. replace (Z.abs z <=? 2 ^ 53) with true by lia. reflexivity. Qed.
Lemma digit_neq c x : is_digit c = true -> is_digit x = false -> c <> x.
Proof. intros H1 H2 ->. congruence. Qed.
Lemma signed_digit_neq (neg : bool) ds x : digits_ok ds -> is_digit x = false -> x <> "-"%char ->
  forall c, In c ((if neg then B "-" else []) ++ map digit_char ds) -> c <> x.
Proof.
  intros O H Hx c I. apply in_app_or in I as [I|I].
  - destruct neg; [|destruct I]. cbn in I. destruct I as [<-|[]]. congruence.
  - apply in_map_iff in I as (d & <- & I). unfold digits_ok in O. rewrite Forall_forall in O. apply digit_neq; [apply digit_char_is_digit, O, I|exact H].
Qed.
Definition no_space (s : bytes) : Prop := forall c, In c s -> c <> " "%char.

(** the number as it is once the text is split *)
Definition page_int (sep : bool) (a : amount) : bytes := (if a_int a <? 0 then B "-" else []) ++ grouped sep a (whole_text a).
Lemma group_chars a sep c : In c (grouped sep a (whole_text a)) -> is_digit c = true \/ c = ","%char.
Proof.
  unfold grouped. destruct (sep && _) eqn:E.
  - intros I. assert (G : forall l : list bytes, In c (join (B ",") l) -> In c (concat l) \/ c = ","%char).
    { induction l as [|x [|y l] IH]; [auto|cbn; rewrite app_nil_r; auto|]. change (join (B ",") (x :: y :: l)) with (x ++ B "," ++ join (B ",") (y :: l)).
      cbn [concat]. intros J. apply in_app_or in J as [J|J]; [left; apply in_or_app; auto|]. cbn [B list_ascii_of_string app] in J. destruct J as [<-|J]; [auto|].
      destruct (IH J) as [K|K]; [left; apply in_or_app; right; exact K|auto]. }
    apply G in I as [I| ->]; [|auto]. rewrite (proj1 (triplets_spec _)) in I. left. apply (print_is_digit _ _ I).
  - intros I. left. apply (print_is_digit _ _ I).
Qed.
Lemma page_chars sep a x : is_digit x = false -> x <> "-"%char -> x <> ","%char -> forall c, In c (page_int sep a) -> c <> x.
Proof.
  intros H1 H2 H3 c I. unfold page_int in I. apply in_app_or in I as [I|I].
  - destruct (a_int a <? 0); [|destruct I]. cbn in I. destruct I as [<-|[]]. congruence.
  - apply group_chars in I as [I| ->]; [apply digit_neq; auto|congruence].
Qed.
Lemma rest_chars a x : is_digit x = false -> x <> "."%char -> forall c, In c (rest_text a) -> c <> x.
Proof.
  intros H1 H2 c I. unfold rest_text in I. destruct (a_dec a) as [|k]; [destruct I|]. cbn [B list_ascii_of_string app] in I. destruct I as [<-|I]; [congruence|].
  apply digit_neq; [|exact H1]. pose proof (map_digits_is_digit _ (padded_digits_ok (S k) (Z.abs (a_int a) mod 10 ^ Z.of_nat (S k)))) as D.
  rewrite forallb_forall in D. apply D, I.
Qed.

Lemma ungroup sep a : (sep = false \/ a_dec a = 0%nat \/ Z.abs (a_int a) < 10 ^ Z.of_nat (6 + a_dec a)) ->
  (if (0 <? a_dec a)%nat then remove_first ","%char (page_int sep a) else page_int sep a) = (if a_int a <? 0 then B "-" else []) ++ whole_text a.
Proof.
  intros H. unfold page_int, grouped. destruct (0 <? a_dec a)%nat eqn:Ed; [|rewrite andb_false_r; reflexivity]. rewrite andb_true_r.
  assert (NC : forall c, In c (whole_text a) -> c <> ","%char) by (intros c I; apply digit_neq; [apply (print_is_digit _ _ I)|reflexivity]).
  assert (NS : forall c, In c (if a_int a <? 0 then B "-" else []) -> c <> ","%char).
  { intros c I. destruct (a_int a <? 0); [|destruct I]. cbn in I. destruct I as [<-|[]]. discriminate. }
  destruct sep; [|apply remove_first_none; intros c I; apply in_app_or in I as [I|I]; auto].
  destruct H as [H|[H|H]]; [discriminate|rewrite H in Ed; discriminate|].
  assert (LW : (List.length (whole_text a) <= 6)%nat).
  { unfold whole_text. rewrite print_nat_digits, map_length. apply digits_short; [lia|]. pose proof (pow10_pos (a_dec a)).
    split; [apply Z.div_pos; lia|]. apply Z.div_lt_upper_bound; [lia|]. rewrite Nat.add_comm, pow10_add in H. exact H. }
  pose proof (triplets_count (whole_text a)) as TC. destruct (triplets_spec (whole_text a)) as [E G].
  destruct (triplets (whole_text a)) as [|g1 [|g2 [|g3 gs]]].
  - cbn [join]. rewrite G. rewrite app_nil_r. apply remove_first_none, NS.
  - cbn [join]. cbn [concat] in E. rewrite app_nil_r in E. rewrite E. apply remove_first_none. intros c I; apply in_app_or in I as [I|I]; auto.
  - change (join (B ",") [g1; g2]) with (g1 ++ "," %char :: g2). cbn [concat] in E. rewrite app_nil_r in E. rewrite <- E. rewrite !app_assoc.
    apply remove_first_app. intros c I. apply in_app_or in I as [I|I]; [auto|]. apply NC. rewrite <- E. apply in_or_app. auto.
  - destruct G as [G _]. exfalso. rewrite TC in LW. cbn [List.length] in LW. lia.
Qed.

Lemma web_read find sep a : no_space (c_id (a_com a)) -> find (c_id (a_com a)) = Some (a_com a) ->
  (sep = false \/ a_dec a = 0%nat \/ Z.abs (a_int a) < 10 ^ Z.of_nat (6 + a_dec a)) ->
  web_parse find (web_string sep a) = Ok (mkAmount (to_num (a_int a)) (a_com a)).
Proof.
  intros Hs Hf Hr. rewrite web_string_text.
  replace ((if a_int a <? 0 then B "-" else []) ++ grouped sep a (whole_text a) ++ rest_text a ++ B " " ++ c_id (a_com a))
    with ((page_int sep a ++ rest_text a) ++ " "%char :: c_id (a_com a)) by (unfold page_int; rewrite <- !app_assoc; reflexivity).
  unfold web_parse. rewrite split_on_one.
  2:{ intros c I. apply in_app_or in I as [I|I]; [apply (page_chars sep a)|apply (rest_chars a)]; auto; discriminate. }
  rewrite (split_on_none " "%char) by exact Hs. rewrite Hf. fold (a_dec a).
  pose proof (ungroup sep a Hr) as U. pose proof (pow10_pos (a_dec a)) as P.
  assert (EN : a_int a = if a_int a <? 0 then - Z.abs (a_int a) else Z.abs (a_int a)) by (destruct (a_int a <? 0) eqn:?; lia).
  destruct (0 <? a_dec a)%nat eqn:Ed.
  - unfold rest_text. destruct (a_dec a) as [|k] eqn:Ek; [discriminate|]. rewrite <- Ek in *. clear k Ek.
    change (B "." ++ map digit_char ?x) with ("."%char :: map digit_char x).
    assert (Hm : 0 <= Z.abs (a_int a) mod 10 ^ Z.of_nat (a_dec a) < 10 ^ Z.of_nat (a_dec a)) by (apply Z.mod_pos_bound; exact P).
    assert (Hd : (0 < a_dec a)%nat) by lia.
    cbn [B list_ascii_of_string app]. rewrite split_on_one by (apply (page_chars sep a); [reflexivity|discriminate|discriminate]).
    rewrite split_on_none.
    2:{ intros c I. apply digit_neq; [|reflexivity]. pose proof (map_digits_is_digit _ (padded_digits_ok (a_dec a) (Z.abs (a_int a) mod 10 ^ Z.of_nat (a_dec a)))) as D.
        rewrite forallb_forall in D. apply D, I. }
    cbn [nth]. rewrite map_length, padded_digits_length by auto. rewrite Nat.ltb_irrefl, Nat.sub_diag. cbn [rep repeat]. rewrite app_nil_r. rewrite U.
    rewrite <- app_assoc. unfold whole_text. rewrite print_nat_digits, <- map_app. rewrite parse_js_digits.
    + rewrite num_app, padded_digits_length, padded_digits_num, num_digits_of by (auto; try lia; apply Z.div_pos; lia).
      f_equal. f_equal. f_equal. etransitivity; [|symmetry; exact EN]. pose proof (Z.div_mod (Z.abs (a_int a)) (10 ^ Z.of_nat (a_dec a)) ltac:(lia)).
      destruct (a_int a <? 0); lia.
    + apply digits_ok_app. split; [apply digits_of_ok|apply padded_digits_ok].
    + intros E. apply app_eq_nil in E as [E _]. exact (digits_of_nonempty _ E).
  - assert (E0 : a_dec a = 0%nat) by lia. unfold rest_text. rewrite E0, app_nil_r. rewrite split_on_none by (apply (page_chars sep a); [reflexivity|discriminate|discriminate]).
    cbn [nth]. rewrite U. unfold whole_text. rewrite print_nat_digits, parse_js_digits by (apply digits_of_ok || apply digits_of_nonempty).
    rewrite num_digits_of by (apply Z.div_pos; lia). rewrite E0. change (10 ^ Z.of_nat 0) with 1. rewrite Z.div_1_r. f_equal. f_equal. f_equal. symmetry. exact EN.
Qed.
Lemma marshal_text a : (a_dec a <= 50)%nat -> marshal_amount a = Ok (web_string false a).
Proof.
  intros H. unfold marshal_amount. rewrite format_ok by exact H. cbn [bind]. f_equal. rewrite web_string_text.
  unfold lit_text, fmt_literal. cbn [l_neg l_int l_frac]. rewrite round_units_own. unfold grouped, whole_text. rewrite andb_false_l, print_nat_digits, <- !app_assoc.
  f_equal. f_equal. f_equal. unfold rest_text. destruct (a_dec a) as [|k]; [reflexivity|].
  pose proof (padded_nonempty (S k) (Z.abs (a_int a) mod 10 ^ Z.of_nat (S k)) ltac:(lia)). destruct (padded_digits _ _); [congruence|reflexivity].
Qed.
