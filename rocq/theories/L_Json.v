(** Lemmas: JSON.parse of what was encoded. *)
From Verif Require Import Base M_Amount S_Decimal L_Dec M_Json.
Local Open Scope Z_scope.

Section Ind.
Variable P : json -> Prop.
Hypothesis Pnull : P JNull.
Hypothesis Pbool : forall b, P (JBool b).
Hypothesis Pnum : forall n, P (JNum n).
Hypothesis Pstr : forall s, P (JStr s).
Hypothesis Parr : forall l, Forall P l -> P (JArr l).
Hypothesis Pobj : forall l, Forall (fun kv => P (snd kv)) l -> P (JObj l).
Fixpoint json_deep (v : json) : P v :=
  match v with
  | JNull => Pnull | JBool b => Pbool b | JNum n => Pnum n | JStr s => Pstr s
  | JArr l => Parr l ((fix go l := match l return Forall P l with [] => Forall_nil _ | x :: r => Forall_cons x (json_deep x) (go r) end) l)
  | JObj l => Pobj l ((fix go l := match l return Forall (fun kv => P (snd kv)) l with [] => Forall_nil _ | x :: r => Forall_cons x (json_deep (snd x)) (go r) end) l)
  end.
End Ind.

(** ** strings *)
Lemma hex_unhex n : 0 <= n < 16 -> unhex (hex n) = Some n.
Proof.
  intros H. assert (n = 0 \/ n = 1 \/ n = 2 \/ n = 3 \/ n = 4 \/ n = 5 \/ n = 6 \/ n = 7 \/ n = 8 \/ n = 9 \/ n = 10 \/ n = 11 \/ n = 12 \/ n = 13 \/ n = 14 \/ n = 15) by lia.
  intuition subst; reflexivity.
Qed.
Lemma eqc_false a b : a <> b -> eqc a b = false.
Proof. intros H. destruct (eqc a b) eqn:E; [apply eqc_eq in E; congruence|reflexivity]. Qed.
Lemma escape_parse c r : parse_chars (escape_char c ++ r) = match parse_chars r with Some (t, z) => Some (c :: t, z) | None => None end.
Proof.
  unfold escape_char. destruct (eqc c quote) eqn:E1; [apply eqc_eq in E1; subst; reflexivity|].
  destruct (eqc c bslash) eqn:E2; [apply eqc_eq in E2; subst; reflexivity|]. cbn [orb].
  destruct (code c =? 8) eqn:X1. { replace c with (chr 8) by (apply Z.eqb_eq in X1; rewrite <- X1; apply chr_code). reflexivity. }
  destruct (code c =? 12) eqn:X2. { replace c with (chr 12) by (apply Z.eqb_eq in X2; rewrite <- X2; apply chr_code). reflexivity. }
  destruct (code c =? 10) eqn:X3. { replace c with (chr 10) by (apply Z.eqb_eq in X3; rewrite <- X3; apply chr_code). reflexivity. }
  destruct (code c =? 13) eqn:X4. { replace c with (chr 13) by (apply Z.eqb_eq in X4; rewrite <- X4; apply chr_code). reflexivity. }
  destruct (code c =? 9) eqn:X5. { replace c with (chr 9) by (apply Z.eqb_eq in X5; rewrite <- X5; apply chr_code). reflexivity. }
  destruct ((code c <? 32) || eqc c "<"%char || eqc c ">"%char || eqc c "&"%char) eqn:X6.
  - assert (R : 0 <= code c < 128).
    { pose proof (code_range c). rewrite !orb_true_iff in X6. destruct X6 as [[[X|X]|X]|X]; [lia|apply eqc_eq in X; subst; cbv; split; congruence|apply eqc_eq in X; subst; cbv; split; congruence|apply eqc_eq in X; subst; cbv; split; congruence]. }
    cbn [app parse_chars]. change (eqc bslash quote) with false. change (eqc bslash bslash) with true. cbv iota.
    change (eqc "u"%char quote || eqc "u"%char bslash || eqc "u"%char "/"%char) with false. 
    change (eqc "u"%char "b"%char) with false. change (eqc "u"%char "f"%char) with false. change (eqc "u"%char "n"%char) with false.
    change (eqc "u"%char "r"%char) with false. change (eqc "u"%char "t"%char) with false. change (eqc "u"%char "u"%char) with true. cbv iota.
    change (unhex "0"%char) with (Some 0). rewrite !hex_unhex; [|apply Z.mod_pos_bound; lia|split; [apply Z.div_pos; lia|apply Z.div_lt_upper_bound; lia]].
    replace ((0 =? 0) && (0 =? 0) && (code c / 16 <? 8)) with true by (symmetry; rewrite !andb_true_iff; repeat split; try reflexivity; apply Z.ltb_lt, Z.div_lt_upper_bound; lia).
    replace (16 * (code c / 16) + code c mod 16) with (code c) by (pose proof (Z.div_mod (code c) 16 ltac:(lia)); lia). rewrite chr_code. reflexivity.
  - cbn [app parse_chars]. rewrite E1, E2. rewrite !orb_false_iff in X6. destruct X6 as [[[-> _] _] _]. reflexivity.
Qed.
Lemma string_parse s r : parse_chars (flat_map escape_char s ++ quote :: r) = Some (s, r).
Proof. induction s as [|c s IH]; [reflexivity|]. cbn [flat_map]. rewrite <- app_assoc, escape_parse, IH. reflexivity. Qed.

(** ** blanks *)
Lemma skip_ws_app w s : forallb is_ws w = true -> skip_ws (w ++ s) = skip_ws s.
Proof. induction w as [|c w IH]; [reflexivity|]. cbn [forallb app skip_ws]. intros H. apply andb_true_iff in H as [-> H]. auto. Qed.
Lemma newline_ws d : forallb is_ws (newline_at d) = true.
Proof. unfold newline_at, rep. cbn [forallb]. change (is_ws nline) with true. cbn [andb]. induction d; [reflexivity|]. cbn [repeat forallb]. change (is_ws tab) with true. exact IHd. Qed.
Lemma print_int_first n : exists c r, print_int n = c :: r /\ (is_digit c = true \/ c = "-"%char).
Proof.
  unfold print_int. destruct (n <? 0); [eexists _, _; split; [reflexivity|auto]|].
  assert (D : forallb is_digit (print_nat n) = true) by (rewrite print_nat_digits; apply map_digits_is_digit, digits_of_ok).
  destruct (print_nat n) as [|c r] eqn:E; [rewrite print_nat_digits in E; apply map_eq_nil in E; elim (digits_of_nonempty n E)|].
  exists c, r. split; [reflexivity|]. left. cbn [forallb] in D. apply andb_true_iff in D. apply D.
Qed.
Lemma encode_first d v : exists c r, encode d v = c :: r /\ is_ws c = false /\ c <> "]"%char /\ c <> "}"%char.
Proof.
  destruct v as [|[]|n|s|[|x l]|[|x l]]; try (eexists _, _; split; [reflexivity|]; repeat split; try reflexivity; discriminate).
  destruct (print_int_first n) as (c & r & E & H). exists c, r. split; [exact E|].
  destruct H as [H| ->]; [|repeat split; try reflexivity; discriminate]. repeat split.
  - unfold is_ws. unfold is_digit in H. lia.
  - intros ->. discriminate.
  - intros ->. discriminate.
Qed.
Lemma skip_encode d v r : skip_ws (encode d v ++ r) = encode d v ++ r.
Proof. destruct (encode_first d v) as (c & t & -> & H & _). cbn [app skip_ws]. rewrite H. reflexivity. Qed.

(** ** numbers *)
Definition ends (rest : bytes) : Prop := match rest with [] => True | c :: _ => is_digit c = false end.
Lemma take_number_digits ds rest : forallb is_digit ds = true -> ends rest -> take_number (ds ++ rest) = (ds, rest).
Proof.
  induction ds as [|c ds IH]; intros H E.
  - cbn [app]. destruct rest as [|c rest]; [reflexivity|]. cbn in E. cbn [take_number]. rewrite E. reflexivity.
  - cbn [forallb] in H. apply andb_true_iff in H as [H1 H2]. cbn [app take_number]. rewrite H1, IH by assumption. reflexivity.
Qed.
Lemma number_parse n rest : ends rest -> parse_number (print_int n ++ rest) = Some (n, rest).
Proof.
  intros E. unfold parse_number, print_int.
  assert (G : forall m, 0 <= m -> take_number (print_nat m ++ rest) = (print_nat m, rest) /\ print_nat m <> [] /\ digits_val (print_nat m) = m /\ match print_nat m ++ rest with c :: _ => is_digit c = true | [] => False end).
  { intros m Hm. assert (D : forallb is_digit (print_nat m) = true) by (rewrite print_nat_digits; apply map_digits_is_digit, digits_of_ok).
    split; [apply take_number_digits; auto|]. split; [rewrite print_nat_digits; intros X; apply map_eq_nil in X; exact (digits_of_nonempty m X)|].
    split; [rewrite print_nat_digits, digits_val_num, num_digits_of; auto; apply digits_of_ok|].
    destruct (print_nat m) as [|c r] eqn:Er; [rewrite print_nat_digits in Er; apply map_eq_nil in Er; elim (digits_of_nonempty m Er)|]. cbn [app]. cbn [forallb] in D. apply andb_true_iff in D. apply D. }
  destruct (n <? 0) eqn:Hn.
  - cbn [app]. change (eqc "-"%char "-"%char) with true. cbv iota. destruct (G (- n) ltac:(lia)) as (G1 & G2 & G3 & _). rewrite G1, G3.
    destruct (print_nat (- n)); [congruence|]. f_equal. f_equal. lia.
  - destruct (G n ltac:(lia)) as (G1 & G2 & G3 & G4). destruct (print_nat n ++ rest) as [|c r] eqn:Er; [destruct G4|].
    rewrite (eqc_false c "-"%char) by (intros ->; discriminate). rewrite G1, G3. destruct (print_nat n); [congruence|]. reflexivity.
Qed.

(** ** values *)
Fixpoint need (v : json) : nat :=
  match v with
  | JArr l => S (fold_right (fun x n => S (need x + n)) 0%nat l)
  | JObj l => S (fold_right (fun x n => S (need (snd x) + n)) 0%nat l)
  | _ => 1%nat
  end.
Definition reads (v : json) : Prop := forall d f w rest, (need v <= f)%nat -> forallb is_ws w = true -> ends rest ->
  parse_value f (w ++ encode d v ++ rest) = Some (v, rest).

Definition encode_member (d : nat) (kv : bytes * json) : bytes := encode_string (fst kv) ++ B ": " ++ encode d (snd kv).
Lemma ws_ends w r : forallb is_ws w = true -> w <> [] -> ends (w ++ r).
Proof. intros H N. destruct w as [|c w]; [congruence|]. cbn [forallb] in H. apply andb_true_iff in H as [H _]. cbn [app ends]. unfold is_ws in H. unfold is_digit. lia. Qed.
Lemma items_parse d l : Forall reads l -> l <> [] -> forall f w w2 rest, (fold_right (fun x n => S (need x + n)) 0 l <= f)%nat -> forallb is_ws w = true ->
  forallb is_ws w2 = true -> w2 <> [] ->
  parse_items f (w ++ sep_by (B "," ++ newline_at d) (map (encode d) l) ++ w2 ++ "]"%char :: rest) = Some (l, rest).
Proof.
  intros F. assert (Hs : forall r, (B "," ++ newline_at d) ++ r = ","%char :: newline_at d ++ r) by reflexivity.
  generalize dependent (B "," ++ newline_at d). intros sep Hs. induction F as [|v l Hv F IH]; intros NE f w w2 rest Hf Hw Hw2 N2; [congruence|]. cbn [fold_right] in Hf. destruct f as [|f]; [lia|].
  cbn [parse_items]. destruct l as [|v2 l].
  - cbn [map sep_by]. rewrite (Hv d f w (w2 ++ "]"%char :: rest)); [|lia|exact Hw|apply ws_ends; auto].
    rewrite skip_ws_app by exact Hw2. cbn [skip_ws]. change (is_ws "]"%char) with false. cbv iota. reflexivity.
  - change (sep_by sep (map (encode d) (v :: v2 :: l))) with (encode d v ++ sep ++ sep_by sep (map (encode d) (v2 :: l))).
    rewrite <- !app_assoc. rewrite Hs. rewrite Hv; [|lia|exact Hw|reflexivity]. cbn [skip_ws]. change (is_ws ","%char) with false. cbv iota. change (eqc ","%char ","%char) with true. cbv iota.
    rewrite (IH ltac:(discriminate) f (newline_at d) w2 rest); auto; [|apply newline_ws]. cbn [fold_right] in *. lia.
Qed.
Lemma members_parse d l : Forall (fun kv => reads (snd kv)) l -> l <> [] -> forall f w w2 rest, (fold_right (fun x n => S (need (snd x) + n)) 0 l <= f)%nat -> forallb is_ws w = true ->
  forallb is_ws w2 = true -> w2 <> [] ->
  parse_members f (w ++ sep_by (B "," ++ newline_at d) (map (encode_member d) l) ++ w2 ++ "}"%char :: rest) = Some (l, rest).
Proof.
  intros F. assert (Hs : forall r, (B "," ++ newline_at d) ++ r = ","%char :: newline_at d ++ r) by reflexivity.
  generalize dependent (B "," ++ newline_at d). intros sep Hs. induction F as [|[k v] l Hv F IH]; intros NE f w w2 rest Hf Hw Hw2 N2; [congruence|]. cbn [fold_right snd] in *. destruct f as [|f]; [lia|].
  assert (KEY : forall tail, ends tail ->
    parse_members (S f) (w ++ encode_member d (k, v) ++ tail) = match skip_ws tail with
       | x :: z' => if eqc x ","%char then match parse_members f z' with Some (l, z'') => Some ((k, v) :: l, z'') | None => None end
                    else if eqc x "}"%char then Some ([(k, v)], z') else None
       | [] => None end).
  { intros tail Ht. cbn [parse_members]. rewrite skip_ws_app by exact Hw. unfold encode_member, encode_string. cbn [fst snd]. rewrite <- !app_assoc. cbn [app skip_ws]. change (is_ws quote) with false. cbv iota.
    change (eqc quote quote) with true. cbv iota. rewrite <- !app_assoc. cbn [app]. rewrite string_parse. cbn [B list_ascii_of_string app skip_ws]. change (is_ws ":"%char) with false. cbv iota. change (eqc ":"%char ":"%char) with true. cbv iota.
    change (parse_value f (" "%char :: encode d v ++ tail)) with (parse_value f ([" "%char] ++ encode d v ++ tail)). rewrite (Hv d f [" "%char] tail); [reflexivity|lia|reflexivity|exact Ht]. }
  destruct l as [|kv2 l].
  - cbn [map sep_by]. rewrite KEY by (apply ws_ends; auto). rewrite skip_ws_app by exact Hw2. cbn [skip_ws]. change (is_ws "}"%char) with false. cbv iota. reflexivity.
  - change (sep_by sep (map (encode_member d) ((k, v) :: kv2 :: l))) with (encode_member d (k, v) ++ sep ++ sep_by sep (map (encode_member d) (kv2 :: l))).
    rewrite <- !app_assoc. rewrite Hs. rewrite KEY by reflexivity. cbn [skip_ws]. change (is_ws ","%char) with false. cbv iota. change (eqc ","%char ","%char) with true. cbv iota.
    rewrite (IH ltac:(discriminate) f (newline_at d) w2 rest); auto; [|apply newline_ws]. cbn [fold_right snd] in *. lia.
Qed.

Lemma sep_by_first (sep : bytes) (l : list bytes) : forall x r, l = x :: r -> exists t, sep_by sep l = x ++ t.
Proof. intros x r ->. destruct r; [exists []; cbn [sep_by]; rewrite app_nil_r; reflexivity|eexists; cbn [sep_by]; reflexivity]. Qed.
Lemma value_parse v : reads v.
Proof.
  induction v as [|b|n|s|l IH|l IH] using json_deep; intros d f w rest Hf Hw E; (destruct f as [|f]; [cbn [need] in Hf; lia|]); cbn [parse_value]; rewrite skip_ws_app by exact Hw; rewrite skip_encode.
  - reflexivity.
  - destruct b; reflexivity.
  - destruct (print_int_first n) as (c & r & Ec & Hc). cbn [encode]. rewrite Ec. cbn [app].
    assert (X : forall x, is_digit x = false -> x <> "-"%char -> eqc c x = false) by (intros x X1 X2; apply eqc_false; destruct Hc as [Hc| ->]; congruence).
    rewrite (X quote), (X "["%char), (X "{"%char), (X "t"%char), (X "f"%char), (X "n"%char) by (reflexivity || discriminate).
    change (c :: r ++ rest) with ((c :: r) ++ rest). rewrite <- Ec, number_parse by exact E. reflexivity.
  - cbn [encode]. unfold encode_string. cbn [app]. change (eqc quote quote) with true. cbv iota. rewrite <- app_assoc. cbn [app]. rewrite string_parse. reflexivity.
  - cbn [encode]. destruct l as [|x l]; [reflexivity|]. rewrite <- !app_assoc. change (B "[") with ["["%char]. change (B "]") with ["]"%char]. cbn [app].
    change (eqc "["%char quote) with false. change (eqc "["%char "["%char) with true. cbv iota.
    rewrite skip_ws_app by apply newline_ws. destruct (sep_by_first (B "," ++ newline_at (S d)) (map (encode (S d)) (x :: l)) (encode (S d) x) (map (encode (S d)) l) eq_refl) as (t & Et).
    assert (FC : exists c r', skip_ws (sep_by (B "," ++ newline_at (S d)) (map (encode (S d)) (x :: l)) ++ newline_at d ++ "]"%char :: rest) = c :: r' /\ eqc c "]"%char = false).
    { rewrite Et. destruct (encode_first (S d) x) as (c & r & Er & H1 & H2 & _). rewrite <- !app_assoc, skip_encode, Er. eexists c, _. split; [reflexivity|]. apply eqc_false, H2. }
    destruct FC as (c & r' & FC1 & FC2). rewrite FC1, FC2.
    rewrite (items_parse (S d) (x :: l) IH ltac:(discriminate) f (newline_at (S d)) (newline_at d) rest); [reflexivity| | | |].
    + cbn [need] in Hf. lia.
    + apply newline_ws.
    + apply newline_ws.
    + discriminate.
  - cbn [encode]. destruct l as [|x l]; [reflexivity|]. rewrite <- !app_assoc. change (B "{") with ["{"%char]. change (B "}") with ["}"%char]. cbn [app].
    change (eqc "{"%char quote) with false. change (eqc "{"%char "["%char) with false. change (eqc "{"%char "{"%char) with true. cbv iota.
    change (fun kv : bytes * json => encode_string (fst kv) ++ B ": " ++ encode (S d) (snd kv)) with (encode_member (S d)).
    rewrite skip_ws_app by apply newline_ws. destruct (sep_by_first (B "," ++ newline_at (S d)) (map (encode_member (S d)) (x :: l)) (encode_member (S d) x) (map (encode_member (S d)) l) eq_refl) as (t & Et).
    match goal with |- context [skip_ws ?t0] => assert (FC : exists c r', skip_ws t0 = c :: r' /\ eqc c "}"%char = false) end.
    { clear Et. destruct x as [k v]. destruct l; cbn [map sep_by]; unfold encode_member, encode_string; cbn [app]; (eexists quote, _; split; reflexivity). }
    destruct FC as (c & r' & FC1 & FC2). rewrite FC1, FC2.
    match goal with |- context [parse_members f ?t0] => assert (M : parse_members f t0 = Some (x :: l, rest)) end; [|rewrite M; reflexivity].
    apply (members_parse (S d) (x :: l) IH ltac:(discriminate) f (newline_at (S d)) (newline_at d) rest).
    + cbn [need] in Hf. lia.
    + apply newline_ws.
    + apply newline_ws.
    + discriminate.
Qed.

(** the fuel is enough *)
Lemma sep_by_length sep l : (fold_right (fun x n => List.length x + n) 0 l <= List.length (sep_by sep l))%nat.
Proof. induction l as [|x [|y l] IH]; [cbn; lia|cbn; lia|]. change (sep_by sep (x :: y :: l)) with (x ++ sep ++ sep_by sep (y :: l)). rewrite !app_length. cbn [fold_right] in *. lia. Qed.
Lemma need_length v : forall d, (need v + 1 <= 2 * List.length (encode d v))%nat.
Proof.
  induction v as [|b|n|s|l IH|l IH] using json_deep; intros d; cbn [need].
  - cbn. lia.
  - destruct b; cbn; lia.
  - destruct (print_int_first n) as (c & r & E & _). cbn [encode]. rewrite E. cbn [List.length]. lia.
  - cbn [encode]. unfold encode_string. cbn [List.length]. lia.
  - cbn [encode]. destruct l as [|x l]; [cbn; lia|]. rewrite !app_length. change (List.length (B "[")) with 1%nat. change (List.length (B "]")) with 1%nat.
    pose proof (sep_by_length (B "," ++ newline_at (S d)) (map (encode (S d)) (x :: l))) as L.
    assert (S1 : (fold_right (fun y n => S (need y + n)) 0 (x :: l) <= 2 * fold_right (fun y n => List.length y + n) 0 (map (encode (S d)) (x :: l)))%nat).
    { clear L. induction IH as [|y l' Hy _ IH']; [cbn; lia|]. cbn [fold_right map]. specialize (Hy (S d)). lia. }
    lia.
  - cbn [encode]. destruct l as [|x l]; [cbn; lia|]. rewrite !app_length. change (List.length (B "{")) with 1%nat. change (List.length (B "}")) with 1%nat.
    
    pose proof (sep_by_length (B "," ++ newline_at (S d)) (map (encode_member (S d)) (x :: l))) as L.
    assert (S1 : (fold_right (fun y n => S (need (snd y) + n)) 0 (x :: l) <= 2 * fold_right (fun y n => List.length y + n) 0 (map (encode_member (S d)) (x :: l)))%nat).
    { clear L. induction IH as [|y l' Hy _ IH']; [cbn; lia|]. cbn [fold_right map]. specialize (Hy (S d)). unfold encode_member at 1. rewrite !app_length. lia. }
    match type of L with (_ <= ?a)%nat => match goal with |- context [List.length (sep_by ?p ?q)] => change (List.length (sep_by p q)) with a end end. lia.
Qed.
Theorem json_round_trip v w w2 : forallb is_ws w = true -> forallb is_ws w2 = true -> json_parse (w ++ encode 0 v ++ w2) = Some v.
Proof.
  intros Hw Hw2. unfold json_parse. pose proof (need_length v 0) as L.
  rewrite (value_parse v 0%nat _ w w2).
  - replace (skip_ws w2) with (@nil ascii); [reflexivity|]. rewrite <- (app_nil_r w2), skip_ws_app by exact Hw2. reflexivity.
  - rewrite !app_length. lia.
  - exact Hw.
  - destruct w2 as [|c w2]; [exact I|]. cbn [ends]. cbn [forallb] in Hw2. apply andb_true_iff in Hw2 as [H _]. unfold is_ws in H. unfold is_digit. lia.
Qed.

(** ** no "<" *)
Definition lt_free (s : bytes) : Prop := ~ In "<"%char s.
Lemma lt_app a b : lt_free a -> lt_free b -> lt_free (a ++ b).
Proof. unfold lt_free. rewrite in_app_iff. tauto. Qed.
Lemma hex_lt n : 0 <= n < 16 -> hex n <> "<"%char.
Proof. intros H E. pose proof (hex_unhex n H) as X. rewrite E in X. discriminate. Qed.
Lemma escape_lt c : lt_free (escape_char c).
Proof.
  unfold escape_char, lt_free. destruct (eqc c quote || eqc c bslash) eqn:E.
  - apply orb_true_iff in E as [E|E]; apply eqc_eq in E; subst; cbn; intuition discriminate.
  - repeat match goal with |- context [if ?b then _ else _] => destruct b eqn:? end; try (cbn; intuition discriminate).
    + pose proof (code_range c). intros [I|[I|[I|[I|[I|[I|[]]]]]]]; try discriminate; symmetry in I || idtac.
      * apply (hex_lt (code c / 16)); [split; [apply Z.div_pos; lia|apply Z.div_lt_upper_bound; lia]|]. auto.
      * apply (hex_lt (code c mod 16)); [apply Z.mod_pos_bound; lia|]. auto.
    + intros [I|[]]. subst c. discriminate.
Qed.
Lemma string_lt s : lt_free (encode_string s).
Proof.
  unfold encode_string. intros [H|H]; [discriminate|]. apply in_app_or in H as [H|[H|[]]]; [|discriminate].
  apply in_flat_map in H as (c & _ & H). exact (escape_lt c H).
Qed.
Lemma newline_lt d : lt_free (newline_at d).
Proof. intros [H|H]; [discriminate|]. apply repeat_spec in H. discriminate. Qed.
Lemma sep_by_lt sep l : lt_free sep -> Forall lt_free l -> lt_free (sep_by sep l).
Proof.
  intros Hs F. induction F as [|x l Hx F IH]; [intros []|]. destruct l as [|y l]; [exact Hx|].
  change (sep_by sep (x :: y :: l)) with (x ++ sep ++ sep_by sep (y :: l)). apply lt_app; [exact Hx|]. apply lt_app; [exact Hs|exact IH].
Qed.
Lemma encode_lt v : forall d, lt_free (encode d v).
Proof.
  assert (C : forall s, existsb (eqc "<"%char) (B s) = false -> lt_free (B s)).
  { intros s H I. assert (existsb (eqc "<"%char) (B s) = true) by (apply existsb_exists; exists "<"%char; split; [exact I|reflexivity]). congruence. }
  induction v as [|b|n|s|l IH|l IH] using json_deep; intros d.
  - apply C. reflexivity.
  - destruct b; apply C; reflexivity.
  - cbn [encode]. unfold print_int. assert (G : forall m, lt_free (print_nat m)).
    { intros m I. assert (D : forallb is_digit (print_nat m) = true) by (rewrite print_nat_digits; apply map_digits_is_digit, digits_of_ok). rewrite forallb_forall in D. specialize (D _ I). discriminate. }
    destruct (n <? 0); [|apply G]. intros [H|H]; [discriminate|exact (G _ H)].
  - apply string_lt.
  - cbn [encode]. destruct l as [|x l]; [apply C; reflexivity|]. repeat apply lt_app; try apply newline_lt; try (apply C; reflexivity).
    apply sep_by_lt; [apply lt_app; [apply C; reflexivity|apply newline_lt]|]. apply Forall_forall. intros y I. apply in_map_iff in I as (z & <- & I). rewrite Forall_forall in IH. apply IH, I.
  - cbn [encode]. destruct l as [|x l]; [apply C; reflexivity|]. repeat apply lt_app; try apply newline_lt; try (apply C; reflexivity).
    apply sep_by_lt; [apply lt_app; [apply C; reflexivity|apply newline_lt]|]. apply Forall_forall. intros y I. apply in_map_iff in I as (z & <- & I). rewrite Forall_forall in IH.
    repeat apply lt_app; [apply string_lt|apply C; reflexivity|]. apply (IH z I).
Qed.
Lemma script_text_free s r : lt_free s -> script_text (s ++ B "</script" ++ r) = s.
Proof.
  induction s as [|c s IH]; intros H; [reflexivity|]. cbn [app script_text].
  replace (starts_with (B "</script") (c :: s ++ B "</script" ++ r)) with false.
  - f_equal. apply IH. intros I. apply H. right. exact I.
  - symmetry. cbn [B list_ascii_of_string starts_with]. rewrite eqc_false; [reflexivity|]. intros E. apply H. left. auto.
Qed.
