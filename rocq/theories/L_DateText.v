(** Reading date texts. *)
From Verif Require Import Base M_Regex M_Date S_Decimal S_Date S_DateText L_Dec L_Regex L_Date.

Definition dend (rest : bytes) : Prop := hd_not (fun c => is_digit c || eqc c "/"%char) rest.
Lemma DateREX_eq : DateREX = rx_date.
Proof. reflexivity. Qed.

Ltac slash := change (B "/") with ["/"%char] in *.
Definition isd (c : ascii) := is_digit c = true.
Lemma slash_digit : is_digit "/"%char = false. Proof. reflexivity. Qed.

Lemma dig_slash c : is_digit c = true -> eqc "/"%char c = false.
Proof. intros H. rewrite eqc_code. unfold is_digit in H. change (code "/"%char) with 47. lia. Qed.

Ltac pre := repeat match goal with
  | |- context[firstn (List.length ?l - List.length ?r) ?l] =>
      let rec go l := lazymatch l with r => constr:(@nil ascii) | ?c :: ?l' => let p := go l' in constr:(c :: p) end in
      let p := go l in rewrite (firstn_pre l p r eq_refl)
  end.
Ltac crunch :=
  repeat first [progress cbn [rmatch rseq app d_ d12 rchar] | progress unfold rchar, d12, d_
               | rewrite slash_digit | rewrite eqc_same
               | match goal with H : is_digit ?c = _ |- context[is_digit ?c] => rewrite H end
               | match goal with H : is_digit ?c = true |- context[eqc "/"%char ?c] => rewrite (dig_slash c H) end
               | match goal with H : eqc "/"%char ?c = false |- context[eqc "/"%char ?c] => rewrite H end].

Ltac useK HK := match type of HK with _ = Some ?x =>
  match type of HK with ?k _ _ = _ => match goal with |- context[k ?a ?b] => replace (k a b) with (Some x) by (symmetry; exact HK); reflexivity end end end.

Lemma takes_md ms ds : Forall isd ms -> Forall isd ds -> (1 <= List.length ms <= 2)%nat -> (1 <= List.length ds <= 2)%nat ->
  takes rx_ymd (ms ++ "/"%char :: ds) [("ymd"%string, ms ++ "/"%char :: ds); ("ymdd"%string, ds); ("ymdm"%string, ms)] dend.
Proof.
  intros Hm Hd Lm Ld R rest cs k x Hr HK. unfold rx_ymd. unfold isd in *.
  assert (Hr' : rest = [] \/ exists c r, rest = c :: r /\ is_digit c = false /\ eqc "/"%char c = false).
  { destruct rest as [|c r]; [left; reflexivity|right; exists c, r]. unfold dend, hd_not in Hr. apply orb_false_iff in Hr as [H1 H2]. split; [reflexivity|]. split; [exact H1|]. rewrite eqc_code in *. lia. }
  destruct ms as [|m1 [|m2 [|]]]; try (cbn in Lm; lia); destruct ds as [|d1 [|d2 [|]]]; try (cbn in Ld; lia);
  repeat match goal with H : Forall _ (_ :: _) |- _ => inversion H; subst; clear H | H : Forall _ [] |- _ => clear H end;
  destruct Hr' as [->|(c & r & -> & Hc1 & Hc2)]; crunch; pre; useK HK.
Qed.
Lemma takes_ymd ys ms ds : Forall isd ys -> Forall isd ms -> Forall isd ds ->
  (List.length ys = 2 \/ List.length ys = 4)%nat -> (1 <= List.length ms <= 2)%nat -> (1 <= List.length ds <= 2)%nat ->
  takes rx_ymd (ys ++ "/"%char :: ms ++ "/"%char :: ds)
    [("ymd"%string, ys ++ "/"%char :: ms ++ "/"%char :: ds); ("ymdd"%string, ds); ("ymdm"%string, ms); ("ymdy"%string, ys)] dend.
Proof.
  intros Hy Hm Hd Ly Lm Ld R rest cs k x Hr HK. unfold rx_ymd. unfold isd in *.
  assert (Hr' : rest = [] \/ exists c r, rest = c :: r /\ is_digit c = false /\ eqc "/"%char c = false).
  { destruct rest as [|c r]; [left; reflexivity|right; exists c, r]. unfold dend, hd_not in Hr. apply orb_false_iff in Hr as [H1 H2]. split; [reflexivity|]. split; [exact H1|]. rewrite eqc_code in *. lia. }
  destruct ys as [|y1 [|y2 [|y3 [|y4 [|]]]]]; try (cbn in Ly; lia);
  destruct ms as [|m1 [|m2 [|]]]; try (cbn in Lm; lia); destruct ds as [|d1 [|d2 [|]]]; try (cbn in Ld; lia);
  repeat match goal with H : Forall _ (_ :: _) |- _ => inversion H; subst; clear H | H : Forall _ [] |- _ => clear H end;
  destruct Hr' as [->|(c & r & -> & Hc1 & Hc2)]; crunch; pre; useK HK.
Qed.

Lemma digits_isd ds : digits_ok ds -> Forall isd (dtext ds).
Proof.
  intros H. unfold dtext. apply Forall_map. eapply Forall_impl; [|exact H]. intros d Hd. apply digit_char_is_digit, Hd.
Qed.
Lemma atoi_digits ds : digits_ok ds -> ds <> [] -> num ds <= int64_max -> atoi (dtext ds) = num ds.
Proof.
  intros Hok Hn Hb. unfold atoi, dtext. destruct ds as [|d ds]; [congruence|].
  assert (Hd : is_digit (digit_char d) = true) by (apply digit_char_is_digit; inversion Hok; assumption).
  assert (E : split_sign (map digit_char (d :: ds)) = (false, map digit_char (d :: ds))).
  { cbn [map split_sign]. unfold is_digit in Hd. rewrite !eqc_code.
    change (code "-"%char) with 45. change (code "+"%char) with 43.
    replace (code (digit_char d) =? 45) with false by lia. replace (code (digit_char d) =? 43) with false by lia. reflexivity. }
  rewrite E. cbn [fst snd]. rewrite map_digits_is_digit by exact Hok. cbn [negb orb map List.length Nat.eqb].
  change (digit_char d :: map digit_char ds) with (map digit_char (d :: ds)). rewrite digits_val_num by exact Hok. lia.
Qed.
Lemma atoi_signed (neg : bool) ds : digits_ok ds -> ds <> [] -> num ds <= int64_max ->
  atoi ((if neg then "-"%char else "+"%char) :: dtext ds) = signed neg (num ds).
Proof.
  intros Hok Hn Hb. unfold atoi, dtext. destruct neg; cbn [split_sign]; rewrite ?eqc_same; change (eqc "+"%char "-"%char) with false; cbn [fst snd].
  all: destruct ds as [|d ds]; [congruence|]; rewrite map_digits_is_digit by exact Hok; cbn [negb orb map List.length Nat.eqb];
  change (digit_char d :: map digit_char ds) with (map digit_char (d :: ds)); rewrite digits_val_num by exact Hok;
  assert (H := num_bound _ Hok); unfold signed; unfold int64_min, int64_max in *; lia.
Qed.

(** zero padded numbers *)
Lemma pad_zero_digits w n : 0 <= n < 10 ^ Z.of_nat w -> (0 < w)%nat ->
  exists ds, digits_n w ds /\ num ds = n /\ pad_zero w (print_nat n) = dtext ds.
Proof.
  intros Hn Hw. exists (repeat 0 (w - List.length (digits_of n)) ++ digits_of n).
  assert (Hl : (List.length (digits_of n) <= w)%nat).
  { destruct (Z.eq_dec n 0) as [->|Hne]; [rewrite digits_of_0; cbn; lia|].
    assert (H := digits_of_length n ltac:(lia)).
    destruct (Nat.le_gt_cases (List.length (digits_of n)) w) as [L|L]; [exact L|exfalso].
    assert (10 ^ Z.of_nat w <= 10 ^ (Z.of_nat (List.length (digits_of n)) - 1)) by (apply Z.pow_le_mono_r; lia).
    lia. }
  split; [split|split].
  - apply digits_ok_app. split; [|apply digits_of_ok]. unfold digits_ok. apply Forall_forall. intros x Hx. apply repeat_spec in Hx. lia.
  - rewrite app_length, repeat_length. lia.
  - rewrite num_app, num_zeros, num_digits_of by lia. lia.
  - unfold pad_zero, dtext. rewrite map_app, print_nat_digits, map_length. f_equal.
    unfold rep. generalize (w - List.length (digits_of n))%nat. intros m. induction m; cbn; [reflexivity|]. f_equal. exact IHm.
Qed.

(** ** offsets *)
Definition unit_ok (u : ascii) : Prop := is_unit u = true.
Lemma unit_not_digit u : is_unit u = true -> is_digit u = false.
Proof.
  unfold is_unit. cbn [existsb B list_ascii_of_string]. rewrite !orb_true_iff, !eqc_eq. intuition (subst; try reflexivity); discriminate.
Qed.
Lemma takes_offset (neg : bool) ns u : digits_ok ns -> ns <> [] -> is_unit u = true ->
  takes rx_offset (offset_text neg ns u) [("offset"%string, offset_text neg ns u)] (fun _ => True).
Proof.
  intros Hok Hn Hu. unfold rx_offset. apply takes_grp. unfold offset_text. cbn [rseq].
  change (@nil (string * bytes)) with (@nil (string * bytes) ++ []).
  eapply takes_seq with (P1 := fun _ => True); [|change (@nil (string * bytes)) with (@nil (string * bytes) ++ []); eapply takes_seq with (P1 := hd_not is_digit)|].
  - destruct neg; apply takes_set; reflexivity.
  - apply takes_plus; [destruct ns; [congruence|discriminate]| |auto].
    apply map_digits_is_digit, Hok.
  - apply takes_set, Hu.
  - intros rest _. cbn. apply unit_not_digit, Hu.
  - intros; exact I.
Qed.

Definition sgn_free (rest : bytes) : Prop := hd_not (fun c => eqc c "+"%char || eqc c "-"%char) rest.
Lemma fails_offset rest : sgn_free rest -> fails rx_offset rest.
Proof. intros H. apply fails_grp. cbn [rseq]. apply fails_seq_l. apply fails_set. exact H. Qed.
Lemma ends_date_split rest : ends_date rest -> dend rest /\ sgn_free rest.
Proof.
  destruct rest as [|c r]; [intros _; split; exact I|]. intros (H1 & H2 & H3 & H4). cbn.
  rewrite H1. split; [|apply orb_false_iff; split]; apply Bool.not_true_iff_false; rewrite ?orb_false_l, eqc_eq; assumption.
Qed.

Definition ymd_caps (ys ms ds : list Z) (t : bytes) : caps :=
  [("ymd"%string, t); ("ymdd"%string, dtext ds); ("ymdm"%string, dtext ms)]
  ++ match ys with [] => [] | _ => [("ymdy"%string, dtext ys)] end.
Definition date_ok (ys ms ds : list Z) : Prop :=
  (ys = [] \/ digits_n 2 ys \/ digits_n 4 ys) /\ d12_ok ms /\ d12_ok ds.
Definition date_text (ys ms ds : list Z) : bytes := match ys with [] => md_text ms ds | _ => ymd_text ys ms ds end.
Lemma takes_rx_ymd ys ms ds : date_ok ys ms ds ->
  takes rx_ymd (date_text ys ms ds) (ymd_caps ys ms ds (date_text ys ms ds)) dend.
Proof.
  intros (Hy & (Hm & Lm) & (Hd & Ld)). unfold date_text, ymd_caps, ymd_text, md_text. slash. cbn [app].
  destruct Hy as [->|Hy].
  - apply takes_md; try (apply digits_isd; assumption); unfold dtext; rewrite map_length; assumption.
  - destruct ys as [|y0 yr]; [destruct Hy as [[_ Hy]|[_ Hy]]; discriminate|].
    remember (y0 :: yr) as ys. clear Heqys. apply takes_ymd.
    + apply digits_isd. destruct Hy as [[Hy _]|[Hy _]]; exact Hy.
    + apply digits_isd, Hm.
    + apply digits_isd, Hd.
    + unfold dtext; rewrite map_length. unfold digits_n in Hy. tauto.
    + unfold dtext; rewrite map_length. exact Lm.
    + unfold dtext; rewrite map_length. exact Ld.
Qed.
Lemma takes_date ys ms ds : date_ok ys ms ds ->
  takes DateREX (date_text ys ms ds)
    (("date"%string, date_text ys ms ds) :: ymd_caps ys ms ds (date_text ys ms ds)) ends_date.
Proof.
  intros H. rewrite DateREX_eq. unfold rx_date. apply takes_grp.
  rewrite <- (app_nil_r (date_text ys ms ds)) at 1.
  change (ymd_caps ys ms ds (date_text ys ms ds)) with ([] ++ ymd_caps ys ms ds (date_text ys ms ds)).
  eapply takes_seq.
  - apply takes_opt_some, takes_rx_ymd, H.
  - apply takes_opt_none. intros rest Hr. apply fails_offset. apply ends_date_split, Hr.
  - intros rest Hr. apply ends_date_split, Hr.
Qed.
Lemma takes_date_offset ys ms ds neg ns u : date_ok ys ms ds -> digits_ok ns -> ns <> [] -> is_unit u = true ->
  takes DateREX (date_text ys ms ds ++ offset_text neg ns u)
    (("date"%string, date_text ys ms ds ++ offset_text neg ns u) ::
     ("offset"%string, offset_text neg ns u) :: ymd_caps ys ms ds (date_text ys ms ds)) (fun _ => True).
Proof.
  intros H Hok Hn Hu. rewrite DateREX_eq. unfold rx_date. apply takes_grp.
  change (("offset"%string, offset_text neg ns u) :: ymd_caps ys ms ds (date_text ys ms ds))
    with ([("offset"%string, offset_text neg ns u)] ++ ymd_caps ys ms ds (date_text ys ms ds)).
  eapply takes_seq.
  - apply takes_opt_some, takes_rx_ymd, H.
  - apply takes_opt_some, takes_offset; assumption.
  - intros rest _. destruct neg; reflexivity.
Qed.
Lemma takes_offset_only neg ns u : digits_ok ns -> ns <> [] -> is_unit u = true ->
  takes DateREX (offset_text neg ns u)
    [("date"%string, offset_text neg ns u); ("offset"%string, offset_text neg ns u)] (fun _ => True).
Proof.
  intros Hok Hn Hu. rewrite DateREX_eq. unfold rx_date. apply takes_grp.
  change (offset_text neg ns u) with ([] ++ offset_text neg ns u) at 1.
  change [("offset"%string, offset_text neg ns u)] with ([("offset"%string, offset_text neg ns u)] ++ []).
  eapply takes_seq with (P1 := fun s => hd_not is_digit s).
  - apply takes_opt_none. intros rest Hr. unfold rx_ymd. apply fails_alt; apply fails_grp; cbn [rseq].
    + apply fails_opt_seq.
      * apply fails_seq_l, fails_grp, fails_seq_l, fails_set, Hr.
      * apply fails_seq_l, fails_grp, fails_seq_l, fails_set, Hr.
    + apply fails_seq_l, fails_grp, fails_seq_l, fails_set, Hr.
  - apply takes_opt_some, takes_offset; assumption.
  - intros rest _. destruct neg; reflexivity.
Qed.

(** ** the date meant by a text *)
(** date.go:76-110 as a function of numbers *)
Definition resolve_year (td : today) (ys ms : list Z) : Z :=
  let '(y, m, d) := td in
  match ys with
  | [] => if (num ms <? m) && (6 <? m - num ms) then y + 1
          else if (m <? num ms) && (6 <? num ms - m) then y - 1 else y
  | _ => if num ys <? 100 then
           let yyy := Z.quot y 1000 * 1000 + num ys in
           if (yyy <? y) && (50 <? y - yyy) then yyy + 100
           else if (y <? yyy) && (50 <? yyy - y) then yyy - 100 else yyy
         else num ys
  end.
Definition apply_offset (t o : Z) (u : ascii) : Z :=
  if eqc u "d"%char then add_date t 0 0 o
  else if eqc u "w"%char then add_date t 0 0 (o * 7)
  else if eqc u "m"%char then add_date t 0 o 0
  else if eqc u "y"%char then add_date t o 0 0
  else t.
Lemma num_small ds n : digits_ok ds -> (List.length ds <= n)%nat -> num ds < 10 ^ Z.of_nat n.
Proof.
  intros H L. assert (Hb := num_bound _ H).
  assert (10 ^ Z.of_nat (List.length ds) <= 10 ^ Z.of_nat n) by (apply Z.pow_le_mono_r; lia). lia.
Qed.
Lemma d12_atoi ds : d12_ok ds -> atoi (dtext ds) = num ds.
Proof.
  intros [H L]. apply atoi_digits; [exact H|destruct ds; [cbn in L; lia|discriminate]|].
  assert (Hs := num_small ds 2 H ltac:(lia)). change (10 ^ Z.of_nat 2) with 100 in Hs. unfold int64_max. lia.
Qed.
Lemma ys_atoi ys : digits_n 2 ys \/ digits_n 4 ys -> atoi (dtext ys) = num ys.
Proof.
  intros H. assert (Hs : digits_ok ys /\ (1 <= List.length ys <= 4)%nat) by (unfold digits_n in H; intuition lia).
  destruct Hs as [Hok L]. apply atoi_digits; [exact Hok|destruct ys; [cbn in L; lia|discriminate]|].
  assert (Hs := num_small ys 4 Hok ltac:(lia)). change (10 ^ Z.of_nat 4) with 10000 in Hs. unfold int64_max. lia.
Qed.
Lemma dtext_nonempty ds : ds <> [] -> exists c r, dtext ds = c :: r.
Proof. destruct ds as [|d r]; [congruence|]. intros _. exists (digit_char d), (dtext r). reflexivity. Qed.
Lemma date_text_nonempty ys ms ds : date_ok ys ms ds -> exists c r, date_text ys ms ds = c :: r.
Proof.
  intros (Hy & (Hm & Lm) & _). unfold date_text, ymd_text, md_text.
  destruct ys; [destruct ms; [cbn in Lm; lia|]|]; cbn; eauto.
Qed.
Lemma offset_value (neg : bool) ns u : digits_ok ns -> ns <> [] -> num ns <= int64_max ->
  exists c r, offset_text neg ns u = c :: r /\ atoi (removelast (offset_text neg ns u)) = signed neg (num ns) /\
  last (offset_text neg ns u) "d"%char = u.
Proof.
  intros Hok Hn Hb.
  assert (E : offset_text neg ns u = ((if neg then "-"%char else "+"%char) :: dtext ns) ++ [u])
    by (unfold offset_text; destruct neg; reflexivity).
  rewrite E. eexists _, _. split; [reflexivity|].
  rewrite removelast_last, last_last. split; [|reflexivity]. apply atoi_signed; assumption.
Qed.

Section Parse.
Variables (y m d : Z) (ys ms ds : list Z).
Hypothesis Hok : date_ok ys ms ds.
Let t := date_text ys ms ds.
Lemma parse_date_caps (pre post : caps) :
  (forall n, In n ["ymd"; "ymdd"; "ymdm"; "ymdy"; "offset"]%string -> Forall (fun p => n <> fst p) pre) ->
  (forall n, In n ["ymdy"; "offset"]%string -> Forall (fun p => n <> fst p) post) ->
  parse_date (y, m, d) (pre ++ ymd_caps ys ms ds t ++ post) =
  Ok (go_date (resolve_year (y, m, d) ys ms) (num ms) (num ds)).
Proof.
  intros Hpre Hpost.
  assert (Cpre : forall n l, Forall (fun p : string * bytes => n <> fst p) pre -> cap n (pre ++ l) = cap n l).
  { clear. intros n l. induction 1 as [|[a b] p Ha _ IH]; [reflexivity|]. cbn [app cap]. cbn in Ha.
    destruct (String.eqb_spec n a); [contradiction|exact IH]. }
  assert (Cpost : forall n, Forall (fun p : string * bytes => n <> fst p) post -> cap n post = []).
  { clear. intros n. induction 1 as [|[a b] p Ha _ IH]; [reflexivity|]. cbn [cap]. cbn in Ha.
    destruct (String.eqb_spec n a); [contradiction|exact IH]. }
  assert (Hc : forall n, In n ["ymd"; "ymdd"; "ymdm"; "ymdy"; "offset"]%string -> cap n (pre ++ ymd_caps ys ms ds t ++ post) = cap n (ymd_caps ys ms ds t ++ post)).
  { intros n Hn. apply Cpre, Hpre, Hn. }
  unfold parse_date. rewrite (Hc "offset"%string), (Hc "ymd"%string), (Hc "ymdd"%string), (Hc "ymdm"%string), (Hc "ymdy"%string) by (cbn; tauto). clear Hc.
  assert (Ho : cap "offset" (ymd_caps ys ms ds t ++ post) = []).
  { unfold ymd_caps. destruct ys; cbn; apply Cpost, Hpost; cbn; tauto. }
  rewrite Ho.
  assert (H1 : cap "ymd" (ymd_caps ys ms ds t ++ post) = t) by reflexivity.
  assert (H2 : cap "ymdd" (ymd_caps ys ms ds t ++ post) = dtext ds) by reflexivity.
  assert (H3 : cap "ymdm" (ymd_caps ys ms ds t ++ post) = dtext ms) by reflexivity.
  assert (H4 : cap "ymdy" (ymd_caps ys ms ds t ++ post) = dtext ys).
  { unfold ymd_caps. destruct ys; [cbn; apply Cpost, Hpost; cbn; tauto|reflexivity]. }
  rewrite H1, H2, H3, H4.
  destruct (date_text_nonempty _ _ _ Hok) as (c & r & E). unfold t. rewrite E.
  destruct Hok as (Hy & Hm & Hd). rewrite (d12_atoi ms), (d12_atoi ds) by assumption.
  unfold bind. unfold resolve_year.
  destruct Hy as [->|Hy]; [reflexivity|].
  destruct ys as [|y0 yr]; [destruct Hy as [[_ Hy]|[_ Hy]]; discriminate|].
  rewrite ys_atoi by exact Hy. reflexivity.
Qed.
Lemma parse_date_caps_offset neg ns u : digits_ok ns -> ns <> [] -> num ns <= int64_max ->
  parse_date (y, m, d) (("date"%string, t ++ offset_text neg ns u) :: ("offset"%string, offset_text neg ns u) :: ymd_caps ys ms ds t) =
  Ok (apply_offset (go_date (resolve_year (y, m, d) ys ms) (num ms) (num ds)) (signed neg (num ns)) u).
Proof.
  intros Hn1 Hn2 Hn3. unfold parse_date.
  change (cap "offset" (_ :: _ :: _)) with (offset_text neg ns u).
  change (cap "ymd" (_ :: _ :: _)) with t.
  change (cap "ymdd" (_ :: _ :: _)) with (dtext ds).
  change (cap "ymdm" (_ :: _ :: _)) with (dtext ms).
  assert (H4 : cap "ymdy" (("date"%string, t ++ offset_text neg ns u) :: ("offset"%string, offset_text neg ns u) :: ymd_caps ys ms ds t) = dtext ys)
    by (unfold ymd_caps; destruct ys; reflexivity).
  rewrite H4.
  destruct (offset_value neg ns u Hn1 Hn2 Hn3) as (c' & r' & E' & Ea & El). rewrite Ea, El, E'.
  destruct (date_text_nonempty _ _ _ Hok) as (c & r & E). unfold t. rewrite E.
  destruct Hok as (Hy & Hm & Hd). rewrite (d12_atoi ms), (d12_atoi ds) by assumption.
  unfold bind, apply_offset.
  assert (G : match dtext ys with
              | [] => if (num ms <? m) && (6 <? m - num ms) then y + 1 else if (m <? num ms) && (6 <? num ms - m) then y - 1 else y
              | _ :: _ => if atoi (dtext ys) <? 100 then
                   (if (Z.quot y 1000 * 1000 + atoi (dtext ys) <? y) && (50 <? y - (Z.quot y 1000 * 1000 + atoi (dtext ys))) then Z.quot y 1000 * 1000 + atoi (dtext ys) + 100
                    else if (y <? Z.quot y 1000 * 1000 + atoi (dtext ys)) && (50 <? Z.quot y 1000 * 1000 + atoi (dtext ys) - y) then Z.quot y 1000 * 1000 + atoi (dtext ys) - 100 else Z.quot y 1000 * 1000 + atoi (dtext ys))
                  else atoi (dtext ys)
              end = resolve_year (y, m, d) ys ms).
  { unfold resolve_year. destruct Hy as [->|Hy]; [reflexivity|].
    destruct ys as [|y0 yr]; [destruct Hy as [[_ Hy]|[_ Hy]]; discriminate|].
    rewrite ys_atoi by exact Hy. reflexivity. }
  cbv zeta in G |- *. rewrite G. reflexivity.
Qed.
End Parse.

Lemma set_date_text td ys ms ds : date_ok ys ms ds ->
  set_date td (date_text ys ms ds) = Ok (go_date (resolve_year td ys ms) (num ms) (num ds)).
Proof.
  intros H. unfold set_date. rewrite <- (app_nil_r (date_text ys ms ds)) at 1.
  rewrite (takes_search _ _ _ _ [] (takes_date _ _ _ H) I).
  destruct td as [[y m] d].
  assert (G := parse_date_caps y m d ys ms ds H [("date"%string, date_text ys ms ds)] []).
  rewrite app_nil_r in G. apply G; intros n; cbn; intuition (subst; repeat (constructor; try discriminate)).
Qed.
Lemma set_date_offset td ys ms ds neg ns u : date_ok ys ms ds -> digits_ok ns -> ns <> [] -> num ns <= int64_max -> is_unit u = true ->
  set_date td (date_text ys ms ds ++ offset_text neg ns u) =
  Ok (apply_offset (go_date (resolve_year td ys ms) (num ms) (num ds)) (signed neg (num ns)) u).
Proof.
  intros H Hn1 Hn2 Hn3 Hu. unfold set_date. rewrite <- (app_nil_r (date_text ys ms ds ++ offset_text neg ns u)) at 1.
  rewrite (takes_search _ _ _ _ [] (takes_date_offset _ _ _ neg ns u H Hn1 Hn2 Hu) I).
  destruct td as [[y m] d]. apply parse_date_caps_offset; assumption.
Qed.
Lemma set_date_offset_only td neg ns u : digits_ok ns -> ns <> [] -> num ns <= int64_max -> is_unit u = true ->
  set_date td (offset_text neg ns u) =
  Ok (apply_offset (let '(y, m, d) := td in go_date y m d) (signed neg (num ns)) u).
Proof.
  intros Hn1 Hn2 Hn3 Hu. unfold set_date. rewrite <- (app_nil_r (offset_text neg ns u)) at 1.
  rewrite (takes_search _ _ _ _ [] (takes_offset_only neg ns u Hn1 Hn2 Hu) I).
  destruct td as [[y m] d]. unfold parse_date.
  change (cap "offset" _) with (offset_text neg ns u). change (cap "ymd" _) with (@nil ascii). change (cap "ym" _) with (@nil ascii).
  destruct (offset_value neg ns u Hn1 Hn2 Hn3) as (c' & r' & E' & Ea & El). rewrite Ea, El, E'. reflexivity.
Qed.

(** ** written dates *)
Lemma format_date_text n : 0 <= year_of n <= 9999 ->
  exists ys ms ds, digits_n 4 ys /\ digits_n 2 ms /\ digits_n 2 ds /\
    num ys = year_of n /\ num ms = month_of n /\ num ds = day_of n /\ format_date n = date_text ys ms ds.
Proof.
  intros Hy. destruct (civil_valid n) as [Hm Hd]. assert (Hr := month_days_range (year_of n) (month_of n)).
  destruct (pad_zero_digits 4 (year_of n)) as (ys & Hy1 & Hy2 & Hy3); [change (10 ^ Z.of_nat 4) with 10000; lia|lia|].
  destruct (pad_zero_digits 2 (month_of n)) as (ms & Hm1 & Hm2 & Hm3); [change (10 ^ Z.of_nat 2) with 100; lia|lia|].
  destruct (pad_zero_digits 2 (day_of n)) as (ds & Hd1 & Hd2 & Hd3); [change (10 ^ Z.of_nat 2) with 100; lia|lia|].
  exists ys, ms, ds. repeat (split; [assumption|]).
  unfold format_date, format_year. replace (year_of n <? 0) with false by lia. rewrite Hy3, Hm3, Hd3.
  destruct ys; [destruct Hy1; discriminate|]. reflexivity.
Qed.
Lemma written_ok ys ms ds : digits_n 4 ys -> digits_n 2 ms -> digits_n 2 ds -> date_ok ys ms ds.
Proof. unfold digits_n, date_ok, d12_ok. intros [? ?] [? L1] [? L2]. rewrite L1, L2. split; [right; right; split; assumption|]. split; (split; [assumption|lia]). Qed.
Lemma date_round_trip td n : 100 <= year_of n <= 9999 -> set_date td (format_date n) = Ok n.
Proof.
  intros Hy. destruct (format_date_text n ltac:(lia)) as (ys & ms & ds & H1 & H2 & H3 & E1 & E2 & E3 & E).
  rewrite E, set_date_text by (apply written_ok; assumption). f_equal.
  rewrite E2, E3. unfold resolve_year. destruct td as [[y m] d].
  destruct ys as [|y0 yr]; [destruct H1; discriminate|]. rewrite E1. replace (year_of n <? 100) with false by lia.
  apply go_date_civil.
Qed.
(** in the middle of a line *)
Definition wdate_caps (n : Z) : caps :=
  [("date"%string, format_date n); ("ymd"%string, format_date n);
   ("ymdd"%string, pad_zero 2 (print_nat (day_of n))); ("ymdm"%string, pad_zero 2 (print_nat (month_of n)));
   ("ymdy"%string, format_year (year_of n))].
Lemma takes_written n : 0 <= year_of n <= 9999 -> takes DateREX (format_date n) (wdate_caps n) ends_date.
Proof.
  intros Hy. destruct (civil_valid n) as [Hm Hd]. assert (Hr := month_days_range (year_of n) (month_of n)).
  destruct (pad_zero_digits 4 (year_of n)) as (ys & Hy1 & Hy2 & Hy3); [change (10 ^ Z.of_nat 4) with 10000; lia|lia|].
  destruct (pad_zero_digits 2 (month_of n)) as (ms & Hm1 & Hm2 & Hm3); [change (10 ^ Z.of_nat 2) with 100; lia|lia|].
  destruct (pad_zero_digits 2 (day_of n)) as (ds & Hd1 & Hd2 & Hd3); [change (10 ^ Z.of_nat 2) with 100; lia|lia|].
  assert (T := takes_date ys ms ds (written_ok _ _ _ Hy1 Hm1 Hd1)).
  unfold wdate_caps, format_date, format_year. replace (year_of n <? 0) with false by lia. rewrite Hy3, Hm3, Hd3.
  destruct ys as [|y0 yr]; [destruct Hy1; discriminate|]. exact T.
Qed.
Lemma parse_written y m d n pre : 100 <= year_of n <= 9999 ->
  (forall k, In k ["ymd"; "ymdd"; "ymdm"; "ymdy"; "offset"]%string -> Forall (fun p => k <> fst p) pre) ->
  parse_date (y, m, d) (pre ++ wdate_caps n) = Ok n.
Proof.
  intros Hy Hpre. destruct (civil_valid n) as [Hm Hd]. assert (Hr := month_days_range (year_of n) (month_of n)).
  destruct (pad_zero_digits 4 (year_of n)) as (ys & Hy1 & Hy2 & Hy3); [change (10 ^ Z.of_nat 4) with 10000; lia|lia|].
  destruct (pad_zero_digits 2 (month_of n)) as (ms & Hm1 & Hm2 & Hm3); [change (10 ^ Z.of_nat 2) with 100; lia|lia|].
  destruct (pad_zero_digits 2 (day_of n)) as (ds & Hd1 & Hd2 & Hd3); [change (10 ^ Z.of_nat 2) with 100; lia|lia|].
  assert (T := parse_date_caps y m d ys ms ds (written_ok _ _ _ Hy1 Hm1 Hd1) (pre ++ [("date"%string, format_date n)]) []).
  unfold wdate_caps. unfold format_date, format_year in *. replace (year_of n <? 0) with false in * by lia. rewrite Hy3, Hm3, Hd3 in *.
  destruct ys as [|y0 yr]; [destruct Hy1; discriminate|].
  rewrite app_nil_r, <- app_assoc in T. cbn [app] in T.
  etransitivity; [apply T|].
  - intros k Hk. apply Forall_app. split; [apply Hpre, Hk|]. constructor; [|constructor]. cbn in Hk |- *. intuition (subst; discriminate).
  - intros; constructor.
  - f_equal. unfold resolve_year. rewrite Hy2, Hm2, Hd2. replace (year_of n <? 100) with false by lia. apply go_date_civil.
Qed.
