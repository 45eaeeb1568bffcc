(** C136: dates entered as YYYY or YYYY/M (README "Date Entry"), with or without an offset. *)
From Verif Require Import Base M_Regex M_Date S_Date S_Decimal S_DateText L_Date L_Dec L_Regex L_DateText L_Csv2 Properties_Date.

Lemma rest_dec rest : dend rest -> rest = [] \/ exists c r, rest = c :: r /\ is_digit c = false /\ eqc "/"%char c = false.
Proof.
  destruct rest as [|c r]; intros H; [left; reflexivity|right; exists c, r]. unfold dend, hd_not in H. apply orb_false_iff in H as [H1 H2]. split; [reflexivity|]. split; [exact H1|]. rewrite eqc_code in *. lia.
Qed.
Lemma takes_y ys : Forall isd ys -> List.length ys = 4%nat -> takes rx_ymd ys [("ym"%string, ys); ("ymy"%string, ys)] dend.
Proof.
  intros Hy Ly R rest cs k x Hr HK. unfold rx_ymd. unfold isd in *. apply rest_dec in Hr.
  destruct ys as [|y1 [|y2 [|y3 [|y4 [|]]]]]; try (cbn in Ly; lia);
  repeat match goal with H : Forall _ (_ :: _) |- _ => inversion H; subst; clear H | H : Forall _ [] |- _ => clear H end;
  destruct Hr as [->|(c & r & -> & Hc1 & Hc2)]; crunch; pre; useK HK.
Qed.
Lemma takes_ym ys ms : Forall isd ys -> List.length ys = 4%nat -> Forall isd ms -> (1 <= List.length ms <= 2)%nat ->
  takes rx_ymd (ys ++ "/"%char :: ms) [("ym"%string, ys ++ "/"%char :: ms); ("ymm"%string, ms); ("ymy"%string, ys)] dend.
Proof.
  intros Hy Ly Hm Lm R rest cs k x Hr HK. unfold rx_ymd. unfold isd in *. apply rest_dec in Hr.
  destruct ys as [|y1 [|y2 [|y3 [|y4 [|]]]]]; try (cbn in Ly; lia); destruct ms as [|m1 [|m2 [|]]]; try (cbn in Lm; lia);
  repeat match goal with H : Forall _ (_ :: _) |- _ => inversion H; subst; clear H | H : Forall _ [] |- _ => clear H end;
  destruct Hr as [->|(c & r & -> & Hc1 & Hc2)]; crunch; pre; useK HK.
Qed.
(** YYYY, or YYYY/M if a month is given *)
Definition ym_text (ys ms : list Z) : bytes := match ms with [] => dtext ys | _ => dtext ys ++ "/"%char :: dtext ms end.
Definition ym_caps (ys ms : list Z) : caps := 
  match ms with [] => [("ym"%string, dtext ys); ("ymy"%string, dtext ys)] 
              | _ => [("ym"%string, ym_text ys ms); ("ymm"%string, dtext ms); ("ymy"%string, dtext ys)] end.
Definition ym_ok (ys ms : list Z) : Prop := digits_n 4 ys /\ (ms = [] \/ d12_ok ms).
Lemma takes_rx_ym ys ms : ym_ok ys ms -> takes rx_ymd (ym_text ys ms) (ym_caps ys ms) dend.
Proof.
  intros [[Hy Ly] Hm]. assert (Ly' : List.length (dtext ys) = 4%nat) by (unfold dtext; rewrite map_length; exact Ly). unfold ym_text, ym_caps.
  destruct ms as [|m0 ms']; [apply takes_y; [apply digits_isd, Hy|exact Ly']|]. destruct Hm as [Hm|[Hm Lm]]; [discriminate|].
  apply takes_ym; [apply digits_isd, Hy|exact Ly'|apply digits_isd, Hm|unfold dtext; rewrite map_length; exact Lm].
Qed.
Lemma takes_ym_date ys ms : ym_ok ys ms ->
  takes DateREX (ym_text ys ms) (("date"%string, ym_text ys ms) :: ym_caps ys ms) (fun rest => dend rest /\ fails rx_offset rest).
Proof.
  intros H. rewrite DateREX_eq. unfold rx_date. apply takes_grp.
  rewrite <- (app_nil_r (ym_text ys ms)) at 1. change (ym_caps ys ms) with ([] ++ ym_caps ys ms).
  eapply takes_seq.
  - apply takes_opt_some, takes_rx_ym, H.
  - apply takes_opt_none. intros rest Hr. exact (proj2 Hr).
  - intros rest Hr. exact (proj1 Hr).
Qed.
Lemma takes_ym_offset ys ms neg ns u : ym_ok ys ms -> digits_ok ns -> ns <> [] -> is_unit u = true ->
  takes DateREX (ym_text ys ms ++ offset_text neg ns u)
    (("date"%string, ym_text ys ms ++ offset_text neg ns u) :: ("offset"%string, offset_text neg ns u) :: ym_caps ys ms) (fun _ => True).
Proof.
  intros H Hok Hn Hu. rewrite DateREX_eq. unfold rx_date. apply takes_grp.
  change (("offset"%string, offset_text neg ns u) :: ym_caps ys ms) with ([("offset"%string, offset_text neg ns u)] ++ ym_caps ys ms).
  eapply takes_seq.
  - apply takes_opt_some, takes_rx_ym, H.
  - apply takes_opt_some, takes_offset; assumption.
  - intros rest _. destruct neg; reflexivity.
Qed.
(** the first day of the month, or of the year if no month is given *)
Definition first_day (ys ms : list Z) : Z := go_date (num ys) (match ms with [] => 1 | _ => num ms end) 1.
Lemma ym_base ys ms : ym_ok ys ms -> exists c r, cap "ym" (ym_caps ys ms) = c :: r /\ cap "ymd" (ym_caps ys ms) = [] /\ cap "offset" (ym_caps ys ms) = [] /\
  atoi (cap "ymy" (ym_caps ys ms)) = num ys /\ match cap "ymm" (ym_caps ys ms) with _ :: _ => atoi (cap "ymm" (ym_caps ys ms)) | [] => 1 end = match ms with [] => 1 | _ => num ms end.
Proof.
  intros [Hy Hm]. assert (N : exists c r, dtext ys = c :: r) by (apply dtext_nonempty; intros ->; destruct Hy as [_ Hy]; discriminate Hy).
  destruct N as (c & r & N). unfold ym_caps, ym_text. destruct ms as [|m0 ms].
  - exists c, r. cbn [cap String.eqb Ascii.eqb Bool.eqb]. rewrite <- N. repeat split; try reflexivity. apply ys_atoi. tauto.
  - destruct Hm as [Hm|Hm]; [discriminate|]. exists c, (r ++ "/"%char :: dtext (m0 :: ms)). cbn [cap String.eqb Ascii.eqb Bool.eqb]. rewrite N. repeat split; try reflexivity.
    + rewrite <- N. apply ys_atoi. tauto.
    + rewrite d12_atoi by exact Hm. reflexivity.
Qed.
Lemma set_ym td ys ms rest : ym_ok ys ms -> dend rest -> fails rx_offset rest -> set_date td (ym_text ys ms ++ rest) = Ok (first_day ys ms).
Proof.
  intros H Hr Ho. unfold set_date. rewrite (takes_search _ _ _ _ rest (takes_ym_date _ _ H) (conj Hr Ho)).
  destruct td as [[y m] d]. unfold parse_date. cbn [cap String.eqb Ascii.eqb Bool.eqb].
  destruct (ym_base _ _ H) as (c & r & E1 & E2 & E3 & E4 & E5). rewrite E1, E2, E3, E4, E5. reflexivity.
Qed.
Lemma set_ym_offset td ys ms neg ns u rest : ym_ok ys ms -> digits_ok ns -> ns <> [] -> num ns <= int64_max -> is_unit u = true ->
  set_date td ((ym_text ys ms ++ offset_text neg ns u) ++ rest) = Ok (apply_offset (first_day ys ms) (signed neg (num ns)) u).
Proof.
  intros H Hn1 Hn2 Hn3 Hu. unfold set_date. rewrite (takes_search _ _ _ _ rest (takes_ym_offset _ _ neg ns u H Hn1 Hn2 Hu) I).
  destruct td as [[y m] d]. unfold parse_date. cbn [cap String.eqb Ascii.eqb Bool.eqb].
  destruct (ym_base _ _ H) as (c & r & E1 & E2 & E3 & E4 & E5). rewrite E1, E2, E4, E5. 
  destruct (offset_value neg ns u Hn1 Hn2 Hn3) as (c' & r' & E' & Ea & El). rewrite Ea, El, E'. reflexivity.
Qed.

Lemma first_valid y m : 1 <= m <= 12 -> 1 <= 1 <= month_days y m.
Proof. intros H. split; [lia|]. unfold month_days. repeat match goal with |- context [if ?b then _ else _] => destruct b end; lia. Qed.
(** ** C136 *)
(** a year stands for its first day, whatever today is *)
Theorem C136_year : forall td ys, digits_n 4 ys -> set_date td (dtext ys) = Ok (go_date (num ys) 1 1).
Proof.
  intros td ys H. assert (K : ym_ok ys []) by (split; [exact H|left; reflexivity]). pose proof (set_ym td ys [] [] K I) as E. cbn [ym_text] in E. rewrite app_nil_r in E. apply E.
  intros R cs k. reflexivity.
Qed.
Print Assumptions C136_year.
(** a year and a month stand for the first day of that month *)
Theorem C136_month : forall td ys ms, digits_n 4 ys -> d12_ok ms -> 1 <= num ms <= 12 ->
  exists n, set_date td (dtext ys ++ B "/" ++ dtext ms) = Ok n /\ civil n = (num ys, num ms, 1).
Proof.
  intros td ys ms H Hm Hr. exists (go_date (num ys) (num ms) 1). split.
  - assert (K : ym_ok ys ms) by (split; [exact H|right; exact Hm]). pose proof (set_ym td ys ms [] K I) as E. rewrite (app_nil_r (ym_text ys ms : bytes)) in E.
    unfold ym_text, first_day in E. destruct ms as [|m0 ms]; [destruct Hm as [_ Hm]; cbn in Hm; lia|]. apply E. intros R cs k. reflexivity.
  - apply civil_go_date. split; [exact Hr|]. apply first_valid, Hr.
Qed.
Print Assumptions C136_month.
(** a full date with a year of four digits is that day, whether or not month and day are padded *)
Theorem C136_day : forall td ys ms ds, digits_n 4 ys -> d12_ok ms -> d12_ok ds -> 100 <= num ys -> valid_date (num ys) (num ms) (num ds) ->
  exists n, set_date td (dtext ys ++ B "/" ++ dtext ms ++ B "/" ++ dtext ds) = Ok n /\ civil n = (num ys, num ms, num ds).
Proof.
  intros td ys ms ds Hy Hm Hd H1 V. exists (go_date (num ys) (num ms) (num ds)). split; [|apply civil_go_date, V].
  assert (K : date_ok ys ms ds) by (repeat split; try apply Hm; try apply Hd; right; right; exact Hy).
  pose proof (set_date_text td ys ms ds K) as E. destruct td as [[y m] d]. destruct ys as [|y0 ys]; [destruct Hy as [_ Hy]; discriminate Hy|].
  unfold resolve_year in E. replace (num (y0 :: ys) <? 100) with false in E by (symmetry; apply Z.ltb_ge, H1). exact E.
Qed.
Print Assumptions C136_day.
(** an offset counts from that day *)
Theorem C136_offset : forall td ys ms neg ns u, digits_n 4 ys -> ms = [] \/ (d12_ok ms /\ 1 <= num ms <= 12) -> digits_ok ns -> ns <> [] -> num ns <= 10 ^ 9 -> In u (B "dwmy") ->
  let month := match ms with [] => 1 | _ => num ms end in
  set_date td (dtext ys ++ match ms with [] => [] | _ => B "/" ++ dtext ms end ++ offset_text neg ns u) =
  Ok (match u with
      | "d"%char => go_date (num ys) month 1 + signed neg (num ns)
      | "w"%char => go_date (num ys) month 1 + 7 * signed neg (num ns)
      | "m"%char => go_date (num ys) (month + signed neg (num ns)) 1
      | _ => go_date (num ys + signed neg (num ns)) month 1
      end).
Proof.
  intros td ys ms neg ns u H Hm Hn Nn Hb Hu month.
  replace (dtext ys ++ match ms with [] => [] | _ => B "/" ++ dtext ms end ++ offset_text neg ns u) with ((ym_text ys ms ++ offset_text neg ns u) ++ [])
    by (rewrite app_nil_r; unfold ym_text; destruct ms; [reflexivity|rewrite <- app_assoc; reflexivity]).
  rewrite set_ym_offset; [|split; [assumption|destruct Hm as [Hm|[Hm _]]; [left|right]; exact Hm]|assumption|assumption|clear - Hb; unfold int64_max; lia|cbn in Hu; intuition (subst; reflexivity)].
  f_equal. assert (Em : first_day ys ms = go_date (num ys) month 1) by reflexivity. rewrite Em. clear Em.
  assert (R : 1 <= month <= 12) by (unfold month; destruct Hm as [->|[[_ Lm] Hm]]; [lia|]; destruct ms as [|m0 ms']; [cbn in Lm; lia|exact Hm]).
  assert (C : civil (go_date (num ys) month 1) = (num ys, month, 1)) by (apply civil_go_date; split; [exact R|apply first_valid, R]).
  cbn in Hu. destruct Hu as [<-|[<-|[<-|[<-|[]]]]]; [apply C18_days|apply C18_days| |]; unfold apply_offset; cbn; unfold add_date, year_of, month_of, day_of; rewrite C, !Z.add_0_r; reflexivity.
Qed.
Print Assumptions C136_offset.
(** the notation YYYY-MM-DD is not understood: the date is the first of January of that year *)
Theorem C136_iso : forall td ys ms ds, digits_n 4 ys -> digits_n 2 ms -> digits_n 2 ds ->
  set_date td (dtext ys ++ B "-" ++ dtext ms ++ B "-" ++ dtext ds) = Ok (go_date (num ys) 1 1).
Proof.
  intros td ys ms ds H [Hm Lm] [Hd Ld]. assert (K : ym_ok ys []) by (split; [exact H|left; reflexivity]). apply (set_ym td ys [] _ K); [reflexivity|].
  apply fails_grp. cbn [rseq]. apply fails_set_seq_r. apply fails_plus_seq. intros run rest E Nr Hr. apply fails_set. 
  destruct ms as [|a [|b [|]]]; try discriminate Lm. inversion Hm as [|? ? Ha Hm']; subst. inversion Hm' as [|? ? Hb _]; subst. cbn [dtext map app] in E.
  destruct run as [|r1 [|r2 [|r3 run]]]; [tauto| | |]; cbn [app] in E; injection E as <- E.
  - subst rest. cbn [hd_not]. apply not_true_iff_false. intros X. apply unit_not_digit in X. rewrite digit_char_is_digit in X by exact Hb. discriminate.
  - subst rest. reflexivity.
  - subst r3. cbn [forallb] in Hr. rewrite !andb_true_iff in Hr. destruct Hr as (_ & _ & X & _). discriminate X.
Qed.
Print Assumptions C136_iso.
Example C136_hypotheses : digits_n 4 [2;0;2;0] /\ d12_ok [1;1] /\ d12_ok [5] /\ 1 <= num [1;1] <= 12 /\ dtext [2;0;2;0] ++ B "/" ++ dtext [1;1] = B "2020/11" /\
  set_date (2024, 6, 15) (B "2020/11+2m") = Ok (go_date 2021 1 1) /\ valid_date 2020 2 29 /\ set_date (2024, 6, 15) (B "2020/2/29") = Ok (go_date 2020 2 29) /\ set_date (2024, 6, 15) (B "2020-1d") = Ok (go_date 2019 12 31).
Proof.
  repeat match goal with |- _ /\ _ => split end; try (split; [repeat constructor; lia|cbn; lia]); try (change (num [1;1]) with 11; lia); try (vm_compute; reflexivity).
Qed.
Print Assumptions C136_hypotheses.
