(** C135: which texts a date option accepts. *)
From Verif Require Import Base M_Regex M_Date S_Decimal S_DateText S_DateOption L_Dec L_Regex L_RegexSound L_DateText L_Csv2.

Lemma isd_val c : is_digit c = true -> exists v, 0 <= v <= 9 /\ c = digit_char v.
Proof. intros H. exists (digit_val c). split; [apply is_digit_val, H|symmetry; apply is_digit_char, H]. Qed.
Lemma d12_inv s s' n : mt d12 s s' n -> exists ds, d12_ok ds /\ s = dtext ds ++ s' /\ n = [].
Proof.
  intros H. apply mt_seq_inv in H as (s1 & n1 & n2 & H1 & H2 & ->). apply mt_set_inv in H1 as (c & -> & Hc & ->).
  destruct (isd_val c Hc) as (v & Hv & ->). apply mt_opt_inv in H2 as [H2|[-> ->]].
  - apply mt_set_inv in H2 as (c2 & -> & Hc2 & ->). destruct (isd_val c2 Hc2) as (v2 & Hv2 & ->). exists [v; v2]. repeat split; cbn; try lia. repeat constructor; lia.
  - exists [v]. repeat split; cbn; try lia. repeat constructor; lia.
Qed.
Lemma mt_digit v s : 0 <= v <= 9 -> mt d_ (digit_char v :: s) s [].
Proof. intros H. apply mt_set, digit_char_is_digit, H. Qed.
Lemma d12_mt ds s : d12_ok ds -> mt d12 (dtext ds ++ s) s [].
Proof.
  intros [Hd Hl]. destruct ds as [|a [|b [|c r]]]; cbn in Hl; try lia; inversion Hd as [|? ? Ha Hd']; subst.
  - apply (mt_seq d_ (ROpt d_) (digit_char a :: s) s s [] []); [apply mt_digit, Ha|apply mt_opt_none].
  - inversion Hd'; subst. apply (mt_seq d_ (ROpt d_) (digit_char a :: digit_char b :: s) (digit_char b :: s) s [] []); [apply mt_digit, Ha|apply mt_opt_some, mt_digit; assumption].
Qed.
Lemma char_mt c s : mt (rchar c) (c :: s) s [].
Proof. apply mt_set. unfold eqc. apply Ascii.eqb_refl. Qed.
Lemma char_inv c s s' n : mt (rchar c) s s' n -> s = c :: s' /\ n = [].
Proof.
  intros H. apply mt_set_inv in H as (c' & -> & E & ->). split; [|reflexivity]. f_equal. unfold eqc in E. apply Ascii.eqb_eq in E. congruence.
Qed.
Lemma app_cons_assoc {A} (a : list A) x b : a ++ x :: b = (a ++ [x]) ++ b. Proof. rewrite <- app_assoc. reflexivity. Qed.
Lemma dtext_nonempty ds s : ds <> [] -> dtext ds ++ s <> s.
Proof. intros N E. apply (f_equal (@List.length ascii)) in E. rewrite app_length in E. unfold dtext in E. rewrite map_length in E. destruct ds; [tauto|cbn in E; lia]. Qed.
Lemma d12_ne ds : d12_ok ds -> ds <> []. Proof. intros [_ H] ->. cbn in H. lia. Qed.

(** what the first part matches, and the groups it leaves *)
Lemma ymd_inv s s' n : mt rx_ymd s s' n -> begins_with_date s /\ (cap "ymd" n <> [] \/ (cap "ymd" n = [] /\ cap "ym" n <> [])).
Proof.
  intros H. apply mt_alt_inv in H as [H|H].
  - apply mt_grp_inv in H as (t & n' & E & H & ->). cbn [rseq] in H.
    apply mt_seq_inv in H as (s1 & n1 & n2 & H1 & H2 & ->). apply mt_seq_inv in H2 as (s2 & n3 & n4 & H2 & H3 & ->).
    apply mt_grp_inv in H2 as (t2 & n5 & E2 & H2 & ->). apply d12_inv in H2 as (ms & Hm & E2' & ->).
    apply mt_seq_inv in H3 as (s3 & n6 & n7 & H3 & H4 & ->). apply char_inv in H3 as [-> ->].
    apply mt_grp_inv in H4 as (t3 & n8 & E3 & H4 & ->). apply d12_inv in H4 as (ds & Hd & E3' & ->).
    assert (Nt : t <> []).
    { intros ->. cbn in E. subst s'. destruct (mt_suffix _ _ _ _ H1) as (u & Eu). subst s1 s3.
      apply (f_equal (@List.length ascii)) in Eu. rewrite E2' in Eu. rewrite !app_length in Eu. cbn in Eu. rewrite app_length in Eu. lia. }
    split; [|left; cbn [cap]; exact Nt].
    apply mt_opt_inv in H1 as [H1|[-> ->]].
    + apply mt_seq_inv in H1 as (s4 & n9 & n10 & H1 & H5 & ->). apply char_inv in H5 as [-> ->].
      apply mt_grp_inv in H1 as (t4 & n11 & E4 & H1 & ->). apply mt_seq_inv in H1 as (s5 & n12 & n13 & H1 & H5 & ->). apply mt_set_inv in H1 as (c1 & -> & Hc1 & ->).
      apply mt_seq_inv in H5 as (s6 & n14 & n15 & H5 & H6 & ->). apply mt_set_inv in H5 as (c2 & -> & Hc2 & ->).
      destruct (isd_val c1 Hc1) as (v1 & Hv1 & ->). destruct (isd_val c2 Hc2) as (v2 & Hv2 & ->).
      apply mt_opt_inv in H6 as [H6|[E6 ->]].
      * apply mt_seq_inv in H6 as (s7 & n16 & n17 & H6 & H7 & ->). apply mt_set_inv in H6 as (c3 & -> & Hc3 & ->). apply mt_set_inv in H7 as (c4 & -> & Hc4 & ->).
        destruct (isd_val c3 Hc3) as (v3 & Hv3 & ->). destruct (isd_val c4 Hc4) as (v4 & Hv4 & ->).
        apply (bd_year [v1; v2; v3; v4]). split; [repeat constructor; lia|reflexivity].
      * rewrite <- E6, E2'. change (begins_with_date (md_text [v1; v2] ms ++ "/"%char :: s3)). apply bd_md; [|exact Hm]. split; [repeat constructor; lia|cbn; lia].
    + rewrite E2', E3'. change (begins_with_date (dtext ms ++ "/"%char :: dtext ds ++ s')). rewrite app_cons_assoc, app_assoc.
      replace ((dtext ms ++ ["/"%char]) ++ dtext ds) with (md_text ms ds) by (unfold md_text; rewrite app_assoc; reflexivity). apply bd_md; assumption.
  - apply mt_grp_inv in H as (t & n' & E & H & ->). apply mt_seq_inv in H as (s1 & n1 & n2 & H1 & H2 & ->).
    apply mt_grp_inv in H1 as (t1 & n3 & E1 & H1 & ->). cbn [rseq] in H1.
    apply mt_seq_inv in H1 as (s2 & n4 & n5 & H1 & H3 & ->). apply mt_set_inv in H1 as (c1 & -> & Hc1 & ->).
    apply mt_seq_inv in H3 as (s3 & n6 & n7 & H1 & H3 & ->). apply mt_set_inv in H1 as (c2 & -> & Hc2 & ->).
    apply mt_seq_inv in H3 as (s4 & n8 & n9 & H1 & H3 & ->). apply mt_set_inv in H1 as (c3 & -> & Hc3 & ->). apply mt_set_inv in H3 as (c4 & -> & Hc4 & ->).
    destruct (isd_val c1 Hc1) as (v1 & Hv1 & ->). destruct (isd_val c2 Hc2) as (v2 & Hv2 & ->). destruct (isd_val c3 Hc3) as (v3 & Hv3 & ->). destruct (isd_val c4 Hc4) as (v4 & Hv4 & ->).
    split; [apply (bd_year [v1; v2; v3; v4]); split; [repeat constructor; lia|reflexivity]|]. right.
    assert (Nt : t <> []).
    { intros ->. cbn in E. subst s'. destruct (mt_suffix _ _ _ _ H2) as (u & Eu). apply (f_equal (@List.length ascii)) in Eu. cbn in Eu. rewrite app_length in Eu. cbn in Eu. lia. }
    assert (En : cap "ymd" n2 = []).
    { apply mt_opt_inv in H2 as [H2|[_ ->]]; [|reflexivity]. apply mt_seq_inv in H2 as (s5 & n10 & n11 & H2 & H4 & ->). apply char_inv in H2 as [-> ->].
      apply mt_grp_inv in H4 as (t5 & n12 & E5 & H4 & ->). apply d12_inv in H4 as (? & _ & _ & ->). reflexivity. }
    split; [|exact Nt]. cbn [cap String.eqb Ascii.eqb Bool.eqb app]. 
    apply mt_opt_inv in H2 as [H2|[_ ->]]; [|reflexivity]. apply mt_seq_inv in H2 as (s5 & n10 & n11 & H2 & H4 & ->). apply char_inv in H2 as [-> ->].
    apply mt_grp_inv in H4 as (t5 & n12 & E5 & H4 & ->). apply d12_inv in H4 as (? & _ & _ & ->). reflexivity.
Qed.
Lemma offset_inv s s' n : mt rx_offset s s' n -> begins_with_date s /\ exists t, t <> [] /\ n = [("offset"%string, t)].
Proof.
  intros H. apply mt_grp_inv in H as (t & n' & E & H & ->). cbn [rseq] in H.
  apply mt_seq_inv in H as (s1 & n1 & n2 & H1 & H2 & ->). apply mt_set_inv in H1 as (c & -> & Hc & ->).
  apply mt_seq_inv in H2 as (s2 & n3 & n4 & H2 & H3 & ->). apply mt_plus_set_inv in H2 as (run & Nr & -> & Hr & ->). apply mt_set_inv in H3 as (u & -> & Hu & ->).
  destruct (digits_text run Hr) as (ds & Hd & -> & Hl). split.
  - assert (Iu : In u (B "dwmy|")).
    { unfold is_unit in Hu. apply existsb_exists in Hu as (x & Ix & Ex). unfold eqc in Ex. apply Ascii.eqb_eq in Ex. subst x. cbn in Ix |- *. tauto. }
    assert (Nd : ds <> []) by (intros ->; apply Nr; reflexivity).
    apply orb_true_iff in Hc. assert (Ec : c = "+"%char \/ c = "-"%char).
    { unfold eqc in Hc. destruct Hc as [Hc|Hc]; apply Ascii.eqb_eq in Hc; auto. }
    destruct Ec as [->| ->].
    + pose proof (bd_offset false ds u s' Hd Nd Iu) as P. unfold offset_text in P. rewrite <- !app_assoc in P. exact P.
    + pose proof (bd_offset true ds u s' Hd Nd Iu) as P. unfold offset_text in P. rewrite <- !app_assoc in P. exact P.
  - exists t. split; [|reflexivity]. intros ->. cbn in E. apply (f_equal (@List.length ascii)) in E. cbn in E. rewrite app_length in E. cbn in E. lia.
Qed.
(** every text that begins with a date is matched *)
Lemma begins_mt s : begins_with_date s -> (exists s' n, mt rx_ymd s s' n) \/ exists s' n, mt rx_offset s s' n.
Proof.
  intros [ms ds rest Hm Hd|ys rest [Hy Hl]|neg ns u rest Hn Nn Hu].
  - left. eexists rest, _. apply mt_alt_l, mt_grp. cbn [rseq]. eapply mt_seq; [apply mt_opt_none|]. unfold md_text. rewrite <- !app_assoc.
    eapply mt_seq; [apply mt_grp, d12_mt, Hm|]. cbn [app]. eapply mt_seq; [apply char_mt|]. apply mt_grp, d12_mt, Hd.
  - left. destruct ys as [|a [|b [|c [|d [|]]]]]; try discriminate Hl. inversion Hy as [|? ? Ha Hy1]; subst. inversion Hy1 as [|? ? Hb Hy2]; subst. inversion Hy2 as [|? ? Hc Hy3]; subst. inversion Hy3 as [|? ? Hd _]; subst.
    eexists rest, _. apply mt_alt_r, mt_grp. eapply mt_seq; [|apply mt_opt_none]. apply mt_grp. cbn [rseq dtext map app].
    eapply mt_seq; [apply mt_digit, Ha|]. eapply mt_seq; [apply mt_digit, Hb|]. eapply mt_seq; [apply mt_digit, Hc|apply mt_digit, Hd].
  - right. eexists rest, _. apply mt_grp. cbn [rseq]. unfold offset_text. rewrite <- !app_assoc.
    assert (P : mt (rplus d_) (dtext ns ++ [u] ++ rest) ([u] ++ rest) []).
    { destruct ns as [|n0 ns]; [tauto|]. inversion Hn as [|? ? H0 Hn']; subst. eapply (mt_seq _ _ _ _ _ [] []); [apply mt_digit, H0|].
      clear - Hn'. induction Hn' as [|v ns Hv _ IH]; [apply mt_star_nil|]. eapply (mt_star_cons _ _ _ _ [] []); [apply mt_digit, Hv|exact IH]. }
    assert (U : mt (RSet is_unit) ([u] ++ rest) rest []).
    { apply mt_set. unfold is_unit. apply existsb_exists. exists u. split; [cbn in Hu |- *; tauto|unfold eqc; apply Ascii.eqb_refl]. }
    destruct neg; cbn [app]; (eapply mt_seq; [apply mt_set; reflexivity|]; eapply mt_seq; [exact P|exact U]).
Qed.

(** the date read from the groups *)
Lemma parse_date_ok td cs : cap "ymd" cs <> [] \/ cap "ym" cs <> [] \/ cap "offset" cs <> [] -> exists t, parse_date td cs = Ok t.
Proof.
  destruct td as [[y m] d]. intros H. unfold parse_date.
  match goal with |- exists _, bind ?b _ = _ => assert (K : exists x, b = Ok x) end.
  { destruct (cap "ymd" cs); [|eauto]. destruct (cap "ym" cs); [|eauto]. destruct (cap "offset" cs); [tauto|eauto]. }
  destruct K as [[[y1 m1] d1] ->]. cbn [bind]. destruct (cap "offset" cs); eauto.
Qed.
Lemma parse_date_fail td cs : cap "ymd" cs = [] -> cap "ym" cs = [] -> cap "offset" cs = [] -> parse_date td cs = Fail.
Proof. destruct td as [[y m] d]. intros H1 H2 H3. unfold parse_date. rewrite H1, H2, H3. reflexivity. Qed.

(** the parts of the match *)
Lemma date_rex : DateREX = RGrp "date" (RSeq (ROpt rx_ymd) (ROpt rx_offset)). Proof. reflexivity. Qed.
Lemma search_prefix r s x : rprefix r s = Some x -> rsearch r s = Some x.
Proof. intros H. destruct s; cbn [rsearch]; rewrite H; reflexivity. Qed.
Lemma set_date_parts td s : 
  (begins_with_date s /\ exists t, set_date td s = Ok t) \/ (~ begins_with_date s /\ set_date td s = Fail).
Proof.
  unfold set_date. rewrite date_rex.
  set (k2 := fun (s0 : bytes) (s' : bytes) (cs' : caps) => Some (s', ("date"%string, firstn (List.length s0 - List.length s') s0) :: cs')).
  set (k1 := fun (s' : bytes) (cs' : caps) => rmatch (ROpt rx_offset) s' cs' (k2 s)).
  assert (E : rprefix (RGrp "date" (RSeq (ROpt rx_ymd) (ROpt rx_offset))) s = match rmatch rx_ymd s [] k1 with Some x => Some x | None => k1 s [] end) by reflexivity.
  assert (K2 : forall s' cs, exists off, k1 s' cs = Some off /\ exists rest x, off = (rest, ("date"%string, x) :: cs) \/ (begins_with_date s' /\ exists t, t <> [] /\ off = (rest, ("date"%string, x) :: ("offset"%string, t) :: cs))).
  { intros s' cs. unfold k1. cbn [rmatch]. destruct (rmatch rx_offset s' cs (k2 s)) as [off|] eqn:Eo.
    - exists off. split; [reflexivity|]. apply rmatch_sound in Eo as (s2 & new & M & Eo). destruct (offset_inv _ _ _ M) as (Hb & t & Nt & ->).
      unfold k2 in Eo. injection Eo as <-. eexists _, _. right. split; [exact Hb|]. exists t. split; [exact Nt|reflexivity].
    - eexists. split; [reflexivity|]. eexists _, _. left. reflexivity. }
  destruct (rmatch rx_ymd s [] k1) as [[rest cs]|] eqn:Ey.
  - left. apply rmatch_sound in Ey as (s' & new & M & Ey). destruct (ymd_inv _ _ _ M) as (Hb & Hc). split; [exact Hb|].
    rewrite (search_prefix _ _ _ E). apply parse_date_ok. destruct (K2 s' (new ++ [])) as (off & E1 & r & x & E2). rewrite Ey in E1. injection E1 as <-. rewrite app_nil_r in E2.
    destruct E2 as [E2|(_ & t & _ & E2)]; injection E2 as _ ->; cbn [cap String.eqb Ascii.eqb Bool.eqb]; tauto.
  - assert (Ny : forall s' n, ~ mt rx_ymd s s' n).
    { intros s' n M. apply (rmatch_complete _ _ _ _ M _ [] k1); [| |exact Ey].
      - intros s0 c1 c2 F. destruct (K2 s0 c1) as (off & F' & _). congruence.
      - destruct (K2 s' []) as (off & F' & _). congruence. }
    unfold k1 in E. cbn [rmatch] in E. fold rx_offset in E. destruct (rmatch rx_offset s [] (k2 s)) as [[rest cs]|] eqn:Eo; rewrite (search_prefix _ _ _ E); clear E.
    + left. apply rmatch_sound in Eo as (s2 & new & M & Eo). destruct (offset_inv _ _ _ M) as (Hb & t & Nt & ->). split; [exact Hb|].
      unfold k2 in Eo. injection Eo as _ <-. apply parse_date_ok. right. right. exact Nt.
    + right. split; [|apply parse_date_fail; reflexivity]. intros Hb. destruct (begins_mt s Hb) as [(s' & n & M)|(s' & n & M)]; [eapply Ny, M|].
      apply (rmatch_complete _ _ _ _ M _ [] (k2 s)); [intros ? ? ?; discriminate|discriminate|exact Eo].
Qed.

(** ** C135 *)
(** A date option is accepted exactly if its text begins with M/D, a year of four digits or an offset; else it is an error *)
Theorem C135_accepted_partial : forall td s,
  ((exists t, set_date td s = Ok t) <-> begins_with_date s) /\ (set_date td s = Fail <-> ~ begins_with_date s).
Proof.
  intros td s. destruct (set_date_parts td s) as [(Hb & t & E)|(Hb & E)]; rewrite E; split; split; intros H; try tauto; try discriminate; eauto.
  destruct H as [t H]. discriminate.
Qed.
Print Assumptions C135_accepted_partial.
(** ... but it need not be a date altogether: what follows is ignored, so that dates in other notations are taken for different days *)
Lemma day_no_o s : day_text s -> ~ In "o"%char s.
Proof.
  assert (D : forall ds, digits_ok ds -> ~ In "o"%char (dtext ds)).
  { intros ds H. induction H as [|v ds Hv _ IH]; [tauto|]. intros [E|I]; [|tauto]. assert (X : is_digit "o"%char = true) by (rewrite <- E; apply digit_char_is_digit, Hv). discriminate X. }
  assert (S : ~ In "o"%char (B "/")) by (intros [E|[]]; discriminate).
  intros [ms ds [Hm _] [Hd _]|ys ms ds Hy [Hm _] [Hd _]|ys [Hy _]|ys ms [Hy _] [Hm _]]; unfold ymd_text, md_text; rewrite ?in_app_iff; intros I;
    repeat match goal with I : _ \/ _ |- _ => destruct I | H : digits_n _ _ |- _ => destruct H as [H _] end; try (eapply D; [|eassumption]; eassumption); try (eapply S; eassumption).
Qed.
Lemma whole_no_o s : whole_date s -> ~ In "o"%char s.
Proof.
  assert (O : forall neg ns u, digits_ok ns -> In u (B "dwmy|") -> ~ In "o"%char (offset_text neg ns u)).
  { intros neg ns u Hn Hu. unfold offset_text. rewrite !in_app_iff. intros [I|[I|I]].
    - destruct neg, I as [E|[]]; discriminate.
    - clear Hu. induction Hn as [|v ns Hv _ IH]; [destruct I|]. destruct I as [E|I]; [|tauto]. assert (X : is_digit "o"%char = true) by (rewrite <- E; apply digit_char_is_digit, Hv). discriminate X.
    - destruct I as [E|[]]. subst u. repeat (destruct Hu as [Hu|Hu]; [discriminate Hu|]). destruct Hu. }
  intros [s' H|neg ns u Hn _ Hu|s' neg ns u H Hn _ Hu]; [apply day_no_o, H|apply O; assumption|]. rewrite in_app_iff. intros [I|I]; [eapply day_no_o; eassumption|eapply O; eassumption].
Qed.
Theorem C135_whole_text_refuted : ~ (forall td s t, set_date td s = Ok t -> whole_date s).
Proof.
  intros H. specialize (H (2024, 6, 15) (B "5/6 or later") (go_date 2024 5 6)).
  apply (whole_no_o (B "5/6 or later")); [apply H; vm_compute; reflexivity|]. cbn. tauto.
Qed.
Print Assumptions C135_whole_text_refuted.
(** ... so that a date in another notation is taken for a different day (see also C136_iso) *)
Example C135_other_notations : 
  set_date (2024, 6, 15) (B "2020-05-01") = Ok (go_date 2020 1 1) /\ set_date (2024, 6, 15) (B "12/31/2019") = Ok (go_date 2014 7 20) /\
  set_date (2024, 6, 15) (B "20200501") = Ok (go_date 2020 1 1) /\ set_date (2024, 6, 15) (B "5/6 or later") = Ok (go_date 2024 5 6).
Proof. vm_compute. repeat split. Qed.
Print Assumptions C135_other_notations.
(** every whole date is accepted; the hypotheses are met by concrete texts *)
Theorem C135_whole_accepted : forall td s, whole_date s -> exists t, set_date td s = Ok t.
Proof.
  intros td s H. apply C135_accepted_partial. 
  assert (D : forall s, day_text s -> forall rest, begins_with_date (s ++ rest)).
  { intros s0 [ms ds Hm Hd|ys ms ds Hy Hm Hd|ys Hy|ys ms Hy Hm] rest.
    - apply bd_md; assumption.
    - destruct Hy as [Hy|Hy].
      + unfold ymd_text, md_text. replace ((dtext ys ++ B "/" ++ dtext ms ++ B "/" ++ dtext ds) ++ rest) with (md_text ys ms ++ B "/" ++ dtext ds ++ rest) by (unfold md_text; rewrite <- !app_assoc; reflexivity).
        apply bd_md; [|exact Hm]. destruct Hy as [Hy L]. split; [exact Hy|rewrite L; lia].
      + unfold ymd_text. rewrite <- app_assoc. apply bd_year, Hy.
    - apply bd_year, Hy.
    - rewrite <- app_assoc. apply bd_year, Hy. }
  destruct H as [s H|neg ns u Hn Nn Hu|s neg ns u H Hn Nn Hu].
  - rewrite <- (app_nil_r s). apply D, H.
  - rewrite <- (app_nil_r (offset_text neg ns u)). apply bd_offset; assumption.
  - apply D, H.
Qed.
Print Assumptions C135_whole_accepted.
Example C135_hypotheses : whole_date (B "2020/5/1+3m") /\ begins_with_date (B "2020-05-01") /\ ~ begins_with_date (B "tomorrow") /\ ~ begins_with_date [].
Proof.
  repeat split.
  - apply (wd_both (B "2020/5/1") false [3] "m"%char); [apply (dt_ymd [2;0;2;0] [5] [1]); [right| |]|..]; try discriminate; try (cbn; tauto); repeat split; try (cbn; lia); repeat constructor; lia.
  - apply (bd_year [2;0;2;0] (B "-05-01")). split; [repeat constructor; lia|reflexivity].
  - apply (proj2 (C135_accepted_partial (2024, 6, 15) (B "tomorrow"))). vm_compute. reflexivity.
  - apply (proj2 (C135_accepted_partial (2024, 6, 15) [])). vm_compute. reflexivity.
Qed.
Print Assumptions C135_hypotheses.
