(** Lemmas for Properties_Pattern.v *)
From Verif Require Import Base M_Regex M_Names M_Pattern S_Pattern L_Dec L_Regex L_RegexSound L_Names L_RoundTrip.

Lemma lower_same a b : eqc (lower a) (lower b) = true <-> same_letter b a.
Proof.
  split.
  - intros H. apply Ascii.eqb_eq in H. unfold same_letter, lower in *.
    assert (U : forall c, is_upper c = true -> exists i, 0 <= i < 26 /\ c = chr (65 + i) /\ chr (code c + 32) = chr (97 + i)).
    { intros c Hc. unfold is_upper in Hc. exists (code c - 65). split; [lia|]. split; [|f_equal; lia]. replace (65 + (code c - 65)) with (code c) by lia. symmetry. apply chr_code. }
    destruct (is_upper a) eqn:Ea, (is_upper b) eqn:Eb.
    + destruct (U a Ea) as (i & Hi & A1 & A2), (U b Eb) as (j & Hj & B1 & B2). left. rewrite A2, B2 in H.
      assert (97 + i = 97 + j) by (rewrite <- (code_chr (97 + i)), <- (code_chr (97 + j)) by lia; congruence). assert (i = j) by lia. congruence.
    + destruct (U a Ea) as (i & Hi & A1 & A2). right. exists i. split; [exact Hi|]. right. rewrite A2 in H. auto.
    + destruct (U b Eb) as (i & Hi & A1 & A2). right. exists i. split; [exact Hi|]. left. rewrite A2 in H. auto.
    + left. auto.
  - intros [->|(i & Hi & [(-> & ->)|(-> & ->)])]; apply Ascii.eqb_eq; [reflexivity| |]; unfold lower, is_upper; rewrite !code_chr by lia.
    + replace ((65 <=? 97 + i) && (97 + i <=? 90)) with false by lia. replace ((65 <=? 65 + i) && (65 + i <=? 90)) with true by lia. f_equal. lia.
    + replace ((65 <=? 97 + i) && (97 + i <=? 90)) with false by lia. replace ((65 <=? 65 + i) && (65 + i <=? 90)) with true by lia. f_equal. lia.
Qed.
(** a match, whatever the captures *)
Definition mm (r : rx) (s s' : bytes) : Prop := exists n, mt r s s' n.
Lemma mm_seq a b s s' : mm (RSeq a b) s s' <-> exists s1, mm a s s1 /\ mm b s1 s'.
Proof.
  split.
  - intros (n & H). apply mt_seq_inv in H as (s1 & n1 & n2 & H1 & H2 & _). exists s1. split; eexists; eassumption.
  - intros (s1 & (n1 & H1) & (n2 & H2)). eexists. econstructor; eassumption.
Qed.
Lemma mm_set f s s' : mm (RSet f) s s' <-> exists c, s = c :: s' /\ f c = true.
Proof. split; [intros (n & H); apply mt_set_inv in H as (c & -> & E & _); eauto|intros (c & -> & E); eexists; constructor; exact E]. Qed.
Lemma mm_eps s s' : mm REps s s' <-> s = s'.
Proof. split; [intros (n & H); inversion H; reflexivity|intros ->; eexists; constructor]. Qed.
Lemma mm_end s s' : mm REnd s s' <-> s = [] /\ s' = [].
Proof. split; [intros (n & H); inversion H; auto|intros (-> & ->); eexists; constructor]. Qed.
Lemma mm_star f s s' : mm (RStar (RSet f)) s s' <-> exists run, s = run ++ s' /\ forallb f run = true.
Proof.
  split; [intros (n & H); apply mt_star_set_inv in H as (run & -> & E & _); eauto|]. intros (run & -> & E). induction run as [|c run IH]; [eexists; constructor|].
  cbn [forallb app] in *. apply andb_true_iff in E as (E1 & E2). destruct (IH E2) as (n & H). eexists. econstructor; [constructor; exact E1|exact H].
Qed.
Lemma found_mm r s : (match rsearch r s with Some _ => true | None => false end) = true <-> exists pre s1 rest, s = pre ++ s1 /\ mm r s1 rest.
Proof.
  split.
  - destruct (rsearch r s) as [[rest cs]|] eqn:E; [|discriminate]. intros _. apply rsearch_sound in E as (pre & s1 & -> & M). exists pre, s1, rest. split; [reflexivity|eexists; exact M].
  - intros (pre & s1 & rest & -> & n & M). assert (H : rsearch r (pre ++ s1) <> None); [|destruct (rsearch r (pre ++ s1)); congruence].
    assert (P : rprefix r s1 <> None). { apply (rmatch_complete r s1 rest n M); [intros a b c X; discriminate X|discriminate]. }
    induction pre as [|c pre IH].
    + cbn [app]. destruct s1; cbn [rsearch]; destruct (rprefix r _); congruence.
    + cbn [app rsearch]. destruct (rprefix r (c :: pre ++ s1)); [discriminate|exact IH].
Qed.
Lemma prefix_mm r s : (match rprefix r s with Some _ => true | None => false end) = true <-> exists rest, mm r s rest.
Proof.
  split.
  - destruct (rprefix r s) as [[rest cs]|] eqn:E; [|discriminate]. intros _. apply rmatch_sound in E as (s1 & new & M & _). exists s1, new. exact M.
  - intros (rest & n & M). assert (H : rprefix r s <> None) by (apply (rmatch_complete r s rest n M); [intros a b c X; discriminate X|discriminate]). destruct (rprefix r s); congruence.
Qed.
(** ** words *)
Lemma part_char_iff c : part_char c = true <-> part_of_name c.
Proof.
  unfold part_char, part_of_name, is_word. rewrite !orb_true_iff. unfold eqc. rewrite !Ascii.eqb_eq. cbn [In B list_ascii_of_string]. intuition congruence.
Qed.
Lemma plain_not w c : plain w -> In c (B ":$^") -> ~ In c w.
Proof.
  intros P I J. unfold plain in P. rewrite Forall_forall in P. apply P, part_char_iff in J. cbn in I. destruct I as [<-|[<-|[<-|[]]]]; discriminate J.
Qed.
Lemma mm_word w : plain w -> forall s s', mm (word_rx w) s s' <-> exists w', s = w' ++ s' /\ same_letters w w'.
Proof.
  induction w as [|c w IH]; intros P s s'.
  - cbn [word_rx]. rewrite mm_eps. split; [intros ->; exists []; split; [reflexivity|constructor]|intros (w' & -> & F); inversion F; reflexivity].
  - inversion P as [|? ? Pc Pw]; subst. cbn [word_rx]. assert (E : eqc c "$"%char = false).
    { apply Ascii.eqb_neq. intros ->. apply part_char_iff in Pc. discriminate Pc. }
    rewrite E. unfold ci_char. rewrite mm_seq. split.
    + intros (s1 & H1 & H2). apply mm_set in H1 as (x & -> & Hx). apply (IH Pw) in H2 as (w' & -> & F). exists (x :: w'). split; [reflexivity|]. constructor; [apply lower_same, Hx|exact F].
    + intros (w' & -> & F). inversion F as [|? x ? w2 Hx F2]; subst. exists (w2 ++ s'). split; [apply mm_set; exists x; split; [reflexivity|apply lower_same, Hx]|apply (IH Pw); eauto].
Qed.
Lemma mm_word_end w : plain w -> forall s s', mm (word_rx (w ++ B "$")) s s' <-> mm (word_rx w) s [] /\ s' = [].
Proof.
  induction w as [|c w IH]; intros P s s'.
  - cbn [app word_rx B list_ascii_of_string]. change (eqc "$" "$") with true. cbn iota. rewrite mm_seq, mm_eps. split.
    + intros (s1 & H1 & H2). apply mm_end in H1 as (-> & ->). apply mm_eps in H2 as <-. auto.
    + intros (-> & ->). exists []. split; [apply mm_end; auto|apply mm_eps; reflexivity].
  - inversion P as [|? ? Pc Pw]; subst. cbn [app word_rx]. rewrite !mm_seq. split.
    + intros (s1 & H1 & H2). apply (IH Pw) in H2 as (H2 & ->). eauto.
    + intros ((s1 & H1 & H2) & ->). exists s1. split; [exact H1|]. apply (IH Pw). auto.
Qed.
(** ** joints *)
(** what may be between two words *)
Definition gap_ok (n : nat) (gap : bytes) : Prop :=
  forallb (fun c => part_char c || eqc c ":"%char) gap = true /\ (n = 0%nat -> colons gap = 1%nat).
Lemma colons_app a b : colons (a ++ b) = (colons a + colons b)%nat.
Proof. unfold colons. rewrite filter_app, app_length. reflexivity. Qed.
Lemma colons_none a : forallb part_char a = true -> colons a = 0%nat.
Proof.
  induction a as [|c a IH]; intros H; [reflexivity|]. cbn [forallb] in H. apply andb_true_iff in H as (H1 & H2). unfold colons in *. cbn [filter].
  assert (E : eqc c ":"%char = false) by (apply Ascii.eqb_neq; intros ->; discriminate H1). rewrite E. exact (IH H2).
Qed.
Lemma mm_single s s' : mm single s s' <-> exists gap, s = gap ++ s' /\ gap_ok 0 gap.
Proof.
  unfold single. rewrite mm_seq. split.
  - intros (s1 & H1 & H2). apply mm_star in H1 as (a & -> & Ha). apply mm_seq in H2 as (s2 & H2 & H3). apply mm_set in H2 as (c & -> & Hc). apply Ascii.eqb_eq in Hc as <-.
    apply mm_star in H3 as (b & -> & Hb). exists (a ++ ":"%char :: b). split; [rewrite <- app_assoc; reflexivity|]. split.
    + rewrite forallb_app. cbn [forallb]. change (eqc ":" ":") with true. rewrite orb_true_r. cbn [andb]. apply andb_true_iff. split; apply forallb_forall; intros x I; [rewrite forallb_forall in Ha; rewrite (Ha x I)|rewrite forallb_forall in Hb; rewrite (Hb x I)]; reflexivity.
    + intros _. change (":"%char :: b) with ([":"%char] ++ b). rewrite !colons_app, (colons_none a Ha), (colons_none b Hb). reflexivity.
  - intros (gap & -> & H & C). specialize (C eq_refl).
    assert (G : exists a b, gap = a ++ ":"%char :: b /\ forallb part_char a = true /\ forallb part_char b = true).
    { clear s'. revert C. induction gap as [|c gap IH]; [discriminate|]. cbn [forallb] in H. apply andb_true_iff in H as (H1 & H2). unfold colons. cbn [filter]. destruct (eqc c ":"%char) eqn:E.
      - apply Ascii.eqb_eq in E as ->. cbn [List.length]. intros C. injection C as C. exists [], gap. split; [reflexivity|]. split; [reflexivity|].
        apply forallb_forall. intros x I. rewrite forallb_forall in H2. pose proof (H2 x I) as X. apply orb_true_iff in X as [X|X]; [exact X|]. exfalso.
        assert (J : In x (filter (fun c => eqc c ":"%char) gap)) by (apply filter_In; auto). destruct (filter _ gap); [destruct J|discriminate C].
      - intros C. rewrite orb_false_r in H1. destruct (IH H2 C) as (a & b & -> & Ha & Hb). exists (c :: a), b. cbn. rewrite H1. auto. }
    destruct G as (a & b & -> & Ha & Hb). exists (":"%char :: b ++ s'). split; [apply mm_star; exists a; rewrite <- app_assoc; auto|]. apply mm_seq. exists (b ++ s').
    split; [apply mm_set; exists ":"%char; auto|apply mm_star; exists b; auto].
Qed.
Lemma mm_multiple n s s' : mm multiple s s' <-> exists gap, s = gap ++ s' /\ gap_ok (S n) gap.
Proof. unfold multiple. rewrite mm_star. split; intros (g & -> & H); exists g; (split; [reflexivity|]); [split; [exact H|discriminate]|apply H]. Qed.
(** the words after the first *)
Definition words_of (js : list joint) : list bytes := flat_map (fun j => repeat ([] : bytes) (fst j) ++ [snd j]) js.
Fixpoint path (js : list joint) (s s' : bytes) : Prop :=
  match js with
  | [] => s = s'
  | (n, w) :: js => exists gap s1 s2, s = gap ++ s1 /\ gap_ok n gap /\ mm (word_rx w) s1 s2 /\ path js s2 s'
  end.
Lemma words_rx_skip n ws r : words_rx (repeat ([] : bytes) n ++ ws) false r = words_rx ws false r.
Proof. induction n as [|n IH]; [reflexivity|exact IH]. Qed.
Lemma mm_words js : Forall (fun j => snd j <> []) js -> forall r s s', mm (words_rx (words_of js) true r) s s' <-> exists s1, mm r s s1 /\ path js s1 s'.
Proof.
  induction js as [|[n w] js IH]; intros F r s s'.
  - cbn [words_of flat_map words_rx path]. split; [intros H; eauto|intros (s1 & H & <-); exact H].
  - inversion F as [|? ? Hw F2]; subst. cbn [snd] in Hw. cbn [words_of flat_map fst snd]. fold (words_of js). rewrite <- app_assoc.
    assert (E : words_rx (repeat ([] : bytes) n ++ [w] ++ words_of js) true r = words_rx (words_of js) true (RSeq (RSeq r (match n with O => single | S _ => multiple end)) (word_rx w))).
    { destruct n as [|n]; cbn [repeat app words_rx]; [destruct w; [congruence|reflexivity]|]. rewrite words_rx_skip. cbn [words_rx]. destruct w; [congruence|reflexivity]. }
    match goal with |- mm (words_rx ?l true r) s s' <-> _ => change l with (repeat ([] : bytes) n ++ [w] ++ words_of js) end. rewrite E, (IH F2).
    assert (G : forall a b, mm (match n with O => single | S _ => multiple end) a b <-> exists gap, a = gap ++ b /\ gap_ok n gap) by (intros a b; destruct n; [apply mm_single|apply mm_multiple]).
    split.
    + intros (s3 & H & K). apply mm_seq in H as (s2 & H & W). apply mm_seq in H as (s1 & H & Gp). apply G in Gp as (gap & -> & Gp). eexists. split; [exact H|]. cbn [path]. exists gap, s2, s3. auto.
    + intros (s1 & H & K). cbn [path] in K. destruct K as (gap & s2 & s3 & -> & Gp & W & K). exists s3. split; [|exact K]. apply mm_seq. exists s2. split; [|exact W]. apply mm_seq. exists (gap ++ s2). split; [exact H|]. apply G. eauto.
Qed.
Lemma path_app js ks s s' : path (js ++ ks) s s' <-> exists s1, path js s s1 /\ path ks s1 s'.
Proof.
  revert s. induction js as [|[n w] js IH]; intros s; cbn [app path]; [split; [intros H; eauto|intros (s1 & -> & H); exact H]|]. split.
  - intros (gap & s1 & s2 & E & Gp & W & K). apply IH in K as (s3 & K1 & K2). exists s3. split; [|exact K2]. exists gap, s1, s2. auto.
  - intros (s3 & (gap & s1 & s2 & E & Gp & W & K1) & K2). exists gap, s1, s2. split; [exact E|]. split; [exact Gp|]. split; [exact W|]. apply IH. eauto.
Qed.
Definition all_part (s : bytes) : Prop := forallb (fun c => part_char c || eqc c ":"%char) s = true.
Lemma path_spells js : Forall (fun j => plain (snd j)) js -> forall s s', all_part s -> (path js s s' <-> exists m, s = m ++ s' /\ spells js m).
Proof.
  induction js as [|[n w] js IH]; intros F s s' A; cbn [path].
  - split; [intros ->; exists []; split; [reflexivity|constructor]|intros (m & -> & H); inversion H; reflexivity].
  - inversion F as [|? ? Pw F2]; subst. cbn [snd] in Pw. split.
    + intros (gap & s1 & s2 & -> & Gp & W & K). apply (mm_word w Pw) in W as (w' & -> & L). unfold all_part in A. rewrite !forallb_app, !andb_true_iff in A.
      apply (IH F2) in K as (m & -> & Sp); [|apply A]. exists (gap ++ w' ++ m). split; [rewrite <- !app_assoc; reflexivity|]. constructor; [exact L|apply Gp|exact Sp].
    + intros (m & -> & H). inversion H as [|? ? ? gap w' m2 L C Sp]; subst. exists gap, (w' ++ m2 ++ s'), (m2 ++ s'). unfold all_part in A. rewrite !forallb_app, !andb_true_iff in A.
      split; [rewrite <- !app_assoc; reflexivity|]. split; [split; [apply A|exact C]|]. split; [apply (mm_word w Pw); eauto|]. apply (IH F2); [unfold all_part; rewrite forallb_app; apply andb_true_iff; split; apply A|]. eauto.
Qed.
(** the text splits into the words *)
Lemma text_words w js : ~ In ":"%char w -> Forall (fun j => ~ In ":"%char (snd j)) js -> split_on ":"%char (pattern_text w js) = w :: words_of js.
Proof.
  intros Hw F. assert (E : pattern_text w js = join [":"%char] (w :: words_of js)).
  { unfold pattern_text. clear Hw F. revert w. induction js as [|[n v] js IH]; intros w; [cbn; apply app_nil_r|]. cbn [flat_map fst snd words_of]. fold (words_of js).
    specialize (IH v). assert (G : forall n, repeat ":"%char (S n) ++ join [":"%char] (v :: words_of js) = [":"%char] ++ join [":"%char] (repeat [] n ++ v :: words_of js)).
    { clear. induction n as [|n IH]; [reflexivity|]. cbn [repeat app] in *. rewrite IH. cbn [join]. destruct (repeat [] n ++ v :: words_of js) eqn:E; [destruct n; discriminate|]. reflexivity. }
    specialize (G n). rewrite <- app_assoc. change ([v] ++ flat_map _ js) with (v :: words_of js). rewrite <- IH in G. rewrite <- !app_assoc. cbn [join]. change ([v] ++ words_of js) with (v :: words_of js).
    match goal with |- _ = match ?l with _ => _ end => destruct l as [|x l0] eqn:El end; [destruct n; discriminate|]. f_equal. etransitivity; [exact G|]. f_equal. f_equal. exact El. }
  rewrite E. apply split_join; [discriminate|]. constructor; [exact Hw|]. clear -F. induction F as [|[n v] js H F IH]; [constructor|]. cbn [words_of flat_map fst snd] in *. rewrite <- app_assoc.
  apply Forall_app. split; [apply Forall_forall; intros x I; apply repeat_spec in I as ->; intros []|constructor; [exact H|exact IH]].
Qed.
(** ** elements of a name *)
Definition colon_free (s : bytes) : Prop := ~ In ":"%char s.
(** what follows an element *)
Definition tail_text (b : list bytes) : bytes := match b with [] => [] | _ => ":"%char :: join [":"%char] b end.
Lemma join_cons e b : join [":"%char] (e :: b) = e ++ tail_text b.
Proof. destruct b as [|f b]; [cbn; rewrite app_nil_r; reflexivity|reflexivity]. Qed.
Lemma tail_app a b : tail_text (a ++ b) = tail_text a ++ tail_text b.
Proof.
  induction a as [|e a IH]; [reflexivity|]. cbn [app tail_text]. rewrite !join_cons, IH. cbn [app]. rewrite app_assoc. reflexivity.
Qed.
Lemma tail_cons e b : tail_text (e :: b) = ":"%char :: e ++ tail_text b.
Proof. cbn [tail_text]. rewrite join_cons. reflexivity. Qed.
Lemma free_app a b : colon_free (a ++ b) <-> colon_free a /\ colon_free b.
Proof. unfold colon_free. rewrite in_app_iff. tauto. Qed.
Lemma colons_free a : colons a = 0%nat <-> colon_free a.
Proof.
  unfold colons, colon_free. split.
  - intros H I. assert (J : In ":"%char (filter (fun c => eqc c ":"%char) a)) by (apply filter_In; split; [exact I|reflexivity]). destruct (filter _ a); [destruct J|discriminate H].
  - intros H. destruct (filter (fun c => eqc c ":"%char) a) as [|c l] eqn:E; [reflexivity|]. exfalso. assert (J : In c (c :: l)) by (left; reflexivity). rewrite <- E in J. apply filter_In in J as (J & Hc). apply Ascii.eqb_eq in Hc as ->. auto.
Qed.
(** a colon-free part of a name is in one of its elements *)
Lemma in_element els : els <> [] -> Forall colon_free els -> forall x u y, join [":"%char] els = x ++ u ++ y -> colon_free u ->
  exists a e b p q, els = a ++ e :: b /\ e = p ++ u ++ q /\ y = q ++ tail_text b /\ (colon_free x -> a = [] /\ p = x).
Proof.
  induction els as [|e els IH]; [congruence|]. intros _ Fe x u y H F. inversion Fe as [|? ? Fe1 Fe2]; subst. rewrite join_cons in H. apply app_eq_app in H as (l & [(-> & H)|(-> & H)]).
  - apply app_eq_app in H as (l2 & [(-> & H)|(-> & H)]).
    + (* u = l ++ l2 *) apply free_app in F as (Fl & F2). destruct l2 as [|c l2].
      * exists [], (x ++ l), els, x, []. cbn [app] in *. rewrite !app_nil_r. split; [reflexivity|]. split; [reflexivity|]. split; [congruence|auto].
      * destruct els as [|f els]; [discriminate H|]. cbn [tail_text] in H. injection H as <- _. exfalso. apply F2. left. reflexivity.
    + (* l = u ++ l2 *) exists [], (x ++ u ++ l2), els, x, l2. auto.
  - (* x = e ++ l *) destruct l as [|c l].
    + cbn [app] in H. destruct u as [|c u].
      * exists [], e, els, e, []. rewrite !app_nil_r. cbn [app] in *. split; [reflexivity|]. split; [reflexivity|]. split; [congruence|auto].
      * destruct els as [|f els]; [discriminate H|]. cbn [tail_text] in H. injection H as <- _. exfalso. apply F. left. reflexivity.
    + destruct els as [|f els]; [discriminate H|]. cbn [tail_text] in H. rewrite <- app_comm_cons in H. injection H as <- H.
      destruct (IH ltac:(discriminate) Fe2 l u y H F) as (a & e1 & b & p & q & E & P & Q & _). exists (e :: a), e1, b, p, q. cbn [app]. rewrite E. split; [reflexivity|]. split; [exact P|]. split; [exact Q|].
      intros Fx. exfalso. apply Fx. apply in_or_app. right. left. reflexivity.
Qed.
Definition ones (ws : list bytes) : list joint := map (fun w => (0%nat, w)) ws.
Lemma words_text w ws : pattern_text w (ones ws) = join [":"%char] (w :: ws).
Proof.
  unfold pattern_text. revert w. induction ws as [|v ws IH]; intros w; [cbn; apply app_nil_r|]. cbn [ones map flat_map fst snd repeat app]. fold (ones ws). specialize (IH v). change (join [":"%char] (w :: v :: ws)) with (w ++ ":"%char :: join [":"%char] (v :: ws)). rewrite <- IH. reflexivity.
Qed.
Lemma same_free w w' : plain w -> same_letters w w' -> colon_free w'.
Proof.
  intros P L I. unfold same_letters in L. induction L as [|a b w w' H L IH]; [destruct I|]. inversion P as [|? ? Pa Pw]; subst. destruct I as [->|I]; [|apply IH; auto].
  apply part_char_iff in Pa. apply lower_same in H. apply Ascii.eqb_eq in H.
  assert (A : is_upper a = true -> 97 <= code (lower a) <= 122). { intros U. unfold lower. rewrite U. unfold is_upper in U. rewrite code_chr; lia. }
  change (lower ":"%char) with ":"%char in H. rewrite <- H in A. unfold lower in H. destruct (is_upper a); [|subst a; discriminate Pa]. specialize (A eq_refl). change (code ":"%char) with 58 in A. lia.
Qed.
Lemma one_colon g : colons g = 1%nat -> exists a b, g = a ++ ":"%char :: b /\ colon_free a /\ colon_free b.
Proof.
  induction g as [|c g IH]; [discriminate|]. unfold colons. cbn [filter]. destruct (eqc c ":"%char) eqn:E.
  - apply Ascii.eqb_eq in E as ->. cbn [List.length]. intros H. injection H as H. exists [], g. split; [reflexivity|]. split; [intros []|]. apply colons_free. exact H.
  - intros H. destruct (IH H) as (a & b & -> & Ha & Hb). exists (c :: a), b. split; [reflexivity|]. split; [|exact Hb]. intros [->|I]; [discriminate E|auto].
Qed.
Lemma first_colon a q r t : colon_free a -> colon_free q -> a ++ ":"%char :: r = q ++ t -> t = [] \/ (exists t', t = ":"%char :: t') -> a = q /\ t = ":"%char :: r.
Proof.
  revert q. induction a as [|c a IH]; intros [|d q] Fa Fq E T; cbn [app] in E.
  - auto.
  - injection E as <- _. exfalso. apply Fq. left. reflexivity.
  - destruct T as [->|(t' & ->)]; [discriminate E|]. injection E as -> _. exfalso. apply Fa. left. reflexivity.
  - injection E as <- E. destruct (IH q) as (-> & ->); [intros I; apply Fa; right; exact I|intros I; apply Fq; right; exact I|exact E|exact T|auto].
Qed.
Lemma tail_text_cases b : tail_text b = [] \/ exists t', tail_text b = ":"%char :: t'.
Proof. destruct b; [left; reflexivity|right; eexists; reflexivity]. Qed.
(** the words one after the other are in elements one after the other *)
Lemma spelled_elements ws : Forall plain ws -> forall els x w w' m y, plain w -> els <> [] -> Forall colon_free els -> join [":"%char] els = x ++ w' ++ m ++ y -> same_letters w w' -> spells (ones ws) m ->
  exists a es b, els = a ++ es ++ b /\ Forall2 contains (w :: ws) es /\ (colon_free x -> a = []).
Proof.
  induction ws as [|v ws IH]; intros Pws els x w w' m y Pw N Fe H L Sp.
  - destruct (in_element els N Fe x w' (m ++ y) H (same_free w w' Pw L)) as (a & e & b & p & q & -> & He & _ & Hx). exists a, [e], b. split; [reflexivity|]. split; [|intros F; apply Hx, F].
    constructor; [|constructor]. exists p, w', q. auto.
  - inversion Pws as [|? ? Pv Pws2]; subst. cbn [ones map] in Sp. fold (ones ws) in Sp. inversion Sp as [|? ? ? gap v' m2 L2 C Sp2]; subst. specialize (C eq_refl).
    destruct (in_element els N Fe x w' _ H (same_free w w' Pw L)) as (a & e & b & p & q & -> & He & Hq & Hx).
    apply Forall_app in Fe as (_ & Fe). inversion Fe as [|? ? Fe1 Fb]; subst. apply free_app in Fe1 as (_ & Fq). apply free_app in Fq as (_ & Fq).
    apply one_colon in C as (g1 & g2 & -> & F1 & F2). rewrite <- !app_assoc in Hq. cbn [app] in Hq.
    destruct (first_colon _ _ _ _ F1 Fq Hq (tail_text_cases b)) as (-> & T). destruct b as [|f b]; [discriminate T|]. cbn [tail_text] in T. injection T as T. rewrite <- ?app_assoc in T.
    destruct (IH Pws2 (f :: b) g2 v v' m2 y Pv ltac:(discriminate) Fb T L2 Sp2) as (a2 & es & b2 & E & Fs & Ha). rewrite (Ha F2) in E. cbn [app] in E. exists a, ((p ++ w' ++ q) :: es), b2. rewrite E. split; [reflexivity|].
    split; [|intros F; apply Hx, F]. constructor; [exists p, w', q; auto|exact Fs].
Qed.
Lemma elements_spelled ws : forall w es, Forall colon_free es -> Forall2 contains (w :: ws) es -> exists x w' m y, join [":"%char] es = x ++ w' ++ m ++ y /\ colon_free x /\ same_letters w w' /\ spells (ones ws) m.
Proof.
  induction ws as [|v ws IH]; intros w es Fe F; inversion F as [|? e ? es2 (p & w' & q & -> & L) F2]; subst.
  - inversion F2; subst. inversion Fe as [|? ? Fe1 _]; subst. apply free_app in Fe1 as (Fp & _). exists p, w', [], q. split; [reflexivity|]. split; [exact Fp|]. split; [exact L|constructor].
  - inversion Fe as [|? ? Fe1 Fe2]; subst. apply free_app in Fe1 as (Fp & Fq). apply free_app in Fq as (_ & Fq). destruct (IH v es2 Fe2 F2) as (x & v' & m & y & E & Fx & L2 & Sp).
    exists p, w', ((q ++ ":"%char :: x) ++ v' ++ m), y. split; [|split; [exact Fp|split; [exact L|]]].
    + rewrite join_cons. inversion F2; subst. cbn [tail_text]. rewrite E. rewrite <- !app_assoc. cbn [app]. reflexivity.
    + cbn [ones map]. fold (ones ws). constructor; [exact L2| |exact Sp]. intros _. rewrite colons_app. apply colons_free in Fq. apply colons_free in Fx. unfold colons in *. cbn [filter]. change (eqc ":" ":") with true. cbn [List.length]. lia.
Qed.
Lemma join_parts a es b : es <> [] -> exists x y, join [":"%char] (a ++ es ++ b) = x ++ join [":"%char] es ++ y.
Proof.
  intros N. destruct es as [|e es]; [congruence|]. destruct a as [|c a].
  - exists [], (tail_text b). cbn [app]. rewrite !join_cons, tail_app, <- app_assoc. reflexivity.
  - exists (join [":"%char] (c :: a) ++ [":"%char]), (tail_text b). cbn [app]. rewrite !join_cons, tail_app. cbn [app]. rewrite tail_cons, tail_app, <- !app_assoc. reflexivity.
Qed.
