(** The text of the balance command. *)
From Coq Require Import Permutation Sorted.
From Verif Require Import Base M_Amount M_Date M_Names M_Parser M_Ledger M_Report M_Json M_Output S_Decimal S_Amount S_Names S_Books S_Output
  L_Dec L_Names L_Amount L_Tree L_Tree2 L_Balance L_Output Properties_Tree.
Local Open Scope Z_scope.

(** ** Amounts *)
Lemma digit_ascii d : ascii7 (digit_char d) = true.
Proof.
  unfold digit_char. assert (F : Forall (fun c => ascii7 c = true) (B "0123456789")) by (repeat constructor).
  destruct (nth_in_or_default (Z.to_nat d) (B "0123456789") "?"%char) as [I|E]; [|rewrite E; reflexivity]. rewrite Forall_forall in F. apply F, I.
Qed.
Lemma lit_text_ascii l : forallb ascii7 (lit_text l) = true.
Proof.
  assert (D : forall ds, forallb ascii7 (map digit_char ds) = true) by (induction ds as [|d ds IH]; [reflexivity|cbn [map forallb]; rewrite digit_ascii; exact IH]).
  unfold lit_text. rewrite !forallb_app, D. destruct (l_neg l), (l_frac l) as [|f fr]; cbn [andb forallb B list_ascii_of_string app]; try reflexivity; rewrite D; reflexivity.
Qed.
Lemma amount_text a : (c_dec (a_com a) <= 50)%nat -> exists s, format_amount a (a_dec a) = Ok s /\ shows_amount s a /\ rune_count s = List.length s.
Proof.
  intros H. eexists. split; [apply format_ok, H|]. split; [|apply rune_count_all, lit_text_ascii]. eexists. split; [reflexivity|].
  split; [apply fmt_literal_ok, pow10_pos|]. split; [apply fmt_literal_frac_length, pow10_pos|].
  rewrite fmt_literal_value by apply pow10_pos. rewrite round_units_own by apply pow10_pos. rewrite <- sgn_abs. reflexivity.
Qed.
Lemma amount_width a : printable a -> exists s, format_amount a (a_dec a) = Ok s /\ shows_amount s a /\ rune_count s = List.length s /\ width a (c_dec (a_com a)) = Ok (List.length s).
Proof.
  intros [H1 H2]. destruct (amount_text a H1) as (s & F & S & R). exists s. repeat (split; [assumption|]).
  destruct (width_ok a (c_dec (a_com a)) H1 (le_n _) H2) as (s' & F' & W). unfold a_dec in F. rewrite F in F'. injection F' as <-. exact W.
Qed.
Lemma star_amount_ok w a s : format_amount a (a_dec a) = Ok s -> star_amount (Z.of_nat w) a = Ok (padl w s).
Proof. intros H. unfold star_amount. rewrite H. cbn [bind]. rewrite star_nat. reflexivity. Qed.
(** ** Maps *)
Lemma bset_keys a v m x : In x (map fst (bset a v m)) <-> x = a \/ In x (map fst m).
Proof.
  induction m as [|[k w] m IH]; cbn [bset map fst In]; [intuition congruence|]. destruct (eqb_bytes a k) eqn:E.
  - apply eqb_bytes_iff in E. subst k. cbn [map fst In]. intuition congruence.
  - cbn [map fst In]. rewrite IH. intuition.
Qed.
Lemma bset_nodup a v m : NoDup (map fst m) -> NoDup (map fst (bset a v m)).
Proof.
  induction m as [|[k w] m IH]; intros N; cbn [bset map fst]; [constructor; [intros []|constructor]|]. cbn [map fst] in N. inversion N as [|? ? N1 N2]; subst.
  destruct (eqb_bytes a k) eqn:E; cbn [map fst]; constructor; [exact N1|exact N2| |apply IH, N2]. rewrite bset_keys. intros [-> |I]; [rewrite (proj2 (eqb_bytes_iff a a) eq_refl) in E; discriminate|exact (N1 I)].
Qed.
Lemma bget_in m x v : NoDup (map fst m) -> In (x, v) m -> bget x m = Some v.
Proof.
  induction m as [|[k w] m IH]; intros N; [intros []|]. cbn [map fst] in N. inversion N as [|? ? N1 N2]; subst. intros [E|I]; cbn [bget].
  - injection E as -> ->. rewrite (proj2 (eqb_bytes_iff x x) eq_refl). reflexivity.
  - destruct (eqb_bytes x k) eqn:E; [apply eqb_bytes_iff in E; subst k; exfalso; apply N1, (in_map fst _ _ I)|apply IH; assumption].
Qed.
Lemma in_bget m x : In x (map fst m) -> exists v, bget x m = Some v.
Proof.
  induction m as [|[k w] m IH]; [intros []|]. cbn [map fst In bget]. intros H. destruct (eqb_bytes x k) eqn:E; [eauto|]. apply IH. destruct H as [<- |H]; [rewrite (proj2 (eqb_bytes_iff k k) eq_refl) in E; discriminate|exact H].
Qed.
Lemma bget_some_in m x v : bget x m = Some v -> In (x, v) m.
Proof.
  induction m as [|[k w] m IH]; [discriminate|]. cbn [bget]. destruct (eqb_bytes x k) eqn:E; [apply eqb_bytes_iff in E; subst k; intros [= ->]; left; reflexivity|intros H; right; apply IH, H].
Qed.
Lemma own_keys conv comm sel : forall accs m m', own_totals conv comm sel accs m = Ok m' -> NoDup (map fst m) ->
  NoDup (map fst m') /\ forall x, In x (map fst m') <-> In x accs \/ In x (map fst m).
Proof.
  induction accs as [|a l IH]; intros m m' H N; cbn [own_totals] in H; [injection H as <-; split; [exact N|cbn; tauto]|].
  destruct (sum_in conv (zero_amount (comm a)) (sel a)) as [s| |]; cbn [bind] in H; try discriminate. destruct (IH _ _ H (bset_nodup a s m N)) as [N' K]. split; [exact N'|].
  intros x. rewrite K, bset_keys. cbn [In]. intuition congruence.
Qed.
Lemma cum_keys conv T : forall accs m m', cumulate conv T accs m = Ok m' -> NoDup (map fst m) ->
  NoDup (map fst m') /\ forall x, In x (map fst m') <-> In x (map fst m).
Proof.
  induction accs as [|a l IH]; intros m m' H N; cbn [cumulate] in H; [injection H as <-; split; [exact N|tauto]|].
  destruct (t_parent T a) as [p|]; [|apply IH; assumption]. destruct (bget p m) as [cp|] eqn:Ep; [|apply IH; assumption]. destruct (bget a m); [|discriminate].
  destruct (add_in conv cp a0) as [c| |]; cbn [bind] in H; try discriminate. destruct (IH _ _ H (bset_nodup p c m N)) as [N' K]. split; [exact N'|].
  intros x. rewrite K, bset_keys. split; [|tauto]. intros [-> |I]; [|exact I]. apply bget_some_in in Ep. apply (in_map fst _ _ Ep).
Qed.
Lemma max_width_ok comm : forall m, (forall x v, In (x, v) m -> printable v /\ a_com v = comm x) ->
  exists w, max_width comm m = Ok w /\ forall x v s, In (x, v) m -> format_amount v (a_dec v) = Ok s -> (rune_count s <= w)%nat.
Proof.
  induction m as [|[k u] m IH]; intros H; [exists O; split; [reflexivity|intros x v s []]|].
  destruct IH as (w & E & L); [intros x v I; apply H; right; exact I|]. destruct (H k u (or_introl eq_refl)) as [P C]. destruct (amount_width u P) as (s0 & F0 & _ & R0 & W0).
  cbn [max_width]. rewrite <- C, W0. cbn [bind]. rewrite E. cbn [bind]. eexists. split; [reflexivity|]. intros x v s [I|I] F.
  - injection I as -> ->. rewrite F0 in F. injection F as <-. rewrite R0. apply Nat.le_max_l.
  - eapply Nat.le_trans; [eapply L; eassumption|apply Nat.le_max_r].
Qed.
Lemma cur_width_ok m : forall x v, In (x, v) m -> (List.length (c_id (a_com v)) <= cur_width m)%nat.
Proof. induction m as [|[k u] m IH]; intros x v; [intros []|]. unfold cur_width in *. cbn [fold_right snd]. intros [I|I]; [injection I as -> ->; apply Nat.le_max_l|]. eapply Nat.le_trans; [apply (IH _ _ I)|apply Nat.le_max_r]. Qed.

(** ** Levels and the order of the accounts *)
Lemma level_unique parent x n : at_level parent x n -> forall m, at_level parent x m -> n = m.
Proof.
  induction 1 as [x H|x p n Ep Np _ IH]; intros m Hm; inversion Hm as [y H'|y q k Eq Nq H']; subst; auto; [destruct H; congruence|destruct H'; congruence|].
  f_equal. apply IH. congruence.
Qed.
Section Tree.
Context (all : list bytes) (T : tree).
Hypothesis HT : tree_of all T.
Lemma depth_level : forall f x, In x all -> (msr x < f)%nat -> at_level (t_parent T) x (depth f T x).
Proof.
  induction f as [|f IH]; intros x I L; [lia|]. cbn [depth]. destruct (list_eq_dec Ascii.ascii_dec x root) as [-> |N].
  - destruct HT as (_ & _ & R & _). rewrite R. apply level_top. left. exact R.
  - destruct HT as (_ & _ & _ & H & _). destruct (H x I N) as [E Ip]. rewrite E. destruct (eqb_bytes (par x) root) eqn:Er.
    + apply eqb_bytes_iff in Er. apply level_top. right. rewrite E, Er. reflexivity.
    + apply eqb_bytes_no in Er. eapply level_below; [exact E|exact Er|]. apply IH; [exact Ip|]. pose proof (msr_par x N). lia.
Qed.
Lemma under_ge x y : under (t_parent T) x y -> x = y \/ (msr x < msr y)%nat.
Proof.
  induction 1 as [|c q E _ IH]; [auto|]. right. apply (parent_some all T HT) in E. destruct (t_m all T HT _ _ E) as [L _]. destruct IH as [-> |IH]; lia.
Qed.
Lemma wc_before F : (bound all < F)%nat -> forall f a x y, In a all -> In x (with_children f (t_children T) a) -> In y (with_children f (t_children T) a) ->
  under (t_parent T) x y -> x <> y -> comes_before (with_children f (t_children T) a) x y.
Proof.
  intros HF. induction f as [|f IH]; intros a x y Ia Ix Iy U N; [destruct Ix|]. cbn [with_children] in Ix, Iy |- *.
  destruct (list_eq_dec Ascii.ascii_dec x a) as [-> |Na].
  - destruct Iy as [E|Iy]; [congruence|]. apply in_split in Iy as (l2 & l3 & ->). exists [], l2, l3. reflexivity.
  - destruct Ix as [E|Ix]; [congruence|]. apply in_flat_map in Ix as (c & Ic & Ix).
    assert (Ica : In c all) by (apply HT in Ic; tauto).
    assert (Ixa : In x all) by (eapply (reach_in all T HT); [exact Ica|exact Ix]).
    assert (Lx : (msr a < msr x)%nat). { destruct (wc_ge msr (t_children T) (bound all) par (t_m all T HT) (t_p all T HT) (t_n all T HT) f c x Ix) as [-> |L]; destruct (t_m all T HT _ _ Ic) as [L1 _]; lia. }
    destruct Iy as [E|Iy]; [subst y; destruct (under_ge x a U) as [-> |L]; [congruence|lia]|]. apply in_flat_map in Iy as (c' & Ic' & Iy).
    assert (Ec : c = c').
    { apply (kids_disjoint all T HT a c c' F f y Ic Ic'); [|exact Iy]. apply (reach_under all T HT F HF c y Ica).
      assert (Uc : under (t_parent T) c x).
      { apply (reach_under all T HT (Nat.max f F) ltac:(lia) c x Ica). apply (wc_mono all T f (Nat.max f F) c x (Nat.le_max_l _ _) Ix). }
      clear - U Uc. induction U as [|d q E U IH]; [exact Uc|]. econstructor; [exact E|exact IH]. }
    subst c'. destruct (IH c x y Ica Ix Iy U N) as (l1 & l2 & l3 & E). apply in_split in Ic as (k1 & k2 & Ek).
    rewrite Ek, flat_map_app. cbn [flat_map]. rewrite E. exists (a :: flat_map (with_children f (t_children T)) k1 ++ l1), l2, (l3 ++ flat_map (with_children f (t_children T)) k2).
    cbn [app]. rewrite <- !app_assoc. cbn [app]. rewrite <- !app_assoc. reflexivity.
Qed.
End Tree.
Lemma filter_before {A} (P : A -> bool) l x y : comes_before l x y -> P x = true -> P y = true -> comes_before (filter P l) x y.
Proof.
  intros (l1 & l2 & l3 & ->) Hx Hy. rewrite !filter_app. cbn [filter]. rewrite Hx, filter_app. cbn [filter]. rewrite Hy. eexists _, _, _. reflexivity.
Qed.
(** the level in the name *)
Lemma segments_level all T : tree_of all T -> forall segs x, In x all -> segments x segs -> hd [] segs <> [] -> hd [] segs <> B "Root" ->
  at_level (t_parent T) x (List.length segs).
Proof.
  intros HT. induction segs as [|last segs IH] using rev_ind; intros x Ix (N & F & E) H1 H2; [congruence|].
  destruct segs as [|s0 segs].
  - cbn [app] in *. cbn in E. subst x. apply level_top. right. destruct HT as (_ & _ & _ & H & _).
    destruct (list_eq_dec Ascii.ascii_dec last root) as [-> |Nr]; [exfalso; apply H2; reflexivity|]. rewrite (proj1 (H last Ix Nr)). f_equal.
    unfold par. destruct (parent_cases last) as [[_ ->]|(leaf & El & _)]; [reflexivity|]. inversion F as [|? ? Fl _]; subst. exfalso. apply Fl. rewrite El. apply in_or_app. right. left. reflexivity.
  - rewrite app_length. cbn [List.length]. rewrite Nat.add_1_r.
    assert (Fs : Forall (fun s => ~ In ":"%char s) (s0 :: segs)) by (apply Forall_app in F; tauto).
    assert (Sp : split_on ":"%char x = (s0 :: segs) ++ [last]) by (rewrite E; apply split_join; [discriminate|exact F]).
    assert (Pn : parent_name x = join (B ":") (s0 :: segs)). { unfold parent_name, parent_and_name. cbn [fst]. rewrite Sp, removelast_last. reflexivity. }
    assert (Hp : hd [] ((s0 :: segs) ++ [last]) = s0) by reflexivity. rewrite Hp in H1, H2.
    assert (Nj : join (B ":") (s0 :: segs) <> []). { destruct segs; cbn [join]; [exact H1|]. intros Z. apply app_eq_nil in Z as [Z _]. exact (H1 Z). }
    assert (Sj : split_on ":"%char (join (B ":") (s0 :: segs)) = s0 :: segs) by (apply split_join; [discriminate|exact Fs]).
    assert (Nr : x <> root).
    { intros ->. assert (S1 : split_on ":"%char root = [B "Root"]) by reflexivity. rewrite S1 in Sp. destruct segs; discriminate. }
    destruct HT as (A1 & A2 & A3 & H & A4). destruct (H x Ix Nr) as [Ep Ip].
    assert (Pp : par x = join (B ":") (s0 :: segs)). { unfold par. rewrite Pn. destruct (join (B ":") (s0 :: segs)) eqn:J; [exact (False_ind _ (Nj eq_refl))|reflexivity]. }
    rewrite Pp in Ep, Ip. eapply level_below; [exact Ep| |].
    + intros Er. rewrite Er in Sj. assert (S1 : split_on ":"%char (B "Root") = [B "Root"]) by reflexivity. rewrite S1 in Sj. injection Sj as S2 _. exact (H2 (eq_sym S2)).
    + apply IH; [exact Ip| |exact H1|exact H2]. split; [discriminate|]. split; [exact Fs|reflexivity].
Qed.
