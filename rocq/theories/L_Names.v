(** Account names. *)
From Coq Require Import Permutation Sorted.
From Verif Require Import Base M_Regex M_Parser M_Names L_Dec L_Sort.

Lemma split_on_nonnil sep s : split_on sep s <> [].
Proof. destruct s; cbn; [discriminate|]. destruct (eqc a sep); [discriminate|]. destruct (split_on sep s); discriminate. Qed.
Lemma join_split sep s : join [sep] (split_on sep s) = s.
Proof.
  induction s as [|c s IH]; [reflexivity|]. cbn [split_on]. destruct (eqc c sep) eqn:E.
  - apply Ascii.eqb_eq in E. subst. pose proof (split_on_nonnil sep s). destruct (split_on sep s) as [|p ps]; [congruence|].
    cbn [join] in *. cbn [app]. f_equal. exact IH.
  - pose proof (split_on_nonnil sep s). destruct (split_on sep s) as [|p ps]; [congruence|].
    destruct ps as [|q ps]; cbn [join] in *; rewrite <- IH; reflexivity.
Qed.
Lemma split_no_sep sep s : Forall (fun p => ~ In sep p) (split_on sep s).
Proof.
  induction s as [|c s IH]; cbn [split_on]; [repeat constructor; intros []|].
  destruct (eqc c sep) eqn:E; [constructor; [intros []|exact IH]|].
  destruct (split_on sep s) as [|p ps]; [constructor; [|constructor]|inversion IH; subst; constructor; [|assumption]].
  - intros [->|[]]. rewrite eqc_code, Z.eqb_refl in E. discriminate.
  - intros [->|H]; [|contradiction]. rewrite eqc_code, Z.eqb_refl in E. discriminate.
Qed.
Lemma split_join sep ps : ps <> [] -> Forall (fun p => ~ In sep p) ps -> split_on sep (join [sep] ps) = ps.
Proof.
  induction ps as [|p ps IH]; [congruence|]. intros _ H. inversion H as [|? ? Hp Hps]; subst.
  assert (Hp' : forall c, In c p -> c <> sep) by (intros c Hc ->; auto).
  destruct ps as [|q ps]; [apply split_on_none, Hp'|].
  specialize (IH ltac:(discriminate) Hps). change (join [sep] (p :: q :: ps)) with (p ++ sep :: join [sep] (q :: ps)).
  clear -IH Hp'. induction p as [|c p IHp]; cbn [app split_on].
  - rewrite eqc_code, Z.eqb_refl, IH. reflexivity.
  - destruct (eqc c sep) eqn:E.
    + apply Ascii.eqb_eq in E. exfalso. apply (Hp' c); [left; reflexivity|exact E].
    + rewrite IHp by (intros x Hx; apply Hp'; right; exact Hx). reflexivity.
Qed.
Lemma has_prefix_app p s : has_prefix p s = true <-> exists r, s = p ++ r.
Proof.
  revert s. induction p as [|a p IH]; intros s; cbn; [split; eauto|]. destruct s as [|b s].
  - split; [discriminate|]. intros (r & E). discriminate.
  - rewrite andb_true_iff, IH. split.
    + intros [E (r & ->)]. apply Ascii.eqb_eq in E. subst. eauto.
    + intros (r & E). injection E as -> ->. split; [apply Ascii.eqb_refl|eauto].
Qed.

(** ** shorten *)
Definition total_len (ps : list bytes) : Z := Z.of_nat (List.length (concat ps)).
Definition min_len (ps : list bytes) : Z := Z.of_nat (List.length (filter (fun p => match p with [] => false | _ => true end) ps)).
Definition nonempty_prefix (q p : bytes) : Prop := (exists r, p = q ++ r) /\ (p <> [] -> q <> []).
Lemma total_cons p ps : total_len (p :: ps) = Z.of_nat (List.length p) + total_len ps.
Proof. unfold total_len. cbn [concat]. rewrite app_length. lia. Qed.
Lemma min_cons (c : ascii) (p : bytes) (ps : list bytes) : min_len ((c :: p) :: ps) = 1 + min_len ps.
Proof. unfold min_len. cbn [filter List.length]. lia. Qed.
Lemma prefix_refl ps : Forall2 nonempty_prefix ps ps.
Proof. induction ps; constructor; [|assumption]. split; [exists []; symmetry; apply app_nil_r|auto]. Qed.
Lemma shorten_spec ps : forall over, 0 <= over ->
  Forall2 nonempty_prefix (shorten_parts over ps) ps /\
  total_len (shorten_parts over ps) = Z.max (total_len ps - over) (min_len ps).
Proof.
  induction ps as [|p ps IH]; intros over Ho; cbn [shorten_parts].
  - split; [constructor|]. unfold total_len, min_len. cbn. lia.
  - assert (M : min_len ps <= total_len ps).
    { clear. unfold min_len, total_len. induction ps as [|q ps IH]; cbn; [lia|]. destruct q; cbn in *; [exact IH|]. rewrite app_length. lia. }
    assert (M0 : 0 <= min_len ps) by (unfold min_len; lia).
    destruct (0 <? over) eqn:E.
    + destruct p as [|c p].
      * destruct (IH over Ho) as [F L]. split; [constructor; [split; [exists []; reflexivity|auto]|exact F]|].
        rewrite !total_cons, L. unfold min_len. cbn. reflexivity.
      * set (l := Z.of_nat (List.length (c :: p))). set (drop := if over <? l - 1 then over else l - 1).
        assert (Hl : 1 <= l) by (unfold l; cbn; lia).
        assert (Hd : 0 <= drop <= l - 1 /\ drop <= over) by (unfold drop; destruct (over <? l - 1) eqn:E1; lia).
        destruct (IH (over - drop) ltac:(lia)) as [F L]. split.
        -- constructor; [|exact F]. split; [exists (skipn (Z.to_nat (l - drop)) (c :: p)); symmetry; apply firstn_skipn|].
           intros _ E1. apply (f_equal (@List.length ascii)) in E1. rewrite firstn_length in E1. fold bytes in *. unfold l in *. cbn [List.length] in *. lia.
        -- rewrite !total_cons, L, min_cons.
           rewrite firstn_length. fold l. replace (Z.of_nat (Nat.min (Z.to_nat (l - drop)) (List.length (c :: p)))) with (l - drop) by lia.
           change (Z.of_nat (List.length (c :: p))) with l. clearbody l. unfold drop in *. destruct (over <? l - 1) eqn:E1; cbn [List.length] in *; lia.
    + split; [apply prefix_refl|]. assert (over = 0) as -> by lia.
      assert (min_len (p :: ps) <= total_len (p :: ps)); [|lia].
      rewrite total_cons. destruct p; [change (min_len ([] :: ps)) with (min_len ps)|rewrite min_cons]; cbn [List.length]; lia.
Qed.
Lemma join_length sep ps : ps <> [] -> Z.of_nat (List.length (join [sep] ps)) = total_len ps + Z.of_nat (List.length ps) - 1.
Proof.
  induction ps as [|p ps IH]; [congruence|]. intros _. destruct ps as [|q ps].
  - unfold total_len. cbn. rewrite app_nil_r. lia.
  - change (join [sep] (p :: q :: ps)) with (p ++ sep :: join [sep] (q :: ps)). specialize (IH ltac:(discriminate)).
    rewrite total_cons, app_length. cbn [List.length] in *. lia.
Qed.
Lemma prefix_no_sep (sep : ascii) qs ps : Forall2 nonempty_prefix qs ps -> Forall (fun p => ~ In sep p) ps -> Forall (fun p => ~ In sep p) qs.
Proof.
  induction 1 as [|q p qs ps [(r & ->) _] _ IH]; intros H; [constructor|]. inversion H; subst. constructor; [|auto].
  intros Hi. apply H2. apply in_or_app. left. exact Hi.
Qed.

(** ** MustFindAccount *)
Lemma all_below_eq a r : all_below a true r = match r with [] => true | b :: _ => has_prefix a b end.
Proof.
  destruct r as [|b r]; [reflexivity|]. cbn [all_below andb]. destruct (has_prefix a b); [reflexivity|].
  induction r as [|c r IH]; [reflexivity|]. cbn. exact IH.
Qed.
Lemma find_accounts_in m names a : In a (find_accounts m names) <-> In a names /\ m a = true.
Proof.
  unfold find_accounts. split; intros H.
  - apply (Permutation_in _ (Permutation_sym (sort_strings_perm _))) in H. apply filter_In in H as [H ?]. split; [|assumption].
    apply (Permutation_in _ (Permutation_sym (sort_strings_perm _))), H.
  - apply (Permutation_in _ (sort_strings_perm _)), filter_In. destruct H. split; [|assumption].
    apply (Permutation_in _ (sort_strings_perm _)), H.
Qed.
Lemma find_accounts_sorted m names : sorted_by less_bytes (find_accounts m names).
Proof. apply sort_strings_sorted. Qed.
Lemma existsb_name p names : existsb (eqb_bytes p) names = true <-> In p names.
Proof.
  rewrite existsb_exists. split.
  - intros (x & Hx & E). apply eqb_bytes_eq in E. subst. exact Hx.
  - intros H. exists p. split; [exact H|]. apply eqb_bytes_eq. reflexivity.
Qed.
Lemma prefix_less a r : r <> [] -> less_bytes a (a ++ r) = true.
Proof.
  intros H. induction a as [|c a IH]; cbn; [destruct r; [congruence|reflexivity]|]. rewrite Z.eqb_refl, IH. cbn. apply orb_true_r.
Qed.

From Verif Require Import S_Names.
Lemma shorten_name_spec n segs size : segments n segs ->
  exists segs', segments (shorten_account_name n size) segs' /\
    Forall2 (fun s' s => (exists r, s = s' ++ r) /\ (s <> [] -> s' <> [])) segs' segs /\
    (Z.of_nat (List.length n) <= size -> shorten_account_name n size = n) /\
    (size < Z.of_nat (List.length n) -> Z.of_nat (List.length (shorten_account_name n size)) = Z.max size (shortest segs)).
Proof.
  intros (Hne & Hns & ->). unfold shorten_account_name. change (B ":") with [":"%char].
  destruct (Z.of_nat (List.length (join [":"%char] segs)) <=? size) eqn:E.
  - exists segs. split; [split; auto|]. split; [apply prefix_refl|]. split; [reflexivity|]. lia.
  - rewrite (split_join _ _ Hne Hns). set (over := Z.of_nat (List.length (join [":"%char] segs)) - size).
    destruct (shorten_spec segs over) as [F L]; [unfold over; lia|]. exists (shorten_parts over segs).
    assert (Hl : List.length (shorten_parts over segs) = List.length segs).
    { clear -F. induction F; cbn; [reflexivity|]. f_equal. exact IHF. }
    assert (Hn' : shorten_parts over segs <> []) by (intros E1; rewrite E1 in Hl; destruct segs; [congruence|discriminate]).
    split; [split; [exact Hn'|split; [eapply prefix_no_sep; eassumption|reflexivity]]|]. split; [exact F|]. split; [lia|]. intros _.
    rewrite (join_length _ _ Hn'), L, Hl. unfold over. rewrite (join_length _ _ Hne). unfold shortest. fold (min_len segs).
    lia.
Qed.
Lemma must_find_spec compile names pattern :
  (In pattern names -> must_find_account compile names pattern = Ok pattern) /\
  (forall a, must_find_account compile names pattern = Ok a -> In a names /\ (a = pattern \/ compile pattern a = true)) /\
  (~ In pattern names -> (forall a, In a names -> compile pattern a = false) -> must_find_account compile names pattern = Panic) /\
  (forall a, ~ In pattern names -> NoDup names -> In a names -> compile pattern a = true ->
     (forall b, In b names -> compile pattern b = true -> b = a \/ below a b) -> must_find_account compile names pattern = Ok a) /\
  (forall a b, ~ In pattern names -> NoDup names -> (forall c, In c names /\ compile pattern c = true <-> c = a \/ c = b) ->
     (forall r, b <> a ++ r) -> (forall r, a <> b ++ r) -> must_find_account compile names pattern = Panic).
Proof.
  unfold must_find_account.
  assert (Hno : ~ In pattern names -> existsb (eqb_bytes pattern) names = false).
  { intros H. apply not_true_is_false. rewrite existsb_name. exact H. }
  pose proof (find_accounts_in (compile pattern) names) as Hin.
  pose proof (find_accounts_sorted (compile pattern) names) as Hs.
  split; [|split; [|split; [|split]]].
  - intros H. apply existsb_name in H. rewrite H. reflexivity.
  - intros a H. destruct (existsb _ _) eqn:E; [injection H as <-; apply existsb_name in E; auto|].
    assert (Ha : In a (find_accounts (compile pattern) names)).
    { destruct (find_accounts _ _) as [|x [|y r]]; [discriminate|injection H as ->; left; reflexivity|].
      destruct (all_below _ _ _); [injection H as ->; left; reflexivity|discriminate]. }
    apply Hin in Ha as [? ?]. auto.
  - intros H Hm. rewrite (Hno H). destruct (find_accounts _ _) as [|x r] eqn:E; [reflexivity|]. exfalso.
    destruct (Hin x) as [Hx _]. destruct (Hx (or_introl eq_refl)) as [H1 H2]. rewrite Hm in H2 by exact H1. discriminate.
  - intros a H Hnd Ha Hm Hb. rewrite (Hno H).
    assert (Hnd' : NoDup (find_accounts (compile pattern) names)).
    { unfold find_accounts. eapply Permutation_NoDup; [apply sort_strings_perm|]. apply NoDup_filter. eapply Permutation_NoDup; [apply sort_strings_perm|exact Hnd]. }
    assert (Haf : In a (find_accounts (compile pattern) names)) by (apply Hin; auto).
    destruct (find_accounts _ _) as [|x r] eqn:E; [destruct Haf|].
    assert (Hx : In x names /\ compile pattern x = true) by (apply Hin; left; reflexivity).
    assert (x = a) as ->.
    { destruct (Hb x (proj1 Hx) (proj2 Hx)) as [Hx'|(t & Et)]; [exact Hx'|]. subst x. destruct Haf as [->|Haf]; [reflexivity|].
      inversion Hs as [|? ? _ Hf]; subst. rewrite Forall_forall in Hf. specialize (Hf a Haf). rewrite prefix_less in Hf; [discriminate|].
      intros E1. discriminate. }
    destruct r as [|y r]; [reflexivity|]. rewrite all_below_eq.
    replace (has_prefix a y) with true; [reflexivity|]. symmetry. apply has_prefix_app.
    destruct (Hin y) as [Hy _]. destruct (Hy (or_intror (or_introl eq_refl))) as [Hy1 Hy2].
    destruct (Hb y Hy1 Hy2) as [->|(t & ->)]; [inversion Hnd'; subst; exfalso; apply H2; left; reflexivity|]. eauto.
  - intros a b H Hnd Hiff Hab Hba. rewrite (Hno H).
    assert (Hin' : forall c, In c (find_accounts (compile pattern) names) <-> c = a \/ c = b) by (intros c; rewrite Hin; apply Hiff).
    destruct (find_accounts _ _) as [|x [|y r]] eqn:E; [reflexivity| |].
    + exfalso. pose proof (proj2 (Hin' a) (or_introl eq_refl)) as [Ea|[]]. pose proof (proj2 (Hin' b) (or_intror eq_refl)) as [Eb|[]].
      apply (Hab []). rewrite app_nil_r. congruence.
    + rewrite all_below_eq. destruct (has_prefix x y) eqn:Ep; [|reflexivity]. exfalso. apply has_prefix_app in Ep as (t & Et).
      assert (Hxy : x <> y).
      { intros ->. assert (Hnd' : NoDup (find_accounts (compile pattern) names)).
        { unfold find_accounts. eapply Permutation_NoDup; [apply sort_strings_perm|]. apply NoDup_filter. eapply Permutation_NoDup; [apply sort_strings_perm|exact Hnd]. }
        rewrite E in Hnd'. inversion Hnd'; subst. apply H2. left. reflexivity. }
      destruct (proj1 (Hin' x) (or_introl eq_refl)) as [Ex|Ex], (proj1 (Hin' y) (or_intror (or_introl eq_refl))) as [Ey|Ey]; subst x y; first [exact (Hab t Et)|exact (Hba t Et)|congruence].
Qed.
