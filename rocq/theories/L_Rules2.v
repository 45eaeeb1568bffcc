(** Dumping rules and reading them back. *)
From Coq Require Import Permutation.
From Verif Require Import Base M_Amount M_Regex M_Parser M_Writer M_Names M_Rules S_Ledger S_Rules L_Regex L_RegexSound L_Parser L_RoundTrip L_Resolve2 L_Rules.
Local Open Scope nat_scope.

Definition dset : ruleset := mkSet [] [].
Definition eline (sets : list ruleset) (e : rentry) : sline :=
  match e with
  | ERule r => SRule (match r_account r with Some a => a | None => B "--" end) (r_pattern r)
  | ESet n => SSet (s_name (nth n sets dset))
  end.
Definition set_group (sets : list ruleset) (s : ruleset) : sgroup := (HSet (s_name s), map (eline sets) (s_rules s)).
Definition acc_group (sets : list ruleset) (ia : bytes * arules) : sgroup := (HAccount (fst ia) (ar_account (snd ia)), map (eline sets) (ar_rules (snd ia))).
Definition index_groups (sorted : list (bytes * arules)) (ri : rindex) : list sgroup :=
  map (set_group (ri_sets ri)) (ri_sets ri) ++ map (acc_group (ri_sets ri)) sorted.

(** well-formed as read: ids and set names are words, patterns have no blanks at the ends and are valid *)
Definition entry_ok (valid : bytes -> bool) (e : rentry) : Prop := match e with ERule r => (r_pattern r = [] \/ ends_visible (r_pattern r)) /\ valid (r_pattern r) = true | ESet _ => True end.
Definition index_ok (valid : bytes -> bool) (ri : rindex) : Prop :=
  Forall (fun s => is_words (s_name s) /\ Forall (entry_ok valid) (s_rules s)) (ri_sets ri) /\
  Forall (fun ia => is_words (fst ia) /\ Forall (entry_ok valid) (ar_rules (snd ia))) (ri_accounts ri).

Lemma pad_right_eq w s : pad_right w s = s ++ rep " "%char (w - List.length s).
Proof. reflexivity. Qed.
Lemma spaces_rep n : spaces (rep " "%char n).
Proof. split; [apply L_Parser.spaces_rep|apply line_rep]. Qed.
Lemma spaces_app a b : spaces a -> spaces b -> spaces (a ++ b).
Proof. intros [A1 A2] [B1 B2]. split; [rewrite forallb_app, A1, B1; reflexivity|apply line_app; assumption]. Qed.
Lemma spaces_one : spaces (B " "). Proof. split; [reflexivity|repeat constructor; discriminate]. Qed.
Lemma spaces_two : spaces (B "  "). Proof. split; [reflexivity|repeat constructor; discriminate]. Qed.
Lemma spaces_none : spaces []. Proof. split; [reflexivity|constructor]. Qed.
Lemma pat_lchar : forall c, is_pat c = true -> lchar c = true. Proof. all_chars. Qed.

Definition entry_text (sets : list ruleset) (max : nat) (e : rentry) : bytes :=
  match e with
  | ERule r => B "  " ++ pad_right max (match r_account r with Some a => a | None => B "--" end) ++ B " " ++ r_pattern r
  | ESet n => B "  @" ++ pad_right max (s_name (nth n sets dset))
  end.
Lemma write_entry_eq find sets max e : entry_dumpable find e -> write_entry sets max e = Ok (put_line (entry_text sets max e)) /\ exists n, entry_name sets e = Ok n.
Proof.
  unfold write_entry. destruct e as [r|n]; cbn [entry_dumpable entry_name entry_text]; [|intros _; split; [reflexivity|eexists; reflexivity]].
  intros (a & -> & _). split; [reflexivity|eexists; reflexivity].
Qed.
Lemma res_map_ok {A C} (f : A -> res C) (g : A -> C) l : (forall x, In x l -> f x = Ok (g x)) -> res_map f l = Ok (map g l).
Proof. induction l as [|x l IH]; intros H; [reflexivity|]. cbn [res_map map]. rewrite (H x (or_introl eq_refl)). cbn [bind]. rewrite IH by (intros; apply H; right; assumption). reflexivity. Qed.
Lemma res_map_some {A C} (f : A -> res C) l : (forall x, In x l -> exists y, f x = Ok y) -> exists ys, res_map f l = Ok ys.
Proof. induction l as [|x l IH]; intros H; [eexists; reflexivity|]. destruct (H x (or_introl eq_refl)) as [y E]. destruct IH as [ys Ey]; [intros; apply H; right; assumption|]. exists (y :: ys). cbn [res_map]. rewrite E, Ey. reflexivity. Qed.
Lemma write_rules_eq find sets es : Forall (entry_dumpable find) es -> exists max, write_rules sets es = Ok (text_of (map (entry_text sets max) es)).
Proof.
  intros F. rewrite Forall_forall in F. unfold write_rules. destruct (res_map_some (entry_name sets) es) as [ns En].
  { intros e I. apply (write_entry_eq find sets 0 e (F e I)). }
  rewrite En. cbn [bind]. eexists. rewrite (res_map_ok _ (fun e => put_line (entry_text sets (list_max_nat (map (@List.length ascii) ns)) e))).
  - cbn [bind]. unfold text_of. rewrite map_map. reflexivity.
  - intros e I. apply (write_entry_eq find sets _ e (F e I)).
Qed.
Definition names_ok (sets : list ruleset) (e : rentry) : Prop := match e with ERule _ => True | ESet n => exists s, nth_error sets n = Some s /\ is_words (s_name s) end.
Lemma entry_line find valid sets max e : entry_dumpable find e -> entry_ok valid e -> names_ok sets e -> line_is (eline sets e) (entry_text sets max e) /\ line_text (entry_text sets max e).
Proof.
  destruct e as [r|n]; cbn [entry_dumpable entry_ok names_ok eline entry_text].
  - intros (a & -> & A & _ & _ & Lt) [P0 _] _. assert (P : pat_text (r_pattern r)) by (split; assumption). rewrite pad_right_eq, <- app_assoc. set (k := rep " "%char _). assert (Sk : spaces (k ++ B " ")) by (apply spaces_app; [apply spaces_rep|apply spaces_one]).
    assert (Nk : k ++ B " " <> []) by (destruct k; discriminate).
    split.
    + destruct (r_pattern r) as [|c p] eqn:E.
      * rewrite app_nil_r. apply li_any; [apply spaces_two|discriminate|exact A|exact Sk].
      * rewrite <- E in *. replace (B "  " ++ a ++ k ++ B " " ++ r_pattern r) with (B "  " ++ a ++ (k ++ B " ") ++ r_pattern r ++ []) by (rewrite <- !app_assoc, app_nil_r; reflexivity).
        apply li_rule; [apply spaces_two|discriminate|exact A|exact Sk|exact Nk|exact P|rewrite E; discriminate|apply spaces_none].
    + apply line_app; [apply spaces_two|]. apply line_app; [eapply line_of; [apply pat_lchar|apply (acc_pat a A)]|]. rewrite app_assoc. apply line_app; [apply Sk|apply P].
  - intros _ _ (s & En & W). rewrite (nth_error_nth _ _ _ En), pad_right_eq. change (B "  @") with (B "  " ++ B "@"). rewrite <- app_assoc. split.
    + apply li_set; [apply spaces_two|discriminate|exact W|apply spaces_rep].
    + apply line_app; [apply spaces_two|]. apply line_app; [repeat constructor; discriminate|]. apply line_app; [eapply line_of; [apply word_lchar|apply W]|apply spaces_rep].
Qed.
Lemma entries_lines find valid sets max es : Forall (entry_dumpable find) es -> Forall (entry_ok valid) es -> Forall (names_ok sets) es ->
  Forall2 line_is (map (eline sets) es) (map (entry_text sets max) es) /\ Forall line_text (map (entry_text sets max) es).
Proof.
  induction es as [|e es IH]; intros F1 F2 F3; [split; constructor|]. inversion F1; inversion F2; inversion F3; subst. destruct IH as [A1 A2]; auto.
  destruct (entry_line find valid sets max e) as [E1 E2]; auto. split; constructor; assumption.
Qed.
(** the dump, line by line *)
Lemma dump_lines {X} find valid sets (hd_ : X -> shead * bytes) (en : X -> list rentry) (xs : list X) :
  Forall (fun x => head_is (fst (hd_ x)) (snd (hd_ x)) /\ line_text (snd (hd_ x)) /\ Forall (entry_dumpable find) (en x) /\ Forall (entry_ok valid) (en x) /\ Forall (names_ok sets) (en x)) xs ->
  exists lines, res_map (fun x => do w <- write_rules sets (en x); Ok (put_line (snd (hd_ x)) ++ w)) xs = Ok (map text_of lines) /\ Forall line_text (concat lines) /\
    forall gs rest, groups_are gs rest -> groups_are (map (fun x => (fst (hd_ x), map (eline sets) (en x))) xs ++ gs) (concat lines ++ rest).
Proof.
  induction 1 as [|x xs (Hh & Lh & F1 & F2 & F3) H IH].
  - exists []. split; [reflexivity|]. split; [constructor|]. intros gs rest G. exact G.
  - destruct IH as (lines & I1 & I2 & I3). destruct (write_rules_eq find sets (en x) F1) as [max E]. destruct (entries_lines find valid sets max (en x) F1 F2 F3) as [L1 L2].
    exists ((snd (hd_ x) :: map (entry_text sets max) (en x)) :: lines). cbn [map concat res_map]. rewrite E. cbn [bind]. rewrite I1. split; [reflexivity|]. split.
    + cbn [app]. constructor; [exact Lh|]. apply Forall_app. split; assumption.
    + intros gs rest G. cbn [app]. rewrite <- app_assoc. apply (ga_group (fst (hd_ x)) _ _ (snd (hd_ x)) _ []); [exact Hh|exact L1|constructor|]. cbn [app]. apply I3, G.
Qed.
Lemma concat_text lines : concat (map text_of lines) = text_of (concat lines).
Proof. rewrite text_concat. reflexivity. Qed.
Definition all_names_ok (ri : rindex) : Prop :=
  Forall (fun s => Forall (names_ok (ri_sets ri)) (s_rules s)) (ri_sets ri) /\ Forall (fun ia => Forall (names_ok (ri_sets ri)) (ar_rules (snd ia))) (ri_accounts ri).
Lemma write_index_lines find valid ri sorted : dumpable find ri -> index_ok valid ri -> all_names_ok ri -> Permutation sorted (ri_accounts ri) ->
  exists lines, write_index sorted ri = Ok (text_of lines) /\ Forall line_text lines /\ groups_are (index_groups sorted ri) lines.
Proof.
  intros (D1 & D2 & D3) [O1 O2] [N1 N2] P. rewrite Forall_forall in O1, O2, N1, N2.
  destruct (dump_lines find valid (ri_sets ri) (fun s => (HSet (s_name s), s_name s)) s_rules (ri_sets ri)) as (l1 & A1 & A2 & A3).
  { apply Forall_forall. intros s I. destruct (O1 s I) as [W E]. destruct (In_nth_error _ _ I) as [i Ei]. destruct (D2 i s Ei) as [_ Ds]. cbn [fst snd].
    split; [rewrite <- (app_nil_r (s_name s)) at 2; apply hi_set; [exact W|apply spaces_none]|]. split; [eapply line_of; [apply word_lchar|apply W]|]. auto. }
  set (max := list_max_nat (map (fun ia => List.length (fst ia)) (ri_accounts ri))).
  destruct (dump_lines find valid (ri_sets ri) (fun ia : bytes * arules => (HAccount (fst ia) (ar_account (snd ia)), pad_right max (fst ia) ++ B " " ++ ar_account (snd ia))) (fun ia => ar_rules (snd ia)) sorted) as (l2 & B1 & B2 & B3).
  { apply Forall_forall. intros [id ars] I. apply (Permutation_in _ P) in I. destruct (O2 _ I) as [W E]. destruct (D3 id ars I) as (T1 & T2 & T3). cbn [fst snd] in *.
    rewrite pad_right_eq, <- app_assoc. set (k := rep " "%char _). assert (Sk : spaces (k ++ B " ")) by (apply spaces_app; [apply spaces_rep|apply spaces_one]).
    assert (Nk : k ++ B " " <> []) by (destruct k; discriminate).
    split; [replace (id ++ k ++ B " " ++ ar_account ars) with (id ++ (k ++ B " ") ++ ar_account ars ++ []) by (rewrite app_nil_r, <- !app_assoc; reflexivity); apply hi_account; auto; apply spaces_none|].
    split; [apply line_app; [eapply line_of; [apply word_lchar|apply W]|]; rewrite app_assoc; apply line_app; [apply Sk|eapply line_of; [apply pat_lchar|apply (acc_pat _ T1)]]|]. split; [exact T3|]. split; [exact E|apply (N2 _ I)]. }
  exists (concat l1 ++ concat l2). split; [|split].
  - unfold write_index. fold max.
    assert (R1 : res_map (fun s => do w <- write_rules (ri_sets ri) (s_rules s); Ok (put_line (s_name s) ++ w)) (ri_sets ri) = Ok (map text_of l1)) by exact A1.
    assert (R2 : res_map (fun ia => do w <- write_rules (ri_sets ri) (ar_rules (snd ia)); Ok (put_line (pad_right max (fst ia) ++ B " " ++ ar_account (snd ia)) ++ w)) sorted = Ok (map text_of l2)) by exact B1.
    rewrite R1. cbn [bind]. rewrite R2. cbn [bind]. rewrite !concat_text, text_app. reflexivity.
  - apply Forall_app. split; assumption.
  - unfold index_groups. apply A3. rewrite <- (app_nil_r (map _ sorted)), <- (app_nil_r (concat l2)). apply B3. constructor.
Qed.

(** what the dumped groups mean *)
Lemma nearest_set sets0 sets : NoDup (map s_name sets) -> forall n s k, nth_error sets n = Some s -> n < k ->
  nearest (s_name s) (rev (map (set_group sets0) (firstn k sets))) = Some (rev (map (set_group sets0) (firstn n sets)), map (eline sets0) (s_rules s)).
Proof.
  intros Nd n s k En Hk. induction k as [|k IH]; [lia|].
  destruct (nth_error sets k) as [t|] eqn:Et.
  - assert (Ef : firstn (S k) sets = firstn k sets ++ [t]).
    { clear -Et. revert k Et. induction sets as [|x sets IH]; intros [|k] E; try discriminate; cbn in *; [congruence|]. f_equal. apply IH, E. }
    rewrite Ef, map_app, rev_app_distr. cbn [map rev app nearest set_group]. destruct (eqb_bytes (s_name s) (s_name t)) eqn:E.
    + apply eqb_bytes_true in E. assert (n = k).
      { rewrite NoDup_nth_error in Nd. apply Nd; [rewrite map_length; apply nth_error_Some; congruence|]. rewrite !nth_error_map, En, Et. cbn. congruence. }
      subst k. assert (t = s) by congruence. subst t. reflexivity.
    + apply IH. destruct (Nat.eq_dec n k) as [->|]; [|lia]. exfalso. assert (t = s) by congruence. subst. rewrite eqb_bytes_same in E. discriminate.
  - assert (L : List.length sets <= k) by (apply nth_error_None; exact Et). assert (n < List.length sets) by (apply nth_error_Some; congruence). rewrite !firstn_all2 in * by lia. apply IH. lia.
Qed.
Lemma starts_eline sets es : starts_with_note (map (eline sets) es) = false.
Proof. destruct es as [|[r|n] es]; reflexivity. Qed.
Lemma expands_means find sets above : NoDup (map s_name sets) -> (forall i s, nth_error sets i = Some s -> Forall (entry_dumpable find) (s_rules s)) ->
  (forall i s, nth_error sets i = Some s -> forall j, In (ESet j) (s_rules s) -> j < i) ->
  forall es rs, expands sets es rs -> Forall (entry_dumpable find) es -> forall k, (forall i, In (ESet i) es -> i < k) ->
  (forall m, nearest m above = nearest m (rev (map (set_group sets) (firstn k sets)))) -> means find above (map (eline sets) es) (map no_notes rs).
Proof.
  intros Nd Ds Rs es rs H. revert above. induction H as [|r es rs H IH|n s es rs1 rs2 En H1 IH1 H2 IH2]; intros above F k Hk Na; cbn [map].
  - constructor.
  - inversion F as [|? ? F1 F2]; subst. destruct F1 as (a & Ea & A1 & A2 & A3 & _). replace (eline sets (ERule r)) with (SRule a (r_pattern r)) by (cbn [eline]; rewrite Ea; reflexivity).
    replace (no_notes r) with (mkRule (Some a) (r_pattern r) []) by (unfold no_notes; rewrite Ea; reflexivity).
    apply (mn_rule find above a (r_pattern r) (Some a) [] (map (eline sets) es)); [right; split; [exact A2|exists a; auto]|apply starts_eline|].
    apply (IH above F2 k); [intros i I; apply Hk; right; exact I|exact Na].
  - inversion F as [|? ? _ F2]; subst. rewrite map_app. cbn [eline]. rewrite (nth_error_nth _ _ _ En).
    apply (mn_set find above (s_name s) (rev (map (set_group sets) (firstn n sets))) (map (eline sets) (s_rules s))).
    + rewrite Na. apply nearest_set; [exact Nd|exact En|]. apply Hk. left. reflexivity.
    + apply (IH1 _ (Ds _ _ En) n); [apply (Rs _ _ En)|reflexivity].
    + apply (IH2 above F2 k); [intros i I; apply Hk; right; exact I|exact Na].
Qed.
Lemma nearest_accounts sets sorted above m : nearest m (rev (map (acc_group sets) sorted) ++ above) = nearest m above.
Proof.
  induction sorted as [|ia sorted IH] using rev_ind; [reflexivity|]. rewrite map_app, rev_app_distr. cbn [map rev app nearest acc_group]. exact IH.
Qed.
Lemma good_app find valid gs1 : forall above gs2, good_file find valid above gs1 -> good_file find valid (rev gs1 ++ above) gs2 -> good_file find valid above (gs1 ++ gs2).
Proof.
  induction gs1 as [|g gs1 IH]; intros above gs2 H1 H2; [exact H2|]. destruct H1 as [A B]. split; [exact A|]. apply IH; [exact B|]. cbn [rev] in H2. rewrite <- app_assoc in H2. exact H2.
Qed.
Lemma good_split find valid (gs : list sgroup) : forall above, (forall pre g post, gs = pre ++ g :: post -> good_group find valid (rev pre ++ above) g) -> good_file find valid above gs.
Proof.
  induction gs as [|g gs IH]; intros above H; [exact I|]. split; [apply (H [] g gs eq_refl)|]. apply IH. intros pre g' post ->. specialize (H (g :: pre) g' post eq_refl). cbn [rev] in H. rewrite <- app_assoc in H. exact H.
Qed.
Lemma group_for_sets id above sets0 : forall l, group_for id (rev (map (set_group sets0) l) ++ above) = group_for id above.
Proof. induction l as [|s l IH] using rev_ind; [reflexivity|]. rewrite map_app, rev_app_distr. cbn [map rev app group_for set_group]. exact IH. Qed.
Lemma group_for_account sets above : forall sorted id ars, NoDup (map fst sorted) -> In (id, ars) sorted ->
  exists pre post, sorted = pre ++ (id, ars) :: post /\ group_for id (rev (map (acc_group sets) sorted) ++ above) = Some (rev (map (acc_group sets) pre) ++ above, ar_account ars, map (eline sets) (ar_rules ars)).
Proof.
  induction sorted as [|ia sorted IH] using rev_ind; intros id ars Nd I; [destruct I|]. rewrite map_app in Nd. apply in_app_iff in I as [I|[->|[]]].
  - destruct (IH id ars) as (pre & post & -> & E); [eapply (proj1 (NoDup_app_inv _ _ Nd))|exact I|]. exists pre, (post ++ [ia]). split; [rewrite <- app_assoc; reflexivity|].
    rewrite map_app, rev_app_distr. cbn [map rev app group_for acc_group]. destruct (eqb_bytes id (fst ia)) eqn:Q; [|exact E].
    apply eqb_bytes_true in Q. exfalso. cbn [map] in Nd. apply NoDup_remove_2 in Nd. apply Nd. rewrite app_nil_r, in_map_iff. exists (id, ars). split; [exact Q|exact I].
  - exists sorted, []. split; [reflexivity|]. rewrite map_app, rev_app_distr. cbn [map rev app group_for acc_group fst snd]. rewrite eqb_bytes_same. reflexivity.
Qed.
Lemma group_for_none sets above : forall sorted id, ~ In id (map fst sorted) -> group_for id (rev (map (acc_group sets) sorted) ++ above) = group_for id above.
Proof.
  induction sorted as [|ia sorted IH] using rev_ind; intros id N; [reflexivity|]. rewrite map_app, in_app_iff in N. rewrite map_app, rev_app_distr. cbn [map rev app group_for acc_group].
  destruct (eqb_bytes id (fst ia)) eqn:E; [apply eqb_bytes_true in E; exfalso; apply N; right; left; symmetry; exact E|]. apply IH. intros I. apply N. left. exact I.
Qed.
