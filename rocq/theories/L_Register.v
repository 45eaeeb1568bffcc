(** Lemmas: the whole aggregated register. *)
From Coq Require Import Sorted Permutation.
From Verif Require Import Base M_Amount M_Parser M_Names M_Ledger M_Report S_Amount S_Report S_Names S_Books L_Dec L_Sort L_Names L_Amount L_Registers L_Resolve L_Resolve2 L_Load L_Tree L_Tree2 L_Balance L_Totals L_Propagate L_Aggregate L_Cumulative.

Section Register.
Context (conv : conversion) (bt : option (Z -> Z)) (bc : bool) (com : commodity).
Hypothesis Hagg : bt <> None \/ bc = true.
Hypothesis Hred : reducer_ok bt.

(** ** sizes *)
Lemma sum_cells_ok : forall l total, a_com total = com -> Forall (cell_ok bc com) l -> exists a, sum_cells conv total l = Ok a /\ a_com a = com.
Proof.
  induction l as [|c l IH]; intros total Ht O; cbn [sum_cells]; [eauto|]. apply Forall_cons_iff in O as [Oc O].
  assert (E : exists t, match c_total c with Some a => add_in conv total a | None => sum_in conv total (map snd (c_cats c)) end = Ok t /\ a_com t = com).
  { unfold cell_ok in Oc. destruct bc.
    - destruct Oc as (-> & _ & _ & F). rewrite sum_in_same; [eexists; split; [reflexivity|exact Ht]|]. apply Forall_forall. intros q I. apply in_map_iff in I as (kv & <- & I).
      rewrite Forall_forall in F. rewrite (F kv I). congruence.
    - destruct Oc as ((a & -> & Ca) & _). rewrite add_in_same by congruence. eexists. split; [reflexivity|exact Ht]. }
  destruct E as (t & Et & Ct). rewrite Et. cbn [bind]. apply IH; auto.
Qed.
Lemma magnitude_ok ts : line_ok bc com (cells ts) -> cells ts <> [] -> exists a, cum_magnitude conv ts = Ok (Some a).
Proof.
  intros [_ O] Hne. unfold cum_magnitude. destruct (cells ts) as [|c l] eqn:E; [tauto|]. rewrite <- E in *. destruct (last_cell (cells ts)) as [x|] eqn:El; [|apply last_none in El; tauto].
  assert (Ox : cell_ok bc com x) by (rewrite Forall_forall in O; apply O, last_some, El). rewrite (cell_com bc com x Ox).
  destruct (sum_cells_ok (cells ts) (zero_amount com) eq_refl O) as (a & Ea & _). rewrite Ea. cbn [bind]. eauto.
Qed.
Lemma order_exists m : NoDup (map fst m) -> (forall a ts, In (a, ts) m -> line_ok bc com (cells ts) /\ cells ts <> []) -> exists order, top_order conv m order.
Proof.
  intros N H. set (mag := fun a => match aget a m with Some ts => match cum_magnitude conv ts with Ok (Some x) => x | _ => zero_amount com end | None => zero_amount com end).
  exists (stable_sort (fun a b => is_bigger (mag a) (mag b)) (map fst m)). exists mag.
  assert (P := stable_sort_perm (fun a b => is_bigger (mag a) (mag b)) (map fst m)). split; [|split; [|split]].
  - intros a ts Ea Hne. destruct (H a ts (aget_in _ _ _ Ea)) as [L _]. destruct (magnitude_ok ts L Hne) as (x & Ex). unfold mag. rewrite Ea, Ex. reflexivity.
  - apply (Permutation_NoDup P), N.
  - intros a. split.
    + intros I. apply (Permutation_in _ (Permutation_sym P)) in I. apply in_map_iff in I as ([k ts] & E & I). cbn in E. subst k. exists ts.
      split; [apply in_aget; auto|]. eapply H; eauto.
    + intros (ts & E & _). apply (Permutation_in _ P). apply in_map_iff. exists (a, ts). split; [reflexivity|apply aget_in, E].
  - apply stable_sort_sorted. unfold weak_order, is_bigger, cmp_magnitude. split.
    + intros a b. destruct (Z.compare_spec (Z.abs (a_int (mag a))) (Z.abs (a_int (mag b)))); try discriminate. intros _. destruct (Z.compare_spec (Z.abs (a_int (mag b))) (Z.abs (a_int (mag a)))); try reflexivity. lia.
    + intros a b c. destruct (Z.compare_spec (Z.abs (a_int (mag a))) (Z.abs (a_int (mag b)))), (Z.compare_spec (Z.abs (a_int (mag b))) (Z.abs (a_int (mag c)))), (Z.compare_spec (Z.abs (a_int (mag a))) (Z.abs (a_int (mag c)))); try reflexivity; try discriminate; lia.
Qed.

(** ** the lines of the grid *)
Lemma grid_in order g ts K g0 t k : column bt bc com ts K g0 ->
  (In (t, k) (map fst (grid com order g (cells ts))) <-> has_line bt bc t k K = true /\ (bc = false -> k = [])).
Proof.
  intros C. unfold grid. rewrite map_flat. rewrite in_flat_map. split.
  - intros (c & Ic & J). rewrite map_map in J. cbn [fst] in J. apply in_map_iff in J as (k' & [= <- <-] & J). apply (categories_spec bt bc com Hagg ts K g0 c k' C Ic), J.
  - intros (Hl & Hk). assert (It : In t (map c_time (cells ts))) by (apply (column_times bt bc com ts K g0 t C); eauto).
    apply in_map_iff in It as (c & <- & Ic). exists c. split; [exact Ic|]. rewrite map_map. cbn [fst]. apply in_map_iff. exists k. split; [reflexivity|].
    apply (categories_spec bt bc com Hagg ts K g0 c k C Ic). auto.
Qed.
Lemma grid_amounts order g l t k xs : In (t, k, xs) (grid com order g l) -> xs = map (fun a => mkAmount (g a t k) com) order.
Proof. unfold grid. rewrite in_flat_map. intros (c & _ & J). apply in_map_iff in J as (k' & [= <- <- <-] & _). reflexivity. Qed.
Lemma sorted_app {A} (P : A -> A -> Prop) l l' : StronglySorted P l -> StronglySorted P l' -> (forall a b, In a l -> In b l' -> P a b) -> StronglySorted P (l ++ l').
Proof.
  induction 1 as [|x l H IH F]; intros S' Hb; cbn [app]; [exact S'|]. constructor; [apply IH; [exact S'|]; intros a b I J; apply Hb; [right|]; auto|].
  apply Forall_app. split; [exact F|]. apply Forall_forall. intros b J. apply Hb; [left; reflexivity|exact J].
Qed.
Lemma categories_sorted c : cell_ok bc com c -> StronglySorted (fun a b => less_bytes a b = true) (categories c).
Proof.
  intros O. unfold categories. destruct (c_cats c) as [|kv r] eqn:Ec; [repeat constructor|]. rewrite <- Ec. 
  assert (N : NoDup (sort_strings (map fst (c_cats c)))).
  { apply (Permutation_NoDup (sort_strings_perm _)). unfold cell_ok in O. destruct bc; [tauto|]. destruct O as [_ O]. rewrite O in Ec. discriminate. }
  assert (S := sort_strings_sorted (map fst (c_cats c))). clear - N S. revert N. induction S as [|x l S IH F]; intros N; constructor; inversion N as [|? ? N1 N2]; subst; [auto|].
  rewrite Forall_forall in *. intros y I. specialize (F y I). destruct (less_bytes x y) eqn:E; [reflexivity|]. rewrite (less_bytes_total x y E F) in N1. tauto.
Qed.
Lemma grid_sorted order g l : line_ok bc com l -> StronglySorted line_before (map fst (grid com order g l)).
Proof.
  intros [U O]. unfold grid. rewrite map_flat. induction l as [|c l IH]; cbn [flat_map]; [constructor|].
  apply up_cons in U as [U Uc]. apply Forall_cons_iff in O as [Oc O]. apply sorted_app; [|apply IH; auto|].
  - rewrite map_map. cbn [fst]. assert (S := categories_sorted c Oc). induction S as [|x r S IHS F]; cbn [map]; constructor; [exact IHS|].
    apply Forall_forall. intros y I. apply in_map_iff in I as (k & <- & I). rewrite Forall_forall in F. right. cbn. auto.
  - intros a b I J. rewrite map_map in I. apply in_map_iff in I as (k & <- & I). apply in_flat_map in J as (c' & Ic & J). rewrite map_map in J.
    apply in_map_iff in J as (k' & <- & J). left. cbn. auto.
Qed.
Lemma make_cumulative_all_spec m V K order : bc = false -> cols bt bc com m order V K ->
  exists m', make_cumulative_all conv m = Ok m' /\ map fst m' = map fst m /\
    forall k ts, In (k, ts) m' -> column bt bc com ts (K k) (fun t _ => sum_upto bt t (V k)).
Proof.
  intros Hb (_ & _ & S). revert S. induction m as [|[k ts] m IH]; intros S; cbn [make_cumulative_all].
  - exists []. split; [reflexivity|]. split; [reflexivity|]. intros ? ? [].
  - assert (Hbt : bt <> None) by (destruct Hagg; [auto|congruence]). rewrite Hb in *.
    destruct (cumulative_spec conv bt com ts (V k) (K k) Hbt (S k ts (or_introl eq_refl))) as (ts' & E & C). rewrite E. cbn [bind].
    destruct (IH (fun k' t' I => S k' t' (or_intror I))) as (m' & E' & M & G). rewrite E'. cbn [bind]. eexists. split; [reflexivity|].
    split; [cbn [map fst]; f_equal; exact M|]. intros k' t' [[= <- <-]|I]; auto.
Qed.
Lemma tree_order all T f a recurse sel m order : tree_of all T -> In a all -> (bound all < f)%nat ->
  (forall x, In x (with_children f (t_children T) a) -> entries_in_order (sel x) /\ entries_in com (sel x)) ->
  aggregated f conv T a bt bc recurse sel = Ok m -> top_order conv m order ->
  let below := with_children f (t_children T) in
  let V := counted_by recurse sel below in
  let K := counted_by true sel below in
  NoDup order /\ (forall k, In k order <-> exists x, k = Some x /\ In x (below a) /\ flat_map sel (below x) <> []) /\
  cols bt bc com m order V K.
Proof.
  intros HT Ha Hf Hs Em (mag & _ & No & Io & _) below V K.
  destruct (aggregated_spec conv bt bc com Hagg Hred all T f a recurse sel HT Ha Hf Hs) as (m' & Em' & N & Nn & G & O). rewrite Em in Em'. injection Em' as <-.
  assert (Keys : forall k ts, In (k, ts) m -> exists x, k = Some x /\ In x (below a) /\ flat_map sel (below x) <> [] /\ sums bt bc com ts (V k) (K k)).
  { intros k ts I. apply (in_aget _ _ _ N) in I. destruct k as [x|]; [|congruence]. destruct (O x ts I) as [I1 I2]. exists x. split; [reflexivity|]. split; [exact I1|]. split; [exact I2|].
    destruct (G x I1 I2) as (ts' & E & S). rewrite I in E. injection E as <-. exact S. }
  assert (Io' : forall k, In k order <-> exists x, k = Some x /\ In x (below a) /\ flat_map sel (below x) <> []).
  { intros k. rewrite Io. split.
    - intros (ts & E & _). destruct (Keys k ts (aget_in _ _ _ E)) as (x & E1 & I1 & I2 & _). eauto.
    - intros (x & -> & I1 & I2). destruct (G x I1 I2) as (ts & E & S). exists ts. split; [exact E|]. intros Z. apply (sums_nil bt bc com Hagg ts _ _ S) in Z. tauto. }
  split; [exact No|]. split; [exact Io'|]. split; [exact N|]. split.
  - intros k. rewrite Io'. split.
    + intros I. apply in_map_iff in I as ([k' ts] & E & I). cbn in E. subst k'. destruct (Keys k ts I) as (x & E1 & I1 & I2 & _). eauto.
    + intros (x & -> & I1 & I2). destruct (G x I1 I2) as (ts & E & _). apply in_map_iff. exists (Some x, ts). split; [reflexivity|apply aget_in, E].
  - intros k ts I. destruct (Keys k ts I) as (x & E1 & I1 & I2 & S). exact S.
Qed.
Lemma flat_incl {A C} (f : A -> list C) l l' : incl l l' -> incl (flat_map f l) (flat_map f l').
Proof. intros H x I. apply in_flat_map in I as (y & I1 & I2). apply in_flat_map. eauto. Qed.

Lemma register_columns all T f a recurse cumulative n sel m order : tree_of all T -> In a all -> (bound all < f)%nat -> (cumulative = true -> bc = false) ->
  (forall x, In x (with_children f (t_children T) a) -> entries_in_order (sel x) /\ entries_in com (sel x) /\ (bc = true -> Forall (fun e => e_cat e <> []) (sel x))) ->
  aggregated f conv T a bt bc recurse sel = Ok m -> top_order conv m order -> In (Some a) (shown_cols n order) ->
  let below := with_children f (t_children T) in
  let V := col_entries n order (counted_by recurse sel below) in
  exists m1 m2 m3, top conv (Z.of_nat n) m order = Ok (m1, shown_cols n order) /\ merge_time conv (Some a) (aget (Some a) m1) m1 = Ok m2 /\
    (if cumulative then make_cumulative_all conv m2 else Ok m2) = Ok m3 /\ shown_cols n order <> [] /\
    (bc = true -> Forall (fun e => e_cat e <> []) (flat_map sel (below a))) /\
    forall k, In k (shown_cols n order) -> exists ts, aget k m3 = Some ts /\
      column bt bc com ts (flat_map sel (below a)) (fun t c => if cumulative then sum_upto bt t (V k) else line_sum bt bc t c (V k)).
Proof.
  intros HT Ha Hf Hcum Hs Em Ho Ia below V.
  destruct (tree_order all T f a recurse sel m order HT Ha Hf (fun x I => conj (proj1 (Hs x I)) (proj1 (proj2 (Hs x I)))) Em Ho) as (No & Io & C). fold below in Io, C.
  assert (Nn : ~ In None order) by (rewrite Io; intros (x & E & _); discriminate).
  destruct (top_spec conv bt bc com Hagg m order _ _ n C No Nn) as (m1 & E1 & C1). fold V in C1.
  set (K1 := col_entries n order (counted_by true sel below)) in *. set (shown := shown_cols n order) in *.
  assert (Below : forall x, In x (below a) -> incl (below x) (below a)).
  { intros x I y J. assert (Ax : In x all) by (apply (reach_in all T HT f a); auto). apply (reach_under all T HT f ltac:(lia) a y Ha).
    apply (reach_under all T HT f ltac:(lia) a x Ha) in I. apply (reach_under all T HT f ltac:(lia) x y Ax) in J.
    clear - I J. induction J as [|d q E U IH]; [exact I|econstructor; eauto]. }
  assert (Inc : forall k, In k shown -> incl (K1 k) (K1 (Some a))).
  { intros k I. unfold K1, col_entries. cbn [counted_by]. destruct k as [x|].
    - cbn [counted_by]. apply flat_incl, Below. assert (J : In (Some x) order).
      { unfold shown, shown_cols in I. destruct (_ <=? _)%nat; [exact I|]. rewrite <- (firstn_skipn n order). destruct (_ =? _)%nat; apply in_app_iff; [auto|].
        apply in_app_iff in I as [I|[I|[]]]; [auto|discriminate]. }
      apply Io in J as (x' & [= <-] & J & _). exact J.
    - intros e Ie. apply in_flat_map in Ie as (k & Ik & Ie). assert (J : In k order) by (rewrite <- (firstn_skipn n order); apply in_app_iff; auto).
      apply Io in J as (x & -> & J & _). cbn [counted_by] in Ie. apply (flat_incl sel _ _ (Below x J)), Ie. }
  destruct (merge_time_spec conv bt bc com Hagg m1 shown V K1 (Some a) C1 Ia Inc) as (m2 & E2 & C2). 
  set (KA := K1 (Some a)) in *. assert (EKA : KA = flat_map sel (below a)) by reflexivity.
  assert (Fin : exists m3, (if cumulative then make_cumulative_all conv m2 else Ok m2) = Ok m3 /\
    forall k, In k shown -> exists ts, aget k m3 = Some ts /\ column bt bc com ts KA (fun t c => if cumulative then sum_upto bt t (V k) else line_sum bt bc t c (V k))).
  { destruct cumulative.
    - destruct (make_cumulative_all_spec m2 _ _ _ (Hcum eq_refl) C2) as (m3 & E3 & M3 & G). exists m3. split; [exact E3|]. intros k I.
      destruct C2 as (N2 & I2 & _). apply I2 in I. rewrite <- M3 in I, N2. apply in_map_iff in I as ([k' ts] & E & I). cbn in E. subst k'. exists ts.
      split; [apply in_aget; auto|]. apply (G k ts I).
    - exists m2. split; [reflexivity|]. intros k I. destruct (cols_get bt bc com _ _ _ _ k C2 I) as (ts & E & S). exists ts. split; [exact E|]. apply sums_column, S. }
  destruct Fin as (m3 & E3 & G3). exists m1, m2, m3. split; [exact E1|]. split; [exact E2|]. split; [exact E3|]. split; [intros E; fold shown in E; rewrite E in Ia; destruct Ia|]. split; [|exact G3].
  intros Hb. apply Forall_forall. intros e Ie. apply in_flat_map in Ie as (x & Ix & Ie). destruct (Hs x Ix) as (_ & _ & H). specialize (H Hb).
  rewrite Forall_forall in H. auto.
Qed.
Lemma register_spec all T f a recurse cumulative n sel m order : tree_of all T -> In a all -> (bound all < f)%nat -> (cumulative = true -> bc = false) ->
  (forall x, In x (with_children f (t_children T) a) -> entries_in_order (sel x) /\ entries_in com (sel x) /\ (bc = true -> Forall (fun e => e_cat e <> []) (sel x))) ->
  aggregated f conv T a bt bc recurse sel = Ok m -> top_order conv m order -> In (Some a) (shown_cols n order) ->
  let below := with_children f (t_children T) in
  let V := col_entries n order (counted_by recurse sel below) in
  exists rs, aggregated_rows conv a cumulative (Z.of_nat n) m order = Ok (shown_cols n order, rs) /\
    StronglySorted line_before (map fst rs) /\
    (forall t k, In (t, k) (map fst rs) <-> has_line bt bc t k (flat_map sel (below a)) = true /\ (bc = false -> k = [])) /\
    forall t k xs, In (t, k, xs) rs ->
      xs = map (fun c => mkAmount (if cumulative then sum_upto bt t (V c) else line_sum bt bc t k (V c)) com) (shown_cols n order).
Proof.
  intros HT Ha Hf Hcum Hs Em Ho Ia below V.
  destruct (register_columns all T f a recurse cumulative n sel m order HT Ha Hf Hcum Hs Em Ho Ia) as (m1 & m2 & m3 & E1 & E2 & E3 & Hne & Hcat & G3). fold below in Hcat, G3. fold V in G3.
  unfold aggregated_rows. rewrite E1. cbn [bind fst snd]. rewrite E2. cbn [bind]. rewrite E3. cbn [bind].
  destruct (rows_spec bt bc com Hagg Hred m3 (shown_cols n order) _ _ Hne G3 Hcat) as (l & El & ts & k0 & _ & Cl & <- & _).
  rewrite El. cbn [bind]. eexists. split; [reflexivity|]. split; [apply grid_sorted, Cl|]. split.
  - intros t k. eapply grid_in, Cl.
  - intros t k xs I. apply (grid_amounts _ _ _ _ _ _ I).
Qed.
End Register.
