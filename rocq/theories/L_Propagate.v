(** Lemmas: totals of accounts pushed up a resolved account tree. *)
From Coq Require Import Sorted Permutation.
From Verif Require Import Base M_Amount M_Parser M_Names M_Ledger M_Report S_Amount S_Report S_Names S_Books L_Dec L_Sort L_Names L_Amount L_Registers L_Resolve L_Resolve2 L_Load L_Tree L_Tree2 L_Balance L_Totals.

Lemma eq_key_iff a b : eq_key a b = true <-> a = b.
Proof.
  destruct a, b; cbn; try (split; [discriminate|congruence]); [|tauto]. rewrite eqb_bytes_iff. split; congruence.
Qed.
Lemma eq_key_no a b : eq_key a b = false <-> a <> b.
Proof. destruct (eq_key a b) eqn:E; [apply eq_key_iff in E; split; [discriminate|tauto]|]. split; [intros _ ->|reflexivity]. rewrite (proj2 (eq_key_iff b b) eq_refl) in E. discriminate. Qed.
Lemma aget_set a v m b : aget b (aset a v m) = if eq_key b a then Some v else aget b m.
Proof.
  induction m as [|[k w] m IH]; cbn [aset aget].
  - reflexivity.
  - destruct (eq_key a k) eqn:E; cbn [aget].
    + apply eq_key_iff in E. subst k. destruct (eq_key b a); reflexivity.
    + destruct (eq_key b k) eqn:E2; [|exact IH]. apply eq_key_iff in E2. subst k. destruct (eq_key b a) eqn:E3; [|reflexivity].
      apply eq_key_iff in E3. subst. rewrite (proj2 (eq_key_iff a a) eq_refl) in E. discriminate.
Qed.
Lemma aset_keys a v m x : In x (map fst (aset a v m)) <-> x = a \/ In x (map fst m).
Proof.
  induction m as [|[k w] m IH]; cbn [aset map fst].
  - cbn. intuition congruence.
  - destruct (eq_key a k) eqn:E; cbn [map fst In].
    + apply eq_key_iff in E. subst. intuition congruence.
    + rewrite IH. intuition congruence.
Qed.
Lemma aset_nodup a v m : NoDup (map fst m) -> NoDup (map fst (aset a v m)).
Proof.
  induction m as [|[k w] m IH]; cbn [aset map fst]; intros H; [constructor; [intros []|constructor]|].
  inversion H as [|? ? H1 H2]; subst. destruct (eq_key a k) eqn:E; cbn [map fst]; [exact H|].
  constructor; [|apply IH, H2]. rewrite aset_keys. intros [->|I]; [|tauto]. rewrite (proj2 (eq_key_iff a a) eq_refl) in E. discriminate.
Qed.

Section Push.
Context (all : list bytes) (T : tree) (conv : conversion) (recurse : bool) (R : tts -> list bytes -> Prop).
Hypothesis HT : tree_of all T.
Hypothesis HR : forall s s' l l', l <> [] -> R s l -> R s' l' -> exists s2, merge_totals conv (negb recurse) s s' = Ok s2 /\ R s2 (l ++ l').
Notation ch := (t_children T).
Notation M := (bound all).
Notation F := (S (bound all)).
Definition keeps (m : atotals) (K : list bytes) (v : bytes -> list bytes) : Prop :=
  NoDup (map fst m) /\ aget None m = None /\
  forall x, if mem x K then exists s, aget (Some x) m = Some s /\ R s (v x) else aget (Some x) m = None.
Definition subl (v : bytes -> list bytes) (a : bytes) : list bytes := flat_map v (with_children F ch a).

Lemma propagate_app l1 : forall l2 m, propagate conv recurse T (l1 ++ l2) m = do m1 <- propagate conv recurse T l1 m; propagate conv recurse T l2 m1.
Proof.
  induction l1 as [|a l1 IH]; intros l2 m; cbn [app propagate]; [reflexivity|].
  destruct (t_parent T a); [|apply IH]. destruct (aget _ m); [|apply IH]. destruct (aget (Some a) m); [|reflexivity].
  destruct (merge_totals conv _ _ _); cbn [bind]; [apply IH|reflexivity|reflexivity].
Qed.
Lemma flat_flat {A C D} (g : C -> list D) (f : A -> list C) l : flat_map g (flat_map f l) = flat_map (fun a => flat_map g (f a)) l.
Proof. induction l as [|a l IH]; cbn [flat_map]; [reflexivity|]. rewrite flat_map_app, IH. reflexivity. Qed.
Lemma flat_ext {A C} (f g : A -> list C) l : (forall x, In x l -> f x = g x) -> flat_map f l = flat_map g l.
Proof. induction l as [|a l IH]; intros H; cbn [flat_map]; [reflexivity|]. rewrite (H a (or_introl eq_refl)), IH; [reflexivity|]. intros x I. apply H. right. exact I. Qed.
Lemma subl_unfold v a : In a all -> subl v a = v a ++ flat_map (subl v) (ch a).
Proof.
  intros Ha. unfold subl at 1. rewrite (reach_stable all T HT F (S F)) by (auto; lia). cbn [with_children flat_map]. f_equal.
  rewrite flat_flat. reflexivity.
Qed.
Lemma subl_ext v w a : (forall x, In x (with_children F ch a) -> v x = w x) -> subl v a = subl w a.
Proof. intros H. apply flat_ext, H. Qed.
Lemma aset_keeps m K v a s l : In a K -> keeps m K v -> R s l -> keeps (aset (Some a) s m) K (fun x => if eqb_bytes x a then l else v x).
Proof.
  intros Ha (N & H0 & H) Hs. split; [apply aset_nodup, N|]. split; [rewrite aget_set; exact H0|]. intros x. specialize (H x). rewrite aget_set. cbn [eq_key].
  destruct (eqb_bytes x a) eqn:E; [|exact H]. apply eqb_bytes_iff in E. subst. apply mem_in in Ha. rewrite Ha. eauto.
Qed.

Lemma push_sub : forall f a m K v, In a all -> (M - msr a < f)%nat -> keeps m K v -> (forall x, In x K -> v x <> []) -> incl (with_children F ch a) K ->
  exists m' v', propagate conv recurse T (first_with_children f ch a) m = Ok m' /\ keeps m' K v' /\ (forall x, In x K -> v' x <> []) /\
    (forall x, In x (with_children F ch a) -> v' x = subl v x) /\
    (forall p, t_parent T a = Some p -> In p K -> v' p = v p ++ subl v a) /\
    (forall x, ~ In x (with_children F ch a) -> t_parent T a <> Some x -> v' x = v x).
Proof.
  induction f as [|f IH]; intros a m K v Ha Hf Hm Hne Hi; [lia|]. cbn [first_with_children].
  assert (Kids : forall ks m v, NoDup ks -> incl ks (ch a) -> keeps m K v -> (forall x, In x K -> v x <> []) ->
    exists m' v', propagate conv recurse T (flat_map (first_with_children f ch) ks) m = Ok m' /\ keeps m' K v' /\ (forall x, In x K -> v' x <> []) /\
      (forall k x, In k ks -> In x (with_children F ch k) -> v' x = subl v x) /\
      v' a = v a ++ flat_map (subl v) ks /\
      (forall x, x <> a -> (forall k, In k ks -> ~ In x (with_children F ch k)) -> v' x = v x)).
  { assert (IaK : In a K) by (apply Hi, wc_self; lia).
    induction ks as [|k ks IHk]; intros m0 v0 Nk Ik Hm0 Hne0; cbn [flat_map].
    - exists m0, v0. split; [reflexivity|]. split; [exact Hm0|]. split; [exact Hne0|]. split; [intros ? ? []|]. split; [rewrite app_nil_r; reflexivity|auto].
    - inversion Nk as [|? ? Nk1 Nk2]; subst. assert (Ck : In k (ch a)) by (apply Ik; left; reflexivity).
      pose proof (t_m all T HT _ _ Ck) as Mk. assert (Ak := kid_all all T HT _ _ Ck).
      assert (Sub : forall k x, In k (ch a) -> In x (with_children F ch k) -> In x (with_children F ch a)).
      { intros k' x I1 I2. rewrite (reach_stable all T HT F (S F)) by (auto; lia). eapply wc_child; eauto. }
      destruct (IH k m0 K v0 Ak) as (m1 & v1 & E1 & H1 & N1 & V1 & P1 & O1); [lia|exact Hm0|exact Hne0|intros x I; apply Hi; eapply Sub; eauto|].
      assert (Ka : t_parent T k = Some a) by (apply (child_parent all T HT), Ck).
      destruct (IHk m1 v1 Nk2) as (m2 & v2 & E2 & H2 & N2 & V2 & P2 & O2); [intros x I; apply Ik; right; exact I|exact H1|exact N1|].
      exists m2, v2. rewrite propagate_app, E1. cbn [bind]. split; [exact E2|]. split; [exact H2|]. split; [exact N2|].
      assert (Same : forall k' x, In k' ks -> In x (with_children F ch k') -> v1 x = v0 x).
      { intros k' x I1 I2. apply O1.
        - intros I3. assert (k = k') by (eapply (kids_disjoint all T HT); [exact Ck|apply Ik; right; exact I1|exact I3|exact I2]). subst. tauto.
        - rewrite Ka. intros [= <-]. revert I2. apply (kid_notin all T HT). apply Ik. right. exact I1. }
      assert (Sames : forall k' x, In k' ks -> In x (with_children F ch k') -> subl v1 x = subl v0 x).
      { intros k' x I1 I2. apply subl_ext. intros y Iy. eapply Same; [exact I1|].
        assert (Ax : In k' all) by (apply (kid_all all T HT a), Ik; right; exact I1).
        apply (reach_under all T HT F ltac:(lia) k' y Ax). apply (reach_under all T HT F ltac:(lia) k' x Ax) in I2.
        assert (Axx : In x all) by (apply (reach_in all T HT F k'); [exact Ax|apply (reach_under all T HT F ltac:(lia) k' x Ax), I2]).
        apply (reach_under all T HT F ltac:(lia) x y Axx) in Iy. clear - I2 Iy. induction Iy as [|d q E U IHU]; [exact I2|econstructor; eauto]. }
      split; [|split].
      + intros k' x [<-|I] Ix.
        * rewrite O2; [apply V1, Ix| |].
          -- intros ->. revert Ix. apply (kid_notin all T HT), Ck.
          -- intros k' I' Ix'. assert (k = k') by (eapply (kids_disjoint all T HT); [exact Ck|apply Ik; right; exact I'|exact Ix|exact Ix']). subst. tauto.
        * rewrite (V2 k' x I Ix). eapply Sames; eauto.
      + rewrite P2, (P1 a Ka IaK). rewrite <- app_assoc. do 2 f_equal.
        apply flat_ext. intros k' I. eapply Sames; [exact I|]. apply wc_self. lia.
      + intros x Nx Hx. rewrite O2; [apply O1|exact Nx|].
        * apply Hx. left. reflexivity.
        * rewrite Ka. congruence.
        * intros k' I. apply Hx. right. exact I. }
  destruct (Kids (ch a) m v) as (m1 & v1 & E1 & H1 & N1 & V1 & P1 & O1); [apply HT|intros x I; exact I|exact Hm|exact Hne|].
  rewrite propagate_app, E1. cbn [bind propagate].
  assert (Va : v1 a = subl v a) by (rewrite P1; symmetry; apply subl_unfold, Ha).
  assert (Vin : forall x, In x (with_children F ch a) -> v1 x = subl v x).
  { intros x I. rewrite (reach_stable all T HT F (S F)) in I by (auto; lia). cbn [with_children] in I. destruct I as [<-|I]; [exact Va|].
    apply in_flat_map in I as (k & I1 & I2). eapply V1; eauto. }
  assert (Vout : forall x, ~ In x (with_children F ch a) -> v1 x = v x).
  { intros x I. apply O1.
    - intros ->. apply I, wc_self. lia.
    - intros k I1 I2. apply I. rewrite (reach_stable all T HT F (S F)) by (auto; lia). eapply wc_child; eauto. }
  destruct (t_parent T a) as [p|] eqn:Ep.
  - assert (Cp : In a (ch p)) by (apply (parent_some all T HT), Ep).
    assert (Np : ~ In p (with_children F ch a)) by apply (kid_notin all T HT), Cp.
    assert (Hp := proj2 (proj2 H1) p). destruct (mem p K) eqn:Mp.
    + destruct Hp as (sp & Esp & Rp). rewrite Esp.
      assert (IaK : In a K) by (apply Hi, wc_self; lia). assert (Hax := proj2 (proj2 H1) a). rewrite (proj2 (mem_in a K) IaK) in Hax.
      destruct Hax as (sa & Esa & Ra). rewrite Esa. apply mem_in in Mp.
      destruct (HR sp sa (v1 p) (v1 a) (N1 p Mp) Rp Ra) as (s2 & Es2 & Rs2). rewrite Es2. cbn [bind]. eexists _, _. split; [reflexivity|].
      split; [apply (aset_keeps m1 K v1 p s2 (v1 p ++ v1 a)); [exact Mp|exact H1|exact Rs2]|]. split; [|split; [|split]].
      * intros x I. cbn beta. destruct (eqb_bytes x p); [|auto]. specialize (N1 p Mp). destruct (v1 p); [tauto|discriminate].
      * intros x I. cbn beta. destruct (eqb_bytes x p) eqn:E; [apply eqb_bytes_iff in E; subst; tauto|]. apply Vin, I.
      * intros p' [= <-] _. cbn beta. rewrite eqb_bytes_refl, Va, (Vout p Np). reflexivity.
      * intros x I N. cbn beta. destruct (eqb_bytes x p) eqn:E; [apply eqb_bytes_iff in E; subst; congruence|]. apply Vout, I.
    + rewrite Hp. exists m1, v1. split; [reflexivity|]. split; [exact H1|]. split; [exact N1|]. split; [exact Vin|]. split.
      * intros p' [= <-] I. apply mem_out in Mp. tauto.
      * intros x I _. apply Vout, I.
  - exists m1, v1. split; [reflexivity|]. split; [exact H1|]. split; [exact N1|]. split; [exact Vin|]. split; [discriminate|]. intros x I _. apply Vout, I.
Qed.
End Push.
