(** Cumulative balances over a resolved account tree, in one commodity. *)
From Coq Require Import Permutation Sorted.
From Verif Require Import Base M_Amount M_Parser M_Names M_Ledger S_Names S_Amount S_Books L_Dec L_Sort L_Names L_Amount L_Registers L_Resolve L_Resolve2 L_Tree L_Tree2.

Lemma bget_set_same a v m : bget a (bset a v m) = Some v.
Proof.
  induction m as [|[k w] m IH]; cbn [bset]; [cbn [bget]; rewrite eqb_bytes_refl; reflexivity|].
  destruct (eqb_bytes a k) eqn:E; cbn [bget]; rewrite E; [reflexivity|exact IH].
Qed.
Lemma bget_set_other a b v m : a <> b -> bget b (bset a v m) = bget b m.
Proof.
  intros N. assert (Nb : eqb_bytes b a = false) by (apply eqb_bytes_no; congruence). induction m as [|[k w] m IH]; cbn [bset].
  - cbn [bget]. rewrite Nb. reflexivity.
  - destruct (eqb_bytes a k) eqn:E; cbn [bget]; [|destruct (eqb_bytes b k); [reflexivity|exact IH]].
    apply eqb_bytes_iff in E. subst k. rewrite Nb. reflexivity.
Qed.
Lemma sum_in_same conv l : forall a, Forall (fun q => a_com q = a_com a) l -> sum_in conv a l = Ok (mkAmount (a_int a + zsum (map a_int l)) (a_com a)).
Proof.
  induction l as [|q l IH]; intros a H; cbn [sum_in].
  - cbn. f_equal. destruct a; cbn; f_equal; lia.
  - inversion H as [|? ? H1 H2]; subst. rewrite add_in_same by exact H1. cbn [bind]. rewrite IH by exact H2. cbn. f_equal. f_equal. unfold zsum. lia.
Qed.
Lemma own_spec conv comm sel : forall accs m, NoDup accs ->
  (forall a, In a accs -> Forall (fun q => a_com q = comm a) (sel a)) ->
  exists m', own_totals conv comm sel accs m = Ok m' /\
    forall a, bget a m' = if mem a accs then Some (mkAmount (zsum (map a_int (sel a))) (comm a)) else bget a m.
Proof.
  induction accs as [|b accs IH]; intros m N H; cbn [own_totals]; [exists m; split; reflexivity|].
  inversion N as [|? ? N1 N2]; subst.
  rewrite (sum_in_same conv (sel b) (zero_amount (comm b))) by (apply H; left; reflexivity). cbn [bind a_com a_int zero_amount].
  set (t := mkAmount _ _).
  destruct (IH (bset b t m) N2) as (m' & E & K); [intros; apply H; right; auto|]. exists m'. split; [exact E|]. intros a. rewrite K.
  cbn [mem existsb]. change (existsb (eqb_bytes a) accs) with (mem a accs). destruct (eqb_bytes a b) eqn:Eab; cbn [orb].
  - apply eqb_bytes_iff in Eab. subst b. apply mem_out in N1. rewrite N1, bget_set_same. reflexivity.
  - apply eqb_bytes_no in Eab. destruct (mem a accs); [reflexivity|]. apply bget_set_other. congruence.
Qed.
Lemma cumulate_app conv T l1 : forall l2 m, cumulate conv T (l1 ++ l2) m = do m1 <- cumulate conv T l1 m; cumulate conv T l2 m1.
Proof.
  induction l1 as [|a l1 IH]; intros l2 m; cbn [app cumulate]; [reflexivity|].
  destruct (t_parent T a); [|apply IH]. destruct (bget _ m); [|apply IH]. destruct (bget a m); [|reflexivity].
  destruct (add_in conv _ _); cbn [bind]; [apply IH|reflexivity|reflexivity].
Qed.
Lemma zsum_app l l' : zsum (l ++ l') = zsum l + zsum l'.
Proof. induction l as [|x l IH]; cbn [app zsum fold_right] in *; [reflexivity|]. unfold zsum in *. cbn [fold_right]. lia. Qed.
Lemma zsum_perm l l' : Permutation l l' -> zsum l = zsum l'.
Proof. induction 1; unfold zsum in *; cbn [fold_right] in *; lia. Qed.
Lemma zsum_cons x l : zsum (x :: l) = x + zsum l.
Proof. reflexivity. Qed.
Lemma zsum_flat {A} (f : A -> list Z) l : zsum (flat_map f l) = zsum (map (fun a => zsum (f a)) l).
Proof. induction l as [|a l IH]; cbn [flat_map map]; [reflexivity|]. rewrite zsum_app, zsum_cons, IH. reflexivity. Qed.
Lemma map_flat {A C D} (g : C -> D) (f : A -> list C) l : map g (flat_map f l) = flat_map (fun a => map g (f a)) l.
Proof. induction l as [|a l IH]; cbn [flat_map]; [reflexivity|]. rewrite map_app, IH. reflexivity. Qed.

Section Cum.
Context (all : list bytes) (T : tree) (conv : conversion) (c : commodity).
Hypothesis HT : tree_of all T.
Notation ch := (t_children T).
Notation M := (bound all).
Notation F := (S (bound all)).
Definition holds (m : balances) (K : list bytes) (v : bytes -> Z) : Prop :=
  forall x, bget x m = if mem x K then Some (mkAmount (v x) c) else None.
Definition sub (v : bytes -> Z) (a : bytes) : Z := zsum (map v (with_children F ch a)).

Lemma sub_unfold v a : In a all -> sub v a = v a + zsum (map (sub v) (ch a)).
Proof.
  intros Ha. unfold sub at 1. rewrite (reach_stable all T HT F (S F)) by (auto; lia). cbn [with_children map]. rewrite zsum_cons. f_equal.
  rewrite map_flat, zsum_flat. reflexivity.
Qed.
Lemma sub_ext v w a : (forall x, In x (with_children F ch a) -> v x = w x) -> sub v a = sub w a.
Proof. intros H. unfold sub. f_equal. apply map_ext_in, H. Qed.
Lemma bset_holds m K v a z : In a K -> holds m K v -> holds (bset a (mkAmount z c) m) K (fun x => if eqb_bytes x a then z else v x).
Proof.
  intros Ha H x. destruct (eqb_bytes x a) eqn:E.
  - apply eqb_bytes_iff in E. subst. rewrite bget_set_same. apply mem_in in Ha. rewrite Ha. reflexivity.
  - apply eqb_bytes_no in E. rewrite bget_set_other by congruence. apply H.
Qed.
Lemma wc_self f a : (0 < f)%nat -> In a (with_children f ch a).
Proof. destruct f; [lia|left; reflexivity]. Qed.
Lemma wc_child f a k x : In k (ch a) -> In x (with_children f ch k) -> In x (with_children (S f) ch a).
Proof. intros H1 H2. cbn [with_children]. right. apply in_flat_map. eauto. Qed.
Lemma kid_all a k : In k (ch a) -> In k all. Proof. intros H. apply HT in H. tauto. Qed.
Lemma kid_notin a k f : In k (ch a) -> ~ In a (with_children f ch k).
Proof.
  intros H I. pose proof (t_m all T HT _ _ H). destruct (wc_ge msr ch M par (t_m all T HT) (t_p all T HT) (t_n all T HT) _ _ _ I) as [E|E]; [subst|]; lia.
Qed.
Lemma kids_disjoint a k k' f g x : In k (ch a) -> In k' (ch a) -> In x (with_children f ch k) -> In x (with_children g ch k') -> k = k'.
Proof. intros H1 H2 I1 I2. eapply (wc_disjoint msr ch M par (t_m all T HT) (t_p all T HT) (t_n all T HT)); eauto. Qed.

Lemma cum_sub : forall f a m K v, In a all -> (M - msr a < f)%nat -> holds m K v -> incl (with_children F ch a) K ->
  exists m' v', cumulate conv T (first_with_children f ch a) m = Ok m' /\ holds m' K v' /\
    (forall x, In x (with_children F ch a) -> v' x = sub v x) /\
    (forall p, t_parent T a = Some p -> In p K -> v' p = v p + sub v a) /\
    (forall x, ~ In x (with_children F ch a) -> t_parent T a <> Some x -> v' x = v x).
Proof.
  induction f as [|f IH]; intros a m K v Ha Hf Hm Hi; [lia|]. cbn [first_with_children].
  assert (Kids : forall ks m v, NoDup ks -> incl ks (ch a) -> holds m K v ->
    exists m' v', cumulate conv T (flat_map (first_with_children f ch) ks) m = Ok m' /\ holds m' K v' /\
      (forall k x, In k ks -> In x (with_children F ch k) -> v' x = sub v x) /\
      v' a = v a + zsum (map (sub v) ks) /\
      (forall x, x <> a -> (forall k, In k ks -> ~ In x (with_children F ch k)) -> v' x = v x)).
  { assert (IaK : In a K) by (apply Hi, wc_self; lia).
    induction ks as [|k ks IHk]; intros m0 v0 Nk Ik Hm0; cbn [flat_map].
    - exists m0, v0. split; [reflexivity|]. split; [exact Hm0|]. split; [intros ? ? []|]. split; [cbn; lia|auto].
    - inversion Nk as [|? ? Nk1 Nk2]; subst. assert (Ck : In k (ch a)) by (apply Ik; left; reflexivity).
      pose proof (t_m all T HT _ _ Ck) as Mk. assert (Ak := kid_all _ _ Ck).
      assert (Sub : forall k x, In k (ch a) -> In x (with_children F ch k) -> In x (with_children F ch a)).
      { intros k' x I1 I2. rewrite (reach_stable all T HT F (S F)) by (auto; lia). eapply wc_child; eauto. }
      destruct (IH k m0 K v0 Ak) as (m1 & v1 & E1 & H1 & V1 & P1 & O1); [lia|exact Hm0|intros x I; apply Hi; eapply Sub; eauto|].
      assert (Ka : t_parent T k = Some a) by (apply (child_parent all T HT), Ck).
      destruct (IHk m1 v1 Nk2) as (m2 & v2 & E2 & H2 & V2 & P2 & O2); [intros x I; apply Ik; right; exact I|exact H1|].
      exists m2, v2. rewrite cumulate_app, E1. cbn [bind]. split; [exact E2|]. split; [exact H2|].
      assert (Same : forall k' x, In k' ks -> In x (with_children F ch k') -> v1 x = v0 x).
      { intros k' x I1 I2. apply O1.
        - intros I3. assert (k = k') by (eapply kids_disjoint; [exact Ck|apply Ik; right; exact I1|exact I3|exact I2]). subst. tauto.
        - rewrite Ka. intros [= <-]. revert I2. apply kid_notin. apply Ik. right. exact I1. }
      assert (Sames : forall k' x, In k' ks -> In x (with_children F ch k') -> sub v1 x = sub v0 x).
      { intros k' x I1 I2. apply sub_ext. intros y Iy. eapply Same; [exact I1|].
        assert (Ax : In k' all) by (apply (kid_all a), Ik; right; exact I1).
        apply (reach_under all T HT F ltac:(lia) k' y Ax). apply (reach_under all T HT F ltac:(lia) k' x Ax) in I2.
        assert (Axx : In x all) by (apply (reach_in all T HT F k'); [exact Ax|apply (reach_under all T HT F ltac:(lia) k' x Ax), I2]).
        apply (reach_under all T HT F ltac:(lia) x y Axx) in Iy. clear - I2 Iy. induction Iy as [|d q E U IHU]; [exact I2|econstructor; eauto]. }
      split; [|split].
      + intros k' x [<-|I] Ix.
        * rewrite O2; [apply V1, Ix| |].
          -- intros ->. revert Ix. apply kid_notin, Ck.
          -- intros k' I' Ix'. assert (k = k') by (eapply kids_disjoint; [exact Ck|apply Ik; right; exact I'|exact Ix|exact Ix']). subst. tauto.
        * rewrite (V2 k' x I Ix). eapply Sames; eauto.
      + rewrite P2, (P1 a Ka IaK). cbn [map]. rewrite zsum_cons. replace (map (sub v1) ks) with (map (sub v0) ks); [lia|].
        apply map_ext_in. intros k' I. symmetry. eapply Sames; [exact I|]. apply wc_self. lia.
      + intros x Nx Hx. rewrite O2; [apply O1|exact Nx|].
        * apply Hx. left. reflexivity.
        * rewrite Ka. congruence.
        * intros k' I. apply Hx. right. exact I. }
  destruct (Kids (ch a) m v) as (m1 & v1 & E1 & H1 & V1 & P1 & O1); [apply HT|intros x I; exact I|exact Hm|].
  rewrite cumulate_app, E1. cbn [bind cumulate].
  assert (Va : v1 a = sub v a) by (rewrite P1; symmetry; apply sub_unfold, Ha).
  assert (Vin : forall x, In x (with_children F ch a) -> v1 x = sub v x).
  { intros x I. rewrite (reach_stable all T HT F (S F)) in I by (auto; lia). cbn [with_children] in I. destruct I as [<-|I]; [exact Va|].
    apply in_flat_map in I as (k & I1 & I2). eapply V1; eauto. }
  assert (Vout : forall x, ~ In x (with_children F ch a) -> v1 x = v x).
  { intros x I. apply O1.
    - intros ->. apply I, wc_self. lia.
    - intros k I1 I2. apply I. rewrite (reach_stable all T HT F (S F)) by (auto; lia). eapply wc_child; eauto. }
  destruct (t_parent T a) as [p|] eqn:Ep.
  - assert (Cp : In a (ch p)) by (apply (parent_some all T HT), Ep).
    assert (Np : ~ In p (with_children F ch a)) by apply kid_notin, Cp.
    rewrite H1. destruct (mem p K) eqn:Mp.
    + assert (IaK : mem a K = true) by (apply mem_in, Hi, wc_self; lia). rewrite H1, IaK.
      rewrite add_in_same by reflexivity. cbn [bind a_int a_com]. apply mem_in in Mp. eexists _, _. split; [reflexivity|].
      split; [apply bset_holds; [exact Mp|exact H1]|]. split; [|split].
      * intros x I. cbn beta. destruct (eqb_bytes x p) eqn:E; [apply eqb_bytes_iff in E; subst; tauto|]. apply Vin, I.
      * intros p' [= <-] _. cbn beta. rewrite eqb_bytes_refl, Va, (Vout p Np). lia.
      * intros x I N. cbn beta. destruct (eqb_bytes x p) eqn:E; [apply eqb_bytes_iff in E; subst; congruence|]. apply Vout, I.
    + exists m1, v1. split; [reflexivity|]. split; [exact H1|]. split; [exact Vin|]. split.
      * intros p' [= <-] I. apply mem_out in Mp. tauto.
      * intros x I _. apply Vout, I.
  - exists m1, v1. split; [reflexivity|]. split; [exact H1|]. split; [exact Vin|]. split; [discriminate|]. intros x I _. apply Vout, I.
Qed.
Lemma report_spec f comm sel a : (M < f)%nat -> In a all -> (forall x, In x (with_children f ch a) -> comm x = c) ->
  (forall x, In x (with_children f ch a) -> Forall (fun q => a_com q = c) (sel x)) ->
  exists totals cum, balance_report f conv comm T sel a = Ok (totals, cum) /\
    forall x, In x (with_children f ch a) ->
      bget x totals = Some (mkAmount (zsum (map a_int (sel x))) c) /\
      bget x cum = Some (mkAmount (zsum (map a_int (flat_map sel (with_children f ch x)))) c).
Proof.
  intros Hf Ha Hc Hs. rewrite (reach_stable all T HT f F a) in Hc, Hs by (auto; lia). unfold balance_report.
  rewrite (reach_stable all T HT f F a) by (auto; lia). set (K := with_children F ch a) in *.
  destruct (own_spec conv comm sel K []) as (t & E & Ht); [apply (reach_nodup all T HT)|intros x I; rewrite (Hc x I); auto|].
  rewrite E. cbn [bind]. set (v := fun x => zsum (map a_int (sel x))).
  assert (H0 : holds t K v).
  { intros x. rewrite Ht. destruct (mem x K) eqn:Mx; [|reflexivity]. apply mem_in in Mx. rewrite (Hc x Mx). reflexivity. }
  destruct (cum_sub f a t K v Ha ltac:(lia) H0 (fun x i => i)) as (m' & v' & E' & H' & V' & _). rewrite E'. cbn [bind].
  exists t, m'. split; [reflexivity|]. intros x I. assert (Mx := I). apply mem_in in Mx. split; [rewrite H0, Mx; reflexivity|].
  rewrite H', Mx, (V' x I). f_equal. f_equal. rewrite (reach_stable all T HT f F x) by (auto; try lia; apply (reach_in all T HT F a); auto).
  unfold sub. rewrite map_flat, zsum_flat. reflexivity.
Qed.
End Cum.
