(** Resolved account trees, cumulative balances. *)
From Coq Require Import Permutation Sorted.
From Verif Require Import Base M_Amount M_Parser M_Names M_Ledger S_Names S_Amount S_Books L_Dec L_Sort L_Names L_Amount L_Registers L_Resolve L_Resolve2 L_Tree.
Local Open Scope nat_scope.

(** what is known of a resolved tree *)
Definition tree_of (all : list bytes) (T : tree) : Prop :=
  NoDup all /\ In root all /\ t_parent T root = None /\
  (forall c, In c all -> c <> root -> t_parent T c = Some (par c) /\ In (par c) all) /\
  (forall c, ~ In c all -> t_parent T c = None) /\
  (forall a, NoDup (t_children T a)) /\
  (forall a c, In c (t_children T a) <-> In c all /\ c <> root /\ par c = a).
Definition bound (all : list bytes) : nat := S (list_max (map (@List.length ascii) all)).
Lemma msr_bound all c : In c all -> msr c <= bound all.
Proof.
  intros H. unfold msr, bound. destruct (eqb_bytes c root); [lia|].
  pose proof (proj1 (list_max_le (map (@List.length ascii) all) _) (le_n _)) as K. rewrite Forall_forall in K.
  specialize (K (List.length c) (in_map _ _ _ H)). lia.
Qed.
Lemma base_in names x : In x (base_accounts names) <-> In x names \/ x = root \/ x = unbalanced.
Proof. unfold base_accounts. rewrite !ensure_in. tauto. Qed.
Lemma no_colon_below n x : ~ In ":"%char n -> ~ below x n.
Proof. intros H (r & ->). apply H. apply in_or_app. right. left. reflexivity. Qed.
Lemma all_needed names known x : Permutation known (base_accounts names) ->
  (In x (with_parents known (base_accounts names)) <-> needed names x).
Proof.
  intros P. rewrite with_parents_in, base_in. unfold needed. split.
  - intros [[|[|]]|(N & k & K1 & K2)]; auto. apply (Permutation_in _ P), base_in in K1 as [K1|[->| ->]]; [eauto 10| |];
      exfalso; revert K2; apply no_colon_below; cbn; intuition discriminate.
  - intros [|[|[|(N & k & K1 & K2)]]]; auto. right. split; [exact N|]. exists k. split; [|exact K2].
    apply (Permutation_in _ (Permutation_sym P)), base_in. auto.
Qed.
Lemma all_closed names known a : Permutation known (base_accounts names) -> let all := with_parents known (base_accounts names) in
  In a all -> parent_name a <> [] -> In (parent_name a) all.
Proof.
  intros P all Ha Hn. apply with_parents_in. right. split; [exact Hn|]. destruct (parent_cases a) as [[_ E]|(leaf & E & _)]; [congruence|].
  apply with_parents_in in Ha as [I|(N & k & I & r & K)].
  - exists a. split; [apply (Permutation_in _ (Permutation_sym P)), I|]. exists leaf. exact E.
  - exists k. split; [exact I|]. exists (leaf ++ B ":" ++ r). rewrite K. rewrite E at 1. rewrite <- !app_assoc. reflexivity.
Qed.
Lemma resolve_tree fuel names known o1 o2 : NoDup names -> Permutation known (base_accounts names) ->
  let all := with_parents known (base_accounts names) in Permutation o1 all -> Permutation o2 all ->
  exists T, resolve_accounts fuel names known o1 o2 = Ok (T, all) /\ tree_of all T /\
    forall a, In a all -> sorted_by child_less (t_children T a).
Proof.
  intros N P all P1 P2.
  assert (Na : NoDup all) by (apply with_parents_nodup; unfold base_accounts; apply ensure_nodup, ensure_nodup, N).
  assert (Ra : In root all) by (apply with_parents_in; left; apply base_in; auto).
  assert (N1 : NoDup o1) by (eapply Permutation_NoDup; [apply Permutation_sym, P1|exact Na]).
  destruct (link_linked fuel all o1 (mkTree (fun _ => None) (fun _ => [])) []) as (T0 & E & L1 & L2); [split; reflexivity|exact N1| |].
  { intros a Ha. apply all_closed; auto. apply (Permutation_in _ P1 Ha). }
  destruct (sort_children_spec o2 T0) as [S1 S2]. exists (sort_children T0 o2). unfold resolve_accounts. fold all. rewrite E. cbn [bind].
  split; [reflexivity|]. split.
  - assert (In1 : forall c, mem c ([] ++ o1) = mem c all).
    { intros c. cbn [app]. destruct (mem c all) eqn:M; [apply mem_in; apply mem_in in M; apply (Permutation_in _ (Permutation_sym P1) M)|].
      apply mem_out; apply mem_out in M. intros I. apply M, (Permutation_in _ P1 I). }
    split; [exact Na|]. split; [exact Ra|]. rewrite S1. split; [rewrite L2, andb_false_r; reflexivity|].
    split; [|split; [|split]].
    + intros c Hc Hr. rewrite L2, In1. apply mem_in in Hc as Hc'. rewrite Hc'. apply eqb_bytes_no in Hr. rewrite Hr. split; [reflexivity|].
      unfold par. destruct (parent_name c) eqn:Ep; [exact Ra|]. rewrite <- Ep. apply all_closed; auto. rewrite Ep. discriminate.
    + intros c Hc. rewrite L2, In1. apply mem_out in Hc. rewrite Hc. reflexivity.
    + intros a. destruct (S2 a) as (Pa & _). eapply Permutation_NoDup; [exact Pa|]. rewrite L1. cbn [app]. apply NoDup_filter, N1.
    + intros a c. destruct (S2 a) as (Pa & _). split.
      * intros I. apply (Permutation_in _ (Permutation_sym Pa)) in I. rewrite L1 in I. apply filter_In in I as (I & K). apply kid_iff in K.
        split; [apply (Permutation_in _ P1 I)|exact K].
      * intros (I & K). apply (Permutation_in _ Pa). rewrite L1. apply filter_In. split; [apply (Permutation_in _ (Permutation_sym P1) I)|].
        apply kid_iff, K.
  - intros a Ha. destruct (S2 a) as (_ & K & _). apply K, (Permutation_in _ (Permutation_sym P2) Ha).
Qed.

Section Tree.
Context (all : list bytes) (T : tree).
Hypothesis HT : tree_of all T.
Let M := bound all.
Let ch := t_children T.
Lemma t_m a c : In c (ch a) -> msr a < msr c <= M.
Proof. intros I. apply HT in I as (I & N & <-). split; [apply msr_par, N|apply msr_bound, I]. Qed.
Lemma t_p a c : In c (ch a) -> par c = a. Proof. intros I. apply HT in I. tauto. Qed.
Lemma t_n a : NoDup (ch a). Proof. apply HT. Qed.
Lemma reach_nodup f a : NoDup (with_children f ch a).
Proof. eapply wc_nodup; [exact t_m|exact t_p|exact t_n]. Qed.
Lemma reach_in f : forall a x, In a all -> In x (with_children f ch a) -> In x all.
Proof.
  induction f as [|f IH]; intros a x Ha; cbn [with_children]; [intros []|]. intros [->|I]; [exact Ha|].
  apply in_flat_map in I as (c & I1 & I2). apply IH in I2; auto. apply HT in I1. tauto.
Qed.
Lemma wc_mono f g a x : f <= g -> In x (with_children f ch a) -> In x (with_children g ch a).
Proof.
  intros H. revert g a x H. induction f as [|f IH]; intros [|g] a x H; cbn [with_children]; try lia; try (intros []; fail).
  intros [->|H0].
  - left. reflexivity.
  - right. apply in_flat_map in H0 as (c & I1 & I2). apply in_flat_map. exists c. split; [exact I1|]. apply IH; [lia|exact I2].
Qed.
Lemma reach_all : forall n x, msr x <= n -> In x all -> In x (with_children (S n) ch root).
Proof.
  destruct HT as (_ & _ & _ & H4 & _ & _ & H7).
  induction n as [|n IH]; intros x Hx I; destruct (eqb_bytes x root) eqn:E.
  - apply eqb_bytes_iff in E. subst. left. reflexivity.
  - apply eqb_bytes_no in E. pose proof (msr_par x E). lia.
  - apply eqb_bytes_iff in E. subst. left. reflexivity.
  - apply eqb_bytes_no in E. pose proof (msr_par x E). eapply wc_next with (x := par x); [apply IH; [lia|apply H4; auto]|]. apply H7. auto.
Qed.
Lemma reach_perm f : M < f -> Permutation (with_children f ch root) all.
Proof.
  intros H. apply NoDup_Permutation; [apply reach_nodup|apply HT|]. intros x. split; [apply reach_in, HT|].
  intros I. apply (wc_mono (S (msr x))); [pose proof (msr_bound _ _ I); unfold M in *; lia|]. apply reach_all; [lia|exact I].
Qed.
Lemma reach_stable f g a : In a all -> M < f -> M < g -> with_children f ch a = with_children g ch a.
Proof. intros Ha Hf Hg. eapply (wc_stable msr ch M par); [exact t_m|exact t_p|exact t_n| | |]; pose proof (msr_bound _ _ Ha); unfold M in *; lia. Qed.
Lemma freach_stable f g a : In a all -> M < f -> M < g -> first_with_children f ch a = first_with_children g ch a.
Proof. intros Ha Hf Hg. eapply (fwc_stable msr ch M par); [exact t_m|exact t_p|exact t_n| | |]; pose proof (msr_bound _ _ Ha); unfold M in *; lia. Qed.
Lemma parent_some c q : t_parent T c = Some q -> In c (ch q).
Proof.
  destruct HT as (H1 & H2 & H3 & H4 & H5 & H6 & H7). intros E. destruct (in_dec (list_eq_dec Ascii.ascii_dec) c all) as [I|I]; [|rewrite H5 in E by exact I; discriminate].
  destruct (eqb_bytes c root) eqn:R; [apply eqb_bytes_iff in R; subst; congruence|]. apply eqb_bytes_no in R.
  destruct (H4 c I R) as [E' _]. apply H7. split; [exact I|]. split; [exact R|]. congruence.
Qed.
Lemma child_parent c q : In c (ch q) -> t_parent T c = Some q.
Proof.
  destruct HT as (H1 & H2 & H3 & H4 & H5 & H6 & H7). intros I. apply H7 in I as (I & R & <-). apply H4; auto.
Qed.
Lemma reach_under f : M < f -> forall a x, In a all -> (In x (with_children f ch a) <-> under (t_parent T) a x).
Proof.
  intros Hf a x Ha. split.
  - clear Ha. revert a x. induction f as [|g IH]; [lia|]. clear Hf.
    assert (G : forall g a x, In x (with_children g ch a) -> under (t_parent T) a x).
    { clear IH g. induction g as [|g IH]; intros a x; cbn [with_children]; [intros []|]. intros [->|I]; [constructor|].
      apply in_flat_map in I as (c & I1 & I2). apply IH in I2. clear IH. induction I2 as [|d q E U IHU].
      - econstructor; [apply child_parent, I1|constructor].
      - econstructor; [exact E|exact IHU]. }
    apply G.
  - induction 1 as [|c q E U IH].
    + destruct f; [lia|]. left. reflexivity.
    + apply parent_some in E. rewrite (reach_stable f (S f)) by (auto; lia). eapply wc_next; [exact IH|exact E].
Qed.
(** IsClosed *)
Lemma closed_under closed : forall f a, In a all -> msr a < f ->
  (is_closed f T closed a = true <-> exists p, closed p = true /\ under (t_parent T) p a).
Proof.
  destruct HT as (H1 & H2 & H3 & H4 & H5 & H6 & H7).
  induction f as [|f IH]; intros a Ha Hf; [lia|]. cbn [is_closed]. rewrite orb_true_iff. destruct (t_parent T a) as [q|] eqn:E.
  - assert (I := parent_some _ _ E). assert (R := I). apply H7 in R as (_ & R & Eq).
    assert (Hq : In q all) by (rewrite <- Eq; apply H4; auto). pose proof (t_m _ _ I). rewrite IH by (auto; lia). split.
    + intros [(p & C & U)|C]; [exists p; split; [exact C|]; econstructor; eauto|exists a; split; [exact C|constructor]].
    + intros (p & C & U). inversion U as [|c q' E' U']; subst; [auto|]. left. exists p. split; [exact C|]. congruence.
  - split; [intros [|C]; [discriminate|]; exists a; split; [exact C|constructor]|]. intros (p & C & U). right.
    inversion U as [|c q' E' U']; subst; [exact C|congruence].
Qed.
End Tree.
