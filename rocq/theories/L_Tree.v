(** The account tree: traversal of a forest given by a parent function, linking, parents of all names. *)
From Coq Require Import Permutation Sorted.
From Verif Require Import Base M_Parser M_Names M_Ledger S_Names L_Dec L_Sort L_Names L_Registers L_Resolve.
Local Open Scope nat_scope.

Lemma eqb_bytes_iff (a b : bytes) : eqb_bytes a b = true <-> a = b.
Proof.
  revert b. induction a as [|x a IH]; intros [|y b]; cbn; try (split; [discriminate|discriminate]); [tauto|].
  rewrite andb_true_iff, IH. unfold eqc. rewrite Ascii.eqb_eq. split; [intros [-> ->]; reflexivity|intros [= -> ->]; auto].
Qed.
Lemma eqb_bytes_no (a b : bytes) : eqb_bytes a b = false <-> a <> b.
Proof. rewrite <- eqb_bytes_iff. destruct (eqb_bytes a b); split; congruence. Qed.
Lemma mem_in a l : mem a l = true <-> In a l.
Proof.
  unfold mem. rewrite existsb_exists. split; [intros (x & H & E)|intros H; exists a; rewrite eqb_bytes_iff; auto].
  apply eqb_bytes_iff in E. subst. exact H.
Qed.
Lemma mem_out a l : mem a l = false <-> ~ In a l.
Proof. rewrite <- mem_in. destruct (mem a l); split; congruence. Qed.
Lemma NoDup_app_iff {A} (l l' : list A) : NoDup (l ++ l') <-> NoDup l /\ NoDup l' /\ forall x, In x l -> ~ In x l'.
Proof.
  induction l as [|a l IH]; cbn [app].
  - split; [intros H; split; [constructor|]; split; [exact H|intros ? []]|tauto].
  - split.
    + intros H. inversion H as [|? ? H1 H2]; subst. apply IH in H2 as (K1 & K2 & K3). rewrite in_app_iff in H1.
      split; [constructor; tauto|]. split; [exact K2|]. intros x [->|I]; [tauto|auto].
    + intros (H1 & H2 & H3). inversion H1 as [|? ? K1 K2]; subst. constructor.
      * rewrite in_app_iff. intros [|]; [auto|eapply H3; [left; reflexivity|auto]].
      * apply IH. split; [exact K2|]. split; [exact H2|]. intros x I. apply H3. right. exact I.
Qed.
Lemma flat_map_nodup {A C} (f : A -> list C) (l : list A) : NoDup l -> (forall a, In a l -> NoDup (f a)) ->
  (forall a b x, In a l -> In b l -> In x (f a) -> In x (f b) -> a = b) -> NoDup (flat_map f l).
Proof.
  induction l as [|a l IH]; intros N H D; cbn; [constructor|]. inversion N as [|? ? N1 N2]; subst. apply NoDup_app_iff.
  split; [apply H; left; auto|]. split; [apply IH; auto; [intros; apply H; right; auto|intros ? ? x ? ? ? ?; eapply (D _ _ x); eauto; right; auto]|].
  intros x I1 I2. apply in_flat_map in I2 as (b & I2 & I3). apply N1.
  rewrite (D a b x); auto; [left; auto|right; auto].
Qed.

Section Forest.
Context (m : bytes -> nat) (ch : bytes -> list bytes) (M : nat) (par : bytes -> bytes).
Hypothesis Hm : forall a c, In c (ch a) -> m a < m c <= M.
Hypothesis Hp : forall a c, In c (ch a) -> par c = a.
Hypothesis Hn : forall a, NoDup (ch a).

Lemma wc_ge f : forall a x, In x (with_children f ch a) -> x = a \/ m a < m x.
Proof.
  induction f as [|f IH]; intros a x; cbn [with_children]; [intros []|]. intros [->|H]; [auto|].
  apply in_flat_map in H as (c & H1 & H2). right. destruct (IH _ _ H2) as [->|K]; [apply Hm, H1|]. pose proof (Hm _ _ H1). lia.
Qed.
Lemma wc_step f : forall a x, In x (with_children f ch a) -> x = a \/ exists g y, In y (with_children g ch a) /\ In x (ch y).
Proof.
  induction f as [|f IH]; intros a x; cbn [with_children]; [intros []|]. intros [->|H]; [auto|]. right.
  apply in_flat_map in H as (c & H1 & H2). destruct (IH _ _ H2) as [->|(g & y & K1 & K2)].
  - exists 1, a. split; [left; auto|exact H1].
  - exists (S g), y. split; [|exact K2]. cbn [with_children]. right. apply in_flat_map. eauto.
Qed.
Lemma wc_disjoint a c1 c2 : In c1 (ch a) -> In c2 (ch a) -> forall n x f g, m x <= n ->
  In x (with_children f ch c1) -> In x (with_children g ch c2) -> c1 = c2.
Proof.
  intros H1 H2. induction n as [|n IH]; intros x f g Hx I1 I2.
  - assert (m x > 0); [|lia]. pose proof (Hm _ _ H1). destruct (wc_ge _ _ _ I1) as [->|]; lia.
  - destruct (wc_step _ _ _ I1) as [E1|(g1 & y1 & K1 & K2)], (wc_step _ _ _ I2) as [E2|(g2 & y2 & K3 & K4)].
    + congruence.
    + subst x. pose proof (Hp _ _ H1). pose proof (Hp _ _ K4). assert (y2 = a) as -> by congruence.
      pose proof (Hm _ _ H2). destruct (wc_ge _ _ _ K3) as [->|]; lia.
    + subst x. pose proof (Hp _ _ H2). pose proof (Hp _ _ K2). assert (y1 = a) as -> by congruence.
      pose proof (Hm _ _ H1). destruct (wc_ge _ _ _ K1) as [->|]; lia.
    + assert (y1 = y2) as -> by (rewrite <- (Hp _ _ K2), <- (Hp _ _ K4); reflexivity).
      eapply (IH y2); eauto. pose proof (Hm _ _ K2). lia.
Qed.
Lemma wc_nodup f : forall a, NoDup (with_children f ch a).
Proof.
  induction f as [|f IH]; intros a; cbn [with_children]; constructor.
  - intros H. apply in_flat_map in H as (c & H1 & H2). pose proof (Hm _ _ H1). destruct (wc_ge _ _ _ H2) as [->|]; lia.
  - apply flat_map_nodup; auto. intros c1 c2 x H1 H2 I1 I2. eapply wc_disjoint; eauto.
Qed.
Lemma flat_map_ext_in {A C} (f g : A -> list C) (l : list A) : (forall a, In a l -> f a = g a) -> flat_map f l = flat_map g l.
Proof. induction l as [|a l IH]; intros H; cbn; [reflexivity|]. rewrite H by (left; auto). f_equal. apply IH. intros; apply H; right; auto. Qed.
Lemma wc_stable f : forall g a, m a <= M -> M - m a < f -> M - m a < g -> with_children f ch a = with_children g ch a.
Proof.
  induction f as [|f IH]; intros [|g] a Ha Hf Hg; try lia. cbn [with_children]. f_equal. apply flat_map_ext_in.
  intros c Hc. pose proof (Hm _ _ Hc). apply IH; lia.
Qed.
Lemma fwc_stable f : forall g a, m a <= M -> M - m a < f -> M - m a < g -> first_with_children f ch a = first_with_children g ch a.
Proof.
  induction f as [|f IH]; intros [|g] a Ha Hf Hg; try lia. cbn [first_with_children]. f_equal. apply flat_map_ext_in.
  intros c Hc. pose proof (Hm _ _ Hc). apply IH; lia.
Qed.
Lemma wc_next f : forall a x c, In x (with_children f ch a) -> In c (ch x) -> In c (with_children (S f) ch a).
Proof.
  induction f as [|f IH]; intros a x c; [intros []|]. cbn [with_children]. intros [->|H] Hc.
  - right. apply in_flat_map. exists c. split; [exact Hc|]. left. reflexivity.
  - apply in_flat_map in H as (d & H1 & H2). right. apply in_flat_map. exists d. split; [exact H1|]. eapply IH; eauto.
Qed.
Lemma wc_perm_fwc f : forall a, Permutation (with_children f ch a) (first_with_children f ch a).
Proof.
  induction f as [|f IH]; intros a; cbn [with_children first_with_children]; [constructor|].
  rewrite <- Permutation_cons_append. apply perm_skip. clear Hm Hp Hn. induction (ch a) as [|c l IHl]; cbn; [constructor|]. apply Permutation_app; auto.
Qed.
End Forest.

(** ** parents of names *)
Definition par (c : bytes) : bytes := match parent_name c with [] => root | p => p end.
Definition msr (c : bytes) : nat := if eqb_bytes c root then 0 else S (List.length c).

Lemma split_last_cases (n : bytes) : let segs := split_on ":"%char n in
  (~ In ":"%char n /\ segs = [n]) \/ exists p leaf, n = p ++ B ":" ++ leaf /\ ~ In ":"%char leaf /\ segs = split_on ":"%char p ++ [leaf].
Proof.
  intros segs. pose proof (split_on_nonnil ":"%char n) as N. pose proof (join_split ":"%char n) as J. pose proof (split_no_sep ":"%char n) as F.
  fold segs in N, J, F. destruct (exists_last N) as (l & leaf & E). rewrite E in J, F. apply Forall_app in F as [F1 F2].
  inversion F2 as [|? ? F3 _]; subst. destruct l as [|s l].
  - left. cbn in E. split; [exact F3|]. exact E.
  - right. exists (join (B ":") (s :: l)), leaf. change (B ":") with [":"%char]. split.
    + clear. revert s. induction l as [|t l IH]; intros s; [reflexivity|].
      change (join [":"%char] ((s :: t :: l) ++ [leaf])) with (s ++ [":"%char] ++ join [":"%char] ((t :: l) ++ [leaf])).
      rewrite IH. change (join [":"%char] (s :: t :: l)) with (s ++ [":"%char] ++ join [":"%char] (t :: l)).
      rewrite <- !app_assoc. reflexivity.
    + split; [exact F3|]. rewrite split_join by (auto; discriminate). exact E.
Qed.
Lemma parent_cases (n : bytes) : (~ In ":"%char n /\ parent_name n = []) \/
  exists leaf, n = parent_name n ++ B ":" ++ leaf /\ ~ In ":"%char leaf.
Proof.
  unfold parent_name, parent_and_name. destruct (split_last_cases n) as [[H1 H2]|(p & leaf & H1 & H2 & H3)]; cbn [fst].
  - left. rewrite H2. auto.
  - right. exists leaf. rewrite H3, removelast_last. change (B ":") with [":"%char] in *. rewrite join_split. auto.
Qed.
Lemma parent_shorter n : parent_name n <> [] -> List.length (parent_name n) < List.length n.
Proof.
  intros H. destruct (parent_cases n) as [[_ E]|(leaf & E & _)]; [congruence|]. apply (f_equal (@List.length _)) in E.
  rewrite !app_length in E. cbn [List.length B list_ascii_of_string] in E. revert E. generalize (List.length (parent_name n)) (List.length leaf) (List.length n). lia.
Qed.
(** the proper prefixes before a colon *)
Lemma below_parent a n : below a n <-> exists leaf, n = parent_name n ++ B ":" ++ leaf /\ ~ In ":"%char leaf /\ (a = parent_name n \/ below a (parent_name n)).
Proof.
  split.
  - intros (r & E). destruct (parent_cases n) as [[N _]|(leaf & E1 & N)].
    + exfalso. apply N. rewrite E. apply in_or_app. right. left. reflexivity.
    + exists leaf. split; [exact E1|]. split; [exact N|]. generalize dependent (parent_name n). intros p E1. rewrite E in E1. clear E.
      revert p E1. induction a as [|x a IH]; intros [|y p] E1; cbn in E1.
      * left. reflexivity.
      * injection E1 as <- E1. right. exists p. reflexivity.
      * injection E1 as -> E1. exfalso. apply N. rewrite <- E1. apply in_or_app. right. left. reflexivity.
      * injection E1 as <- E1. destruct (IH _ E1) as [->|(r' & ->)]; [left; reflexivity|right; exists r'; reflexivity].
  - intros (leaf & E & _ & [->|(r & K)]); [exists leaf; exact E|]. exists (r ++ B ":" ++ leaf). rewrite E, K. rewrite <- !app_assoc. reflexivity.
Qed.
Lemma msr_par c : c <> root -> msr (par c) < msr c.
Proof.
  intros H. unfold msr at 2. apply eqb_bytes_no in H. rewrite H. unfold par. destruct (parent_name c) eqn:E; [cbn; lia|].
  unfold msr. destruct (eqb_bytes (a :: b) root); [lia|]. pose proof (parent_shorter c). rewrite E in H0. specialize (H0 ltac:(discriminate)). unfold bytes in *. lia.
Qed.

(** ** linking *)
Definition kid (a c : bytes) : bool := negb (eqb_bytes c root) && eqb_bytes (par c) a.
Definition linked (T : tree) (done : list bytes) : Prop :=
  (forall a, t_children T a = filter (kid a) done) /\
  (forall c, t_parent T c = if mem c done && negb (eqb_bytes c root) then Some (par c) else None).
Lemma kid_iff a c : kid a c = true <-> c <> root /\ par c = a.
Proof. unfold kid. rewrite andb_true_iff, negb_true_iff, eqb_bytes_no, eqb_bytes_iff. tauto. Qed.
Lemma updb_same {A} (f : bytes -> A) a v : updb f a v a = v.
Proof. unfold updb. rewrite eqb_bytes_refl. reflexivity. Qed.
Lemma updb_other {A} (f : bytes -> A) a b v : a <> b -> updb f a v b = f b.
Proof. intros H. unfold updb. destruct (eqb_bytes b a) eqn:E; [apply eqb_bytes_iff in E; congruence|reflexivity]. Qed.

Lemma wc_in_done T done : linked T done -> forall f a x, In x (with_children f (t_children T) a) -> x = a \/ (In x done /\ msr a < msr x).
Proof.
  intros [H _]. induction f as [|f IH]; intros a x; cbn [with_children]; [intros []|]. intros [->|I]; [auto|].
  apply in_flat_map in I as (c & H1 & H2). rewrite H in H1. apply filter_In in H1 as (H1 & K). apply kid_iff in K as (K1 & K2).
  pose proof (msr_par c K1) as K3. rewrite K2 in K3. right. destruct (IH _ _ H2) as [->|(K4 & K5)]; [auto|]. split; [exact K4|lia].
Qed.
Lemma adopt_linked fuel T done c : linked T done -> c <> root -> ~ In c done -> exists T', adopt fuel T (par c) c = Ok T' /\ linked T' (done ++ [c]).
Proof.
  intros H Hc N. pose proof (msr_par c Hc) as K. unfold adopt.
  destruct (mem (par c) (with_children fuel (t_children T) c)) eqn:E1.
  { apply mem_in in E1. destruct (wc_in_done _ _ H _ _ _ E1) as [E|(_ & E)]; [rewrite E in K|]; lia. }
  destruct (mem c (with_children fuel (t_children T) (par c))) eqn:E2.
  { apply mem_in in E2. destruct (wc_in_done _ _ H _ _ _ E2) as [E|(E & _)]; [rewrite <- E in K; lia|tauto]. }
  eexists. split; [reflexivity|]. destruct H as [H1 H2]. split.
  - intros a. cbn [t_children]. rewrite filter_app. cbn [filter]. destruct (eqb_bytes a (par c)) eqn:E.
    + apply eqb_bytes_iff in E. subst a. rewrite updb_same, H1. assert (kid (par c) c = true) as -> by (apply kid_iff; auto). reflexivity.
    + apply eqb_bytes_no in E. rewrite updb_other by congruence. rewrite H1.
      destruct (kid a c) eqn:Ek; [apply kid_iff in Ek; destruct Ek; congruence|]. rewrite app_nil_r. reflexivity.
  - intros d. cbn [t_parent]. destruct (eqb_bytes d c) eqn:E.
    + apply eqb_bytes_iff in E. subst d. rewrite updb_same. assert (mem c (done ++ [c]) = true) as -> by (apply mem_in, in_or_app; right; left; auto).
      apply eqb_bytes_no in Hc. rewrite Hc. reflexivity.
    + apply eqb_bytes_no in E. rewrite updb_other by congruence. rewrite H2. replace (mem d (done ++ [c])) with (mem d done); [reflexivity|].
      destruct (mem d done) eqn:M; symmetry; [apply mem_in, in_or_app; left; apply mem_in, M|].
      apply mem_out. apply mem_out in M. rewrite in_app_iff. intros [|[|[]]]; auto.
Qed.
Lemma link_linked fuel names : forall order T done, linked T done -> NoDup (done ++ order) ->
  (forall a, In a order -> parent_name a <> [] -> In (parent_name a) names) ->
  exists T', link fuel T names order = Ok T' /\ linked T' (done ++ order).
Proof.
  induction order as [|a order IH]; intros T done H N P; cbn [link].
  - exists T. rewrite app_nil_r. auto.
  - assert (Na : ~ In a done). { intros I. apply NoDup_remove_2 in N. apply N, in_or_app. auto. }
    replace (done ++ a :: order) with ((done ++ [a]) ++ order) in * by (rewrite <- app_assoc; reflexivity).
    destruct (eqb_bytes a root) eqn:E.
    + apply IH; auto; [|intros; apply P; auto; right; auto]. apply eqb_bytes_iff in E. subst a. destruct H as [H1 H2]. split.
      * intros a. rewrite filter_app, H1. cbn [filter]. destruct (kid a root) eqn:K; [apply kid_iff in K; tauto|]. rewrite app_nil_r. reflexivity.
      * intros c. rewrite H2. destruct (eqb_bytes c root) eqn:E; [rewrite !andb_false_r; reflexivity|]. rewrite !andb_true_r.
        replace (mem c (done ++ [root])) with (mem c done); [reflexivity|]. destruct (mem c done) eqn:M; symmetry.
        -- apply mem_in, in_or_app. left. apply mem_in, M.
        -- apply mem_out. apply mem_out in M. rewrite in_app_iff. apply eqb_bytes_no in E. intros [|[|[]]]; auto.
    + apply eqb_bytes_no in E. destruct (adopt_linked fuel T done a H E Na) as (T1 & E1 & L1).
      specialize (IH T1 (done ++ [a]) L1 N (fun b I => P b (or_intror I))).
      unfold par in E1. destruct (parent_name a) as [|x p] eqn:Ep.
      * rewrite E1. cbn [bind]. exact IH.
      * assert (mem (x :: p) names = true) as -> by (apply mem_in; rewrite <- Ep; apply P; [left; auto|rewrite Ep; discriminate]).
        rewrite E1. cbn [bind]. exact IH.
Qed.

(** ** creating missing parents *)
Lemma ensure_in n names x : In x (ensure n names) <-> x = n \/ In x names.
Proof.
  unfold ensure. destruct (mem n names) eqn:E; [apply mem_in in E; split; [auto|intros [->|]; auto]|].
  rewrite in_app_iff. cbn. split; [intros [|[|[]]]; auto|intros [|]; auto].
Qed.
Lemma ensure_nodup n names : NoDup names -> NoDup (ensure n names).
Proof.
  intros H. unfold ensure. destruct (mem n names) eqn:E; [exact H|]. apply mem_out in E. apply NoDup_app_iff. split; [exact H|].
  split; [constructor; [intros []|constructor]|]. intros x I [->|[]]. auto.
Qed.
Lemma add_parents_in : forall f n names x, List.length n <= f ->
  (In x (add_parents f n names) <-> In x names \/ (x <> [] /\ below x n)).
Proof.
  induction f as [|f IH]; intros n names x Hf; cbn [add_parents].
  - split; [auto|]. intros [|(N & r & E)]; [auto|]. apply (f_equal (@List.length _)) in E. rewrite !app_length in E. cbn in E. unfold bytes in *. lia.
  - destruct (parent_name n) as [|a p] eqn:Ep.
    + split; [auto|]. intros [|(N & K)]; [auto|]. apply below_parent in K as (leaf & _ & _ & [K|(r & K)]); rewrite Ep in K; [congruence|].
      destruct x; discriminate.
    + rewrite IH, ensure_in by (pose proof (parent_shorter n); rewrite Ep in *; specialize (H ltac:(discriminate)); unfold bytes in *; lia).
      split.
      * intros [[->|I]|(N & K)]; auto; right; (split; [auto; discriminate|]); apply below_parent; rewrite Ep;
          destruct (parent_cases n) as [[_ C]|(leaf & C1 & C2)]; try congruence; rewrite Ep in C1; exists leaf; auto.
      * intros [I|(N & K)]; auto. apply below_parent in K as (leaf & _ & _ & K). rewrite Ep in K. destruct K as [->|K]; auto.
Qed.
Lemma add_parents_nodup : forall f n names, NoDup names -> NoDup (add_parents f n names).
Proof. induction f as [|f IH]; intros n names H; cbn [add_parents]; [exact H|]. destruct (parent_name n); [exact H|]. apply IH, ensure_nodup, H. Qed.
Lemma with_parents_in : forall known names x, In x (with_parents known names) <-> In x names \/ (x <> [] /\ exists k, In k known /\ below x k).
Proof.
  unfold with_parents. induction known as [|k known IH]; intros names x; cbn [fold_left].
  - split; [auto|]. intros [|(_ & k & [] & _)]; auto.
  - rewrite IH, add_parents_in by lia. split.
    + intros [[I|(N & K)]|(N & k' & I & K)]; auto; right; split; auto; [exists k; split; [left; auto|auto]|exists k'; split; [right; auto|auto]].
    + intros [I|(N & k' & [->|I] & K)]; auto; right; eauto.
Qed.
Lemma with_parents_nodup : forall known names, NoDup names -> NoDup (with_parents known names).
Proof. unfold with_parents. induction known as [|k known IH]; intros names H; cbn [fold_left]; [exact H|]. apply IH, add_parents_nodup, H. Qed.

(** ** sorting the children *)
Lemma child_less_weak : weak_order child_less.
Proof.
  destruct less_bytes_weak as [H1 H2]. split.
  - intros x y. apply H1.
  - intros x y z. apply H2.
Qed.
Lemma sort_children_spec : forall order T, t_parent (sort_children T order) = t_parent T /\
  forall a, Permutation (t_children T a) (t_children (sort_children T order) a) /\
    ((In a order -> sorted_by child_less (t_children (sort_children T order) a)) /\
     (sorted_by child_less (t_children T a) -> sorted_by child_less (t_children (sort_children T order) a))).
Proof.
  unfold sort_children. induction order as [|b order IH]; intros T; cbn [fold_left].
  - split; [reflexivity|]. intros a. split; [reflexivity|]. split; [intros []|auto].
  - set (T1 := mkTree _ _). destruct (IH T1) as [K1 K2]. split; [exact K1|]. intros a. destruct (K2 a) as (P1 & S1 & S2).
    assert (C : t_children T1 a = if eqb_bytes a b then stable_sort child_less (t_children T b) else t_children T a) by reflexivity.
    destruct (eqb_bytes a b) eqn:E.
    + apply eqb_bytes_iff in E. subst b. rewrite C in P1, S2. split; [rewrite <- P1; apply stable_sort_perm|].
      assert (sorted_by child_less (stable_sort child_less (t_children T a))) by apply stable_sort_sorted, child_less_weak. auto.
    + rewrite C in *. split; [exact P1|]. split; [|exact S2]. intros [->|I]; [|auto]. rewrite eqb_bytes_refl in E. discriminate.
Qed.
