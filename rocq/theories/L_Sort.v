(** Stable sorting and byte-string order. *)
From Coq Require Import Permutation Sorted.
From Verif Require Import Base L_Dec M_Names.

Section Sort.
Context {A : Type} (less : A -> A -> bool).
Lemma insert_perm x l : Permutation (x :: l) (insert_by less x l).
Proof.
  induction l as [|y l IH]; cbn; [reflexivity|]. destruct (less y x); [|reflexivity].
  rewrite perm_swap. apply perm_skip, IH.
Qed.
Lemma stable_sort_perm l : Permutation l (stable_sort less l).
Proof. induction l as [|x l IH]; cbn; [constructor|]. rewrite <- insert_perm. apply perm_skip, IH. Qed.

Definition weak_order : Prop :=
  (forall a b, less a b = true -> less b a = false) /\
  (forall a b c, less a b = false -> less b c = false -> less a c = false).
Definition sorted_by (l : list A) : Prop := StronglySorted (fun a b => less b a = false) l.

Lemma insert_sorted x l : weak_order -> sorted_by l -> sorted_by (insert_by less x l).
Proof.
  intros [Has Hnt] H. induction H as [|y l Hs IH Hf]; cbn; [repeat constructor|].
  destruct (less y x) eqn:E.
  - constructor; [exact IH|]. apply Forall_forall. intros z Hz. apply (Permutation_in _ (Permutation_sym (insert_perm x l))) in Hz.
    destruct Hz as [<-|Hz]; [apply Has, E|]. rewrite Forall_forall in Hf. auto.
  - constructor; [constructor; assumption|]. constructor; [exact E|]. apply Forall_forall. intros z Hz.
    rewrite Forall_forall in Hf. apply Hnt with y; auto.
Qed.
Lemma stable_sort_sorted l : weak_order -> sorted_by (stable_sort less l).
Proof. intros H. induction l; cbn; [constructor|]. apply insert_sorted; assumption. Qed.

Lemma insert_filter (P : A -> bool) x l :
  (forall y, In y l -> P y = true -> P x = true -> less y x = false) ->
  filter P (insert_by less x l) = filter P (x :: l).
Proof.
  induction l as [|y l IH]; intros H; cbn [insert_by]; [reflexivity|]. destruct (less y x) eqn:E; [|reflexivity].
  change (y :: insert_by less x l) with ([y] ++ insert_by less x l). rewrite filter_app, IH by (intros; apply H; cbn; auto).
  cbn [filter app]. destruct (P y) eqn:Ey, (P x) eqn:Ex; try reflexivity.
  rewrite H in E; cbn; auto. discriminate.
Qed.
(** elements that are not ordered among themselves stay in their order *)
Lemma stable_sort_stable (P : A -> bool) l :
  (forall x y, In x l -> In y l -> P x = true -> P y = true -> less x y = false) ->
  filter P (stable_sort less l) = filter P l.
Proof.
  induction l as [|x l IH]; intros H; cbn [stable_sort]; [reflexivity|].
  rewrite insert_filter.
  - cbn [filter]. rewrite IH; [reflexivity|]. intros; apply H; cbn; auto.
  - intros y Hy Py Px. apply H; cbn; auto. right. apply (Permutation_in _ (Permutation_sym (stable_sort_perm l))), Hy.
Qed.
Lemma stable_sort_id l : sorted_by l -> stable_sort less l = l.
Proof.
  induction 1 as [|x l Hs IH Hf]; cbn; [reflexivity|]. rewrite IH. destruct l as [|y l]; [reflexivity|]. cbn.
  inversion Hf; subst. rewrite H1. reflexivity.
Qed.
End Sort.

(** a sorted list without equivalent elements is determined by its elements *)
Lemma sorted_perm_unique {A} (less : A -> A -> bool) l l' :
  (forall a b, In a l -> In b l -> less a b = false -> less b a = false -> a = b) ->
  sorted_by less l -> sorted_by less l' -> Permutation l l' -> l = l'.
Proof.
  intros Hanti H. revert l'. induction H as [|x l Hs IH Hf]; intros l' H' P.
  - apply Permutation_nil in P. auto.
  - destruct l' as [|y l']; [symmetry in P; apply Permutation_nil in P; discriminate|].
    inversion H' as [|? ? Hs' Hf']; subst.
    assert (x = y) as <-.
    { assert (Hy : In y (x :: l)) by (apply (Permutation_in _ (Permutation_sym P)); left; reflexivity).
      assert (Hx : In x (y :: l')) by (apply (Permutation_in _ P); left; reflexivity).
      destruct Hy as [->|Hy]; [reflexivity|]. destruct Hx as [->|Hx]; [reflexivity|].
      rewrite Forall_forall in Hf, Hf'. apply Hanti; cbn; auto. }
    f_equal. apply IH; auto.
    + intros a b Ha Hb. apply Hanti; cbn; auto.
    + eapply Permutation_cons_inv, P.
Qed.

(** ** Byte-string order *)
Lemma less_bytes_irrefl s : less_bytes s s = false.
Proof. induction s as [|c s IH]; cbn; [reflexivity|]. rewrite Z.ltb_irrefl, Z.eqb_refl, IH. reflexivity. Qed.
Lemma less_bytes_trans s : forall t u, less_bytes s t = true -> less_bytes t u = true -> less_bytes s u = true.
Proof.
  induction s as [|a s IH]; intros [|b t] [|c u]; cbn; try discriminate; auto.
  intros H1 H2. apply orb_true_iff in H1, H2. apply orb_true_iff. rewrite !andb_true_iff in *.
  destruct H1 as [H1|[H1 G1]], H2 as [H2|[H2 G2]]; [left; lia|left; lia|left; lia|right]. split; [lia|eauto].
Qed.
Lemma less_bytes_total s : forall t, less_bytes s t = false -> less_bytes t s = false -> s = t.
Proof.
  induction s as [|a s IH]; intros [|b t]; cbn; try discriminate; auto.
  intros H1 H2. apply orb_false_iff in H1 as [H1 G1]. apply orb_false_iff in H2 as [H2 G2].
  assert (E : code a = code b) by lia. rewrite E, Z.eqb_refl in *. cbn in *. f_equal; [apply code_inj, E|auto].
Qed.
Lemma less_bytes_weak : weak_order less_bytes.
Proof.
  split.
  - intros a b H. destruct (less_bytes b a) eqn:E; [|reflexivity].
    pose proof (less_bytes_trans _ _ _ H E) as F. rewrite less_bytes_irrefl in F. discriminate.
  - intros a b c H1 H2. destruct (less_bytes a c) eqn:E; [|reflexivity].
    destruct (less_bytes b a) eqn:E2.
    + rewrite (less_bytes_trans _ _ _ E2 E) in H2. discriminate.
    + pose proof (less_bytes_total _ _ H1 E2) as ->. congruence.
Qed.
Lemma sort_strings_perm l : Permutation l (sort_strings l).
Proof. apply stable_sort_perm. Qed.
Lemma sort_strings_sorted l : sorted_by less_bytes (sort_strings l).
Proof. apply stable_sort_sorted, less_bytes_weak. Qed.
Lemma sort_strings_unique l l' : Permutation l l' -> sort_strings l = sort_strings l'.
Proof.
  intros P. apply sorted_perm_unique with less_bytes; try apply sort_strings_sorted.
  - intros a b _ _. apply less_bytes_total.
  - rewrite <- sort_strings_perm, <- sort_strings_perm. exact P.
Qed.
