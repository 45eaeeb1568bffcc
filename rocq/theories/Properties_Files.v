(** C51: crash points of commands that rewrite files. *)
From Verif Require Import Base L_Dec M_Files.

Lemma set_same F n v : fs_set F n v n = v.
Proof. unfold fs_set. rewrite (proj2 (eqb_bytes_eq n n) eq_refl). reflexivity. Qed.
Lemma set_other F n v m : m <> n -> fs_set F n v m = F m.
Proof. unfold fs_set. intros H. destruct (eqb_bytes m n) eqn:E; [apply eqb_bytes_eq in E; contradiction|reflexivity]. Qed.
Lemma run_app F a b : run F (a ++ b) = run (run F a) b.
Proof. apply fold_left_app. Qed.
Lemma run_appends tmp : forall text F t, F tmp = Some t ->
  run F (map (SAppend tmp) text) tmp = Some (t ++ text) /\ forall g, g <> tmp -> run F (map (SAppend tmp) text) g = F g.
Proof.
  induction text as [|c text IH]; intros F t H; cbn [map run fold_left].
  - rewrite app_nil_r. split; [exact H|reflexivity].
  - change (fold_left do_step (map (SAppend tmp) text) (do_step F (SAppend tmp c))) with (run (do_step F (SAppend tmp c)) (map (SAppend tmp) text)).
    destruct (IH (do_step F (SAppend tmp c)) (t ++ [c])) as [A1 A2]; [cbn [do_step]; rewrite set_same, H; reflexivity|].
    rewrite <- app_assoc in A1. split; [exact A1|]. intros g Hg. rewrite (A2 g Hg). cbn [do_step]. apply set_other, Hg.
Qed.
(** before the old file is removed *)
Lemma before_remove fn tmp F text k : fn <> tmp ->
  let F' := run F (firstn k (SCreate tmp :: map (SAppend tmp) text)) in forall g, g <> tmp -> F' g = F g.
Proof.
  intros Hn F' g Hg. subst F'. destruct k as [|k]; [reflexivity|]. cbn [firstn run fold_left]. rewrite firstn_map.
  change (run (do_step F (SCreate tmp)) (map (SAppend tmp) (firstn k text)) g = F g).
  destruct (run_appends tmp (firstn k text) (do_step F (SCreate tmp)) []) as [_ A]; [apply set_same|].
  rewrite (A g Hg). apply set_other, Hg.
Qed.
Lemma crash_points fn tmp F text k : fn <> tmp ->
  let F' := run F (firstn k (SCreate tmp :: map (SAppend tmp) text ++ [SRemove fn; SRename tmp fn])) in
  (F' fn = F fn \/ (F' fn = Some text /\ F' tmp = None) \/ (F' fn = None /\ F' tmp = Some text)) /\ forall g, g <> fn -> g <> tmp -> F' g = F g.
Proof.
  intros Hn F'. subst F'. set (w := SCreate tmp :: map (SAppend tmp) text).
  change (SCreate tmp :: map (SAppend tmp) text ++ [SRemove fn; SRename tmp fn]) with (w ++ [SRemove fn; SRename tmp fn]).
  rewrite firstn_app, run_app. assert (B := before_remove fn tmp F text k Hn). fold w in B. cbn beta zeta in B.
  destruct (Nat.le_gt_cases k (List.length w)) as [Hk|Hk].
  - replace (k - List.length w)%nat with O by lia. cbn [firstn run fold_left]. split; [left; apply B, Hn|intros; apply B; assumption].
  - rewrite firstn_all2 in * by lia.
    assert (T : run F w tmp = Some text).
    { subst w. cbn [run fold_left]. destruct (run_appends tmp text (do_step F (SCreate tmp)) []) as [A _]; [apply set_same|]. exact A. }
    remember (run F w) as G eqn:EG. clear EG.
    assert (D : (k - List.length w = 1 \/ 2 <= k - List.length w)%nat) by lia. destruct D as [->|D].
    + cbn [firstn run fold_left do_step]. split.
      * right. right. split; [apply set_same|]. rewrite set_other by congruence. exact T.
      * intros g G1 G2. rewrite set_other by exact G1. apply B, G2.
    + rewrite firstn_all2 by (cbn [List.length]; lia). cbn [run fold_left do_step]. split.
      * right. left. split; [|apply set_same]. rewrite set_other, set_same, set_other by congruence. exact T.
      * intros g G1 G2. rewrite !set_other by assumption. apply B, G2.
Qed.
Lemma no_failure_done w : failed w = false -> done w = fst w.
Proof. unfold failed, done. intros H. apply Nat.ltb_ge in H. apply firstn_all2, H. Qed.
Lemma until_error_all ws : existsb failed ws = false -> until_error ws = concat (map fst ws).
Proof.
  induction ws as [|w ws IH]; intros H; [reflexivity|]. cbn [existsb] in H. apply orb_false_iff in H as [H1 H2].
  cbn [until_error map concat]. rewrite H1, (no_failure_done _ H1), (IH H2). reflexivity.
Qed.

(** ** format -i, modify. If every write succeeds, then at every crash point the file holds the old content or the new
    one, or it is missing and the temporary file holds the complete new content; no other file is changed *)
Theorem C51_crash_points_partial : forall F fn tmp entries k,
  tmp <> fn -> F tmp = None ->
  (forall e, In e entries -> failed (snd e) = false /\ forall w, In w (fst e) -> failed w = false) ->
  let F' := run F (firstn k (rewrite_steps fn tmp entries)) in
  (F' fn = F fn \/ (F' fn = Some (intended entries) /\ F' tmp = None) \/ (F' fn = None /\ F' tmp = Some (intended entries))) /\
  forall g, g <> fn -> g <> tmp -> F' g = F g.
Proof.
  intros F fn tmp entries k Hn _ Hw. unfold rewrite_steps.
  assert (E : concat (map (fun e => until_error (fst e) ++ done (snd e)) entries) = intended entries).
  { unfold intended. f_equal. apply map_ext_in. intros e He. destruct (Hw e He) as [H1 H2]. rewrite (no_failure_done _ H1), until_error_all; [reflexivity|].
    apply not_true_is_false. intros C. apply existsb_exists in C as (w & W1 & W2). rewrite (H2 w W1) in W2. discriminate. }
  rewrite E. apply crash_points. congruence.
Qed.
Print Assumptions C51_crash_points_partial.
(** at the end the file has the new content and the temporary file is gone *)
Theorem C51_finished : forall F fn tmp entries,
  tmp <> fn -> F tmp = None ->
  (forall e, In e entries -> failed (snd e) = false /\ forall w, In w (fst e) -> failed w = false) ->
  let F' := run F (rewrite_steps fn tmp entries) in
  F' fn = Some (intended entries) /\ forall g, g <> fn -> F' g = F g.
Proof.
  intros F fn tmp entries Hn Ht Hw. 
  assert (E : concat (map (fun e => until_error (fst e) ++ done (snd e)) entries) = intended entries).
  { unfold intended. f_equal. apply map_ext_in. intros e He. destruct (Hw e He) as [H1 H2]. rewrite (no_failure_done _ H1), until_error_all; [reflexivity|].
    apply not_true_is_false. intros C. apply existsb_exists in C as (w & W1 & W2). rewrite (H2 w W1) in W2. discriminate. }
  unfold rewrite_steps. rewrite E. cbn beta zeta.
  change (SCreate tmp :: map (SAppend tmp) (intended entries) ++ [SRemove fn; SRename tmp fn])
    with ((SCreate tmp :: map (SAppend tmp) (intended entries)) ++ [SRemove fn; SRename tmp fn]).
  rewrite run_app. cbn [run fold_left do_step].
  destruct (run_appends tmp (intended entries) (do_step F (SCreate tmp)) []) as [A1 A2]; [apply set_same|].
  set (G := fold_left do_step (map (SAppend tmp) (intended entries)) (fs_set F tmp (Some []))) in *.
  split.
  - rewrite set_other, set_same, set_other by congruence. exact A1.
  - intros g Hg. destruct (eqb_bytes g tmp) eqn:E1.
    + apply eqb_bytes_eq in E1. subst g. rewrite set_same. symmetry. exact Ht.
    + assert (g <> tmp) by (intros ->; rewrite (proj2 (eqb_bytes_eq tmp tmp) eq_refl) in E1; discriminate).
      rewrite !set_other by assumption. change (run (do_step F (SCreate tmp)) (map (SAppend tmp) (intended entries)) g = F g).
      rewrite A2 by assumption. cbn [do_step]. apply set_other. assumption.
Qed.
Print Assumptions C51_finished.
(** coin test: the same, and whatever writes fail the old file is only removed when the new one is complete *)
Theorem C51_test_update : forall F fn tmp ws k,
  tmp <> fn -> F tmp = None ->
  let F' := run F (firstn k (checked_steps fn tmp ws)) in
  let new := concat (map fst ws) in
  (F' fn = F fn \/ (F' fn = Some new /\ F' tmp = None) \/ (F' fn = None /\ F' tmp = Some new)) /\
  ((exists w, In w ws /\ failed w = true) -> F' fn = F fn) /\
  forall g, g <> fn -> g <> tmp -> F' g = F g.
Proof.
  intros F fn tmp ws k Hn _. unfold checked_steps. destruct (existsb failed ws) eqn:E.
  - rewrite app_nil_r. assert (A := before_remove fn tmp F (until_error ws) k ltac:(congruence)). cbn beta zeta in *.
    split; [left; apply A; congruence|]. split; [intros _; apply A; congruence|]. intros; apply A; assumption.
  - rewrite (until_error_all _ E). cbn beta zeta. destruct (crash_points fn tmp F (concat (map fst ws)) k ltac:(congruence)) as [A1 A2]. split; [exact A1|]. split; [|exact A2].
    intros (w & W1 & W2). exfalso. apply not_true_iff_false in E. apply E. apply existsb_exists. eauto.
Qed.
Print Assumptions C51_test_update.
(** refuted: between the removal and the renaming there is no file of that name *)
Theorem C51_file_missing_refuted : forall F fn tmp entries, tmp <> fn -> F fn <> None ->
  exists k, run F (firstn k (rewrite_steps fn tmp entries)) fn = None.
Proof.
  intros F fn tmp entries Hn Hf. unfold rewrite_steps. set (text := concat _).
  exists (S (S (List.length text))).
  change (SCreate tmp :: map (SAppend tmp) text ++ [SRemove fn; SRename tmp fn]) with ((SCreate tmp :: map (SAppend tmp) text) ++ [SRemove fn; SRename tmp fn]).
  rewrite firstn_app. cbn [List.length]. rewrite map_length. replace (S (S (List.length text)) - S (List.length text))%nat with 1%nat by lia.
  rewrite run_app. cbn [firstn run fold_left do_step]. apply set_same.
Qed.
Print Assumptions C51_file_missing_refuted.
(** refuted: a failing write is not noticed and the truncated text replaces the file *)
Theorem C51_write_error_refuted : exists F fn tmp entries, tmp <> fn /\ F tmp = None /\ F fn = Some (B "old") /\
  run F (rewrite_steps fn tmp entries) fn = Some (B "ne") /\ intended entries = B "new" /\
  forall g, g <> fn -> run F (rewrite_steps fn tmp entries) g = F g.
Proof.
  exists (fun n => if eqb_bytes n (B "f") then Some (B "old") else None), (B "f"), (B "f1"), [([(B "new", 2%nat)], ([], O))].
  split; [discriminate|]. split; [reflexivity|]. split; [reflexivity|]. split; [vm_compute; reflexivity|]. split; [reflexivity|].
  intros g Hg. cbn. unfold fs_set. destruct (eqb_bytes g (B "f1")) eqn:E.
  - apply eqb_bytes_eq in E. subst g. reflexivity.
  - cbn in E. rewrite E. assert (E2 : eqb_bytes g ["f"%char] = false).
    { destruct (eqb_bytes g ["f"%char]) eqn:E2; [|reflexivity]. apply eqb_bytes_eq in E2. contradiction. }
    rewrite E2. reflexivity.
Qed.
Print Assumptions C51_write_error_refuted.
Example C51_example : let F : fs := fun n => if eqb_bytes n (B "f") then Some (B "old") else None in
  let s := rewrite_steps (B "f") (B "f1") [([(B "ne", 2%nat)], (B "w", 1%nat))] in
  map (fun k => (run F (firstn k s) (B "f"), run F (firstn k s) (B "f1"))) [0; 1; 3; 4; 5; 6]%nat =
  [(Some (B "old"), None); (Some (B "old"), Some []); (Some (B "old"), Some (B "ne")); (Some (B "old"), Some (B "new"));
   (None, Some (B "new")); (Some (B "new"), None)].
Proof. vm_compute. reflexivity. Qed.
