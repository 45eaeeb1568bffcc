From Coq Require Import Sorted Permutation.
From Verif Require Import Base M_Amount M_Convert M_Regex M_Parser M_Names M_Tags M_Date M_Ledger M_Report M_Listing S_Names S_Listing L_Dec L_Sort L_Names L_Tags L_Rules.

(** ** tags *)
Lemma eqb_sym a b : eqb_bytes a b = eqb_bytes b a.
Proof. destruct (eqb_bytes a b) eqn:E, (eqb_bytes b a) eqn:F; auto; [apply eqb_bytes_eq in E; subst; rewrite (proj2 (eqb_bytes_eq _ _) eq_refl) in F; discriminate|
  apply eqb_bytes_eq in F; subst; rewrite (proj2 (eqb_bytes_eq _ _) eq_refl) in E; discriminate]. Qed.
Lemma eqb_refl' a : eqb_bytes a a = true.
Proof. apply eqb_bytes_eq. reflexivity. Qed.
Lemma sget_sset k k' v m : sget k (sset k' v m) = if eqb_bytes k k' then v else sget k m.
Proof.
  induction m as [|[k2 v2] m IH]; cbn [sset sget]; [destruct (eqb_bytes k k'); reflexivity|].
  destruct (eqb_bytes k' k2) eqn:E; cbn [sget].
  - apply eqb_bytes_eq in E. subst k2. destruct (eqb_bytes k k') eqn:F; reflexivity.
  - destruct (eqb_bytes k k2) eqn:F; [|exact IH]. destruct (eqb_bytes k k') eqn:G; [|reflexivity].
    apply eqb_bytes_eq in F, G. subst. rewrite eqb_refl' in E. discriminate.
Qed.
Lemma sset_keys k v m : forall x, In x (map fst (sset k v m)) <-> x = k \/ In x (map fst m).
Proof.
  induction m as [|[k2 v2] m IH]; intros x; cbn [sset map fst In]; [intuition|].
  destruct (eqb_bytes k k2) eqn:E; cbn [map fst In].
  - apply eqb_bytes_eq in E. subst. intuition.
  - rewrite IH. intuition.
Qed.
Lemma sset_nodup k v m : NoDup (map fst m) -> NoDup (map fst (sset k v m)).
Proof.
  induction m as [|[k2 v2] m IH]; intros N; cbn [sset map fst]; [constructor; [intros []|constructor]|].
  cbn [map fst] in N. inversion N; subst. destruct (eqb_bytes k k2) eqn:E; cbn [map fst].
  - apply eqb_bytes_eq in E. subst. constructor; auto.
  - constructor; [|auto]. intros I. apply sset_keys in I as [-> |I]; [rewrite eqb_refl' in E; discriminate|auto].
Qed.

(** the values of a name in a tag list *)
Definition vals_in (k : bytes) (t : tags) : list bytes := map snd (filter (fun kv => eqb_bytes k (fst kv)) t).
Definition ok_name (rex : option (bytes -> bool)) (k : bytes) : bool := match rex with None => true | Some m => m k end.

Lemma collect_keys_results rex fa t accs : forall st k,
  sget k (fst (collect_keys rex fa t accs st)) =
    (if ok_name rex k then fold_left add_once (vals_in k t) (sget k (fst st)) else sget k (fst st)).
Proof.
  induction t as [|[k' v] t IH]; intros st k; cbn [collect_keys]; [destruct (ok_name rex k); reflexivity|].
  rewrite IH. clear IH. unfold vals_in. cbn [filter fst map snd]. fold (ok_name rex k').
  destruct (eqb_bytes k k') eqn:E.
  - apply eqb_bytes_eq in E. subst k'. destruct (ok_name rex k); cbn [fst map fold_left]; [|reflexivity].
    rewrite sget_sset, eqb_refl'. reflexivity.
  - destruct (ok_name rex k'); cbn [fst]; [|reflexivity]. rewrite sget_sset, E. reflexivity.
Qed.
Lemma collect_keys_accounts rex fa t accs : forall st k,
  sget k (snd (collect_keys rex fa t accs st)) =
    (if ok_name rex k && fa then fold_left add_once (flat_map (fun _ => accs) (vals_in k t)) (sget k (snd st)) else sget k (snd st)).
Proof.
  induction t as [|[k' v] t IH]; intros st k; cbn [collect_keys]; [destruct (ok_name rex k && fa); reflexivity|].
  rewrite IH. clear IH. unfold vals_in. cbn [filter fst map snd]. fold (ok_name rex k').
  destruct (eqb_bytes k k') eqn:E.
  - apply eqb_bytes_eq in E. subst k'. destruct (ok_name rex k); cbn [snd map flat_map andb]; [|reflexivity].
    destruct fa; [|reflexivity]. rewrite sget_sset, eqb_refl', fold_left_app. reflexivity.
  - destruct (ok_name rex k'); cbn [snd]; [|reflexivity]. destruct fa; [|reflexivity]. rewrite sget_sset, E. reflexivity.
Qed.
Lemma collect_keys_keys rex fa t accs : forall st, NoDup (map fst (fst st)) ->
  NoDup (map fst (fst (collect_keys rex fa t accs st))) /\
  forall k, In k (map fst (fst (collect_keys rex fa t accs st))) <-> In k (map fst (fst st)) \/ (ok_name rex k = true /\ In k (map fst t)).
Proof.
  induction t as [|[k' v] t IH]; intros st N; cbn [collect_keys]; [split; [exact N|]; cbn; intuition|]. fold (ok_name rex k').
  destruct (ok_name rex k') eqn:E.
  - specialize (IH (sset k' (add_once (sget k' (fst st)) v) (fst st), if fa then sset k' (fold_left add_once accs (sget k' (snd st))) (snd st) else snd st)).
    cbn [fst] in IH. destruct (IH (sset_nodup _ _ _ N)) as (N' & K). split; [exact N'|]. intros k. rewrite K, sset_keys. cbn [map fst In].
    intuition; subst; intuition.
  - destruct (IH st N) as (N' & K). split; [exact N'|]. intros k. rewrite K. cbn [map fst In]. intuition. subst. congruence.
Qed.

(** all the values and all the uses of a name, in the order of the visits *)
Definition visit_vals (k : bytes) (v : visit) : list bytes := flat_map (fun tp => vals_in k (fst tp)) (v_posts v) ++ vals_in k (v_tags v).
Definition visit_accs (k : bytes) (v : visit) : list bytes :=
  flat_map (fun tp => flat_map (fun _ => [snd tp]) (vals_in k (fst tp))) (v_posts v) ++ flat_map (fun _ => map snd (v_posts v)) (vals_in k (v_tags v)).

Lemma collect_posts_accs rex fa ps : forall accs st, snd (collect_posts rex fa ps accs st) = if fa then accs ++ map snd ps else accs.
Proof.
  induction ps as [|[t a] ps IH]; intros accs st; cbn [collect_posts snd map]; [destruct fa; rewrite ?app_nil_r; reflexivity|].
  rewrite IH. destruct fa; [rewrite <- app_assoc|]; reflexivity.
Qed.
Lemma collect_posts_results rex fa ps k : forall accs st, let st' := fst (collect_posts rex fa ps accs st) in
  sget k (fst st') = (if ok_name rex k then fold_left add_once (flat_map (fun tp => vals_in k (fst tp)) ps) (sget k (fst st)) else sget k (fst st)) /\
  sget k (snd st') = (if ok_name rex k && fa then fold_left add_once (flat_map (fun tp => flat_map (fun _ => [snd tp]) (vals_in k (fst tp))) ps) (sget k (snd st)) else sget k (snd st)).
Proof.
  induction ps as [|[t a] ps IH]; intros accs st; cbn [collect_posts fst flat_map]; [destruct (ok_name rex k), fa; split; reflexivity|].
  destruct (IH (if fa then accs ++ [a] else accs) (collect_keys rex fa t [a] st)) as (I1 & I2). cbn [fst snd] in *.
  rewrite I1, I2, collect_keys_results, collect_keys_accounts.
  destruct (ok_name rex k), fa; cbn [andb]; rewrite ?fold_left_app; split; reflexivity.
Qed.
Lemma collect_posts_keys rex fa ps : forall accs st, NoDup (map fst (fst st)) -> let st' := fst (collect_posts rex fa ps accs st) in
  NoDup (map fst (fst st')) /\
  forall k, In k (map fst (fst st')) <-> In k (map fst (fst st)) \/ (ok_name rex k = true /\ exists tp, In tp ps /\ In k (map fst (fst tp))).
Proof.
  induction ps as [|[t a] ps IH]; intros accs st N; cbn [collect_posts fst]; [split; [exact N|]; intros k; split; [auto|intros [H|(_ & tp & [] & _)]; exact H]|].
  destruct (collect_keys_keys rex fa t [a] st N) as (N1 & K1).
  destruct (IH (if fa then accs ++ [a] else accs) (collect_keys rex fa t [a] st) N1) as (N2 & K2). cbn [fst] in *. split; [exact N2|].
  intros k. rewrite K2, K1. split.
  - intros [[H|(H1 & H2)]|(H1 & tp & H2 & H3)]; [auto|right; split; [exact H1|]; exists (t, a); split; [left; reflexivity|exact H2]|
      right; split; [exact H1|]; exists tp; split; [right; exact H2|exact H3]].
  - intros [H|(H1 & tp & [<-|H2] & H3)]; [auto|left; right; auto|right; split; [exact H1|]; exists tp; auto].
Qed.
Lemma collect_results rex fa k vs : forall st,
  sget k (fst (collect rex fa vs st)) = (if ok_name rex k then fold_left add_once (flat_map (visit_vals k) vs) (sget k (fst st)) else sget k (fst st)) /\
  sget k (snd (collect rex fa vs st)) = (if ok_name rex k && fa then fold_left add_once (flat_map (visit_accs k) vs) (sget k (snd st)) else sget k (snd st)).
Proof.
  induction vs as [|v vs IH]; intros st; cbn [collect flat_map]; [destruct (ok_name rex k), fa; split; reflexivity|].
  pose proof (collect_posts_results rex fa (v_posts v) k [] st) as (R1 & R2). pose proof (collect_posts_accs rex fa (v_posts v) [] st) as R3.
  destruct (collect_posts rex fa (v_posts v) [] st) as (st1 & accs). cbn [fst snd] in *. subst accs.
  destruct (IH (collect_keys rex fa (v_tags v) (if fa then [] ++ map snd (v_posts v) else []) st1)) as (I1 & I2).
  rewrite I1, I2, collect_keys_results, collect_keys_accounts, R1, R2. unfold visit_vals, visit_accs.
  destruct (ok_name rex k), fa; cbn [andb app]; rewrite ?fold_left_app; split; reflexivity.
Qed.
Lemma collect_keys_all rex fa vs : forall st, NoDup (map fst (fst st)) ->
  NoDup (map fst (fst (collect rex fa vs st))) /\
  forall k, In k (map fst (fst (collect rex fa vs st))) <-> In k (map fst (fst st)) \/
    (ok_name rex k = true /\ exists v, In v vs /\ (In k (map fst (v_tags v)) \/ exists tp, In tp (v_posts v) /\ In k (map fst (fst tp)))).
Proof.
  induction vs as [|v vs IH]; intros st N; cbn [collect]; [split; [exact N|]; intros k; split; [auto|intros [H|(_ & tp & [] & _)]; exact H]|].
  destruct (collect_posts_keys rex fa (v_posts v) [] st N) as (N1 & K1).
  destruct (collect_posts rex fa (v_posts v) [] st) as (st1 & accs). cbn [fst snd] in *.
  destruct (collect_keys_keys rex fa (v_tags v) accs st1 N1) as (N2 & K2).
  destruct (IH _ N2) as (N3 & K3). split; [exact N3|]. intros k. rewrite K3, K2, K1. split.
  - intros [[[H|(H1 & tp & H2 & H3)]|(H1 & H2)]|(H1 & v' & H2 & H3)]; [auto|right; split; [exact H1|]; exists v; split; [left; reflexivity|right; exists tp; auto]|
      right; split; [exact H1|]; exists v; split; [left; reflexivity|left; exact H2]|right; split; [exact H1|]; exists v'; split; [right; exact H2|exact H3]].
  - intros [H|(H1 & v' & [Hv|H2] & H3)]; [auto|subst v'|right; split; [exact H1|]; exists v'; auto].
    destruct H3 as [H3|(tp & H3 & H4)]; [left; right; auto|left; left; right; split; [exact H1|]; exists tp; auto].
Qed.

(** keeping each element once *)
Lemma add_once_nodup l k : NoDup l -> NoDup (add_once l k) /\ forall x, In x (add_once l k) <-> In x l \/ x = k.
Proof.
  intros N. unfold add_once. destruct (existsb (fun v => eqb_bytes v k) l) eqn:E.
  - apply existsb_exists in E as (y & I & Ey). apply eqb_bytes_eq in Ey. subst y. split; [exact N|]. intros x. split; [auto|]. intros [H| ->]; auto.
  - assert (Nk : ~ In k l). { intros I. assert (existsb (fun v => eqb_bytes v k) l = true) by (apply existsb_exists; exists k; split; [exact I|apply eqb_refl']). congruence. }
    split. { apply (Permutation_NoDup (Permutation_cons_append l k)). constructor; assumption. }
    intros x. rewrite in_app_iff. cbn. intuition.
Qed.
Lemma fold_add_nodup ks : forall l, NoDup l -> NoDup (fold_left add_once ks l) /\ forall x, In x (fold_left add_once ks l) <-> In x l \/ In x ks.
Proof.
  induction ks as [|k ks IH]; intros l N; cbn [fold_left]; [split; [exact N|]; cbn; intuition|].
  destruct (add_once_nodup l k N) as (N1 & K1). destruct (IH _ N1) as (N2 & K2). split; [exact N2|].
  intros x. rewrite K2, K1. cbn. intuition.
Qed.
Lemma nodup_ascending l : NoDup l -> ascending (sort_strings l).
Proof.
  intros N. pose proof (sort_strings_sorted l) as S. assert (N' : NoDup (sort_strings l)) by (eapply Permutation_NoDup; [apply sort_strings_perm|exact N]).
  revert S N'. generalize (sort_strings l). clear. intros l S N. unfold ascending. induction S as [|a l S IH H]; [constructor|]. inversion N; subst. constructor; [auto|].
  apply Forall_forall. intros b I. pose proof (proj1 (Forall_forall _ _) H b I) as G. cbv beta in G.
  destruct (less_bytes a b) eqn:E; [reflexivity|]. pose proof (less_bytes_total a b E G). subst. contradiction.
Qed.

(** values sorted, the empty one dropped *)
Lemma clean_spec l : NoDup l -> l <> [] -> exists r, clean l = Ok r /\ ascending r /\ forall x, In x r <-> x <> [] /\ In x l.
Proof.
  intros N Ne. unfold clean. pose proof (nodup_ascending l N) as A. pose proof (sort_strings_perm l) as P.
  destruct (sort_strings l) as [|s r] eqn:E; [apply Permutation_sym, Permutation_nil in P; contradiction|].
  inversion A as [|? ? A1 A2]; subst. destruct s as [|c s].
  - exists r. split; [reflexivity|]. split; [exact A1|]. intros x. split.
    + intros I. split. { intros ->. pose proof (proj1 (Forall_forall _ _) A2 [] I) as G. discriminate G. }
      apply (Permutation_in x (Permutation_sym P)). right; exact I.
    + intros (Nx & I). apply (Permutation_in x P) in I. destruct I as [<-|I]; [contradiction|exact I].
  - exists ((c :: s) :: r). split; [reflexivity|]. split; [exact A|]. intros x. split.
    + intros I. split; [|exact (Permutation_in x (Permutation_sym P) I)]. intros ->. destruct I as [I|I]; [discriminate I|].
      pose proof (proj1 (Forall_forall _ _) A2 [] I) as G. discriminate G.
    + intros (Nx & I). exact (Permutation_in x P I).
Qed.
Lemma clean_all_spec keys : forall m, NoDup keys -> (forall k, In k keys -> NoDup (sget k m) /\ sget k m <> []) ->
  exists m', clean_all keys m = Ok m' /\
    forall k, (In k keys -> clean (sget k m) = Ok (sget k m')) /\ (~ In k keys -> sget k m' = sget k m).
Proof.
  induction keys as [|k keys IH]; intros m N H; cbn [clean_all]; [exists m; split; [reflexivity|]; intros k; split; [intros []|reflexivity]|].
  inversion N as [|? ? Nk0 Nr]; subst. destruct (H k (or_introl eq_refl)) as (H1' & H2'). destruct (clean_spec (sget k m) H1' H2') as (r & E & _ & _). rewrite E. cbn [bind].
  destruct (IH (sset k r m)) as (m' & E' & G); [assumption| |].
  { intros k' I. rewrite sget_sset. destruct (eqb_bytes k' k) eqn:F; [apply eqb_bytes_eq in F; subst; contradiction|]. apply H. right; exact I. }
  exists m'. split; [exact E'|]. intros k'. destruct (G k') as (G1 & G2). rewrite sget_sset in G1, G2. split.
  - intros [<-|I]; [rewrite E; f_equal; symmetry; rewrite (G2 Nk0), eqb_refl'; reflexivity|].
    specialize (G1 I). destruct (eqb_bytes k' k) eqn:F; [apply eqb_bytes_eq in F; subst; contradiction|exact G1].
  - intros Nk. rewrite G2 by (intros I; apply Nk; right; exact I). destruct (eqb_bytes k' k) eqn:F; [|reflexivity].
    apply eqb_bytes_eq in F. subst. exfalso. apply Nk. left; reflexivity.
Qed.
Lemma vals_in_iff k t v : In v (vals_in k t) <-> In (k, v) t.
Proof.
  unfold vals_in. rewrite in_map_iff. split.
  - intros ([k' v'] & <- & I). apply filter_In in I as (I & E). apply eqb_bytes_eq in E. cbn in *. subst. exact I.
  - intros I. exists (k, v). split; [reflexivity|]. apply filter_In. split; [exact I|]. apply eqb_refl'.
Qed.
Lemma in_fst_vals {B} k (t : list (bytes * B)) : In k (map fst t) <-> exists v, In (k, v) t.
Proof. rewrite in_map_iff. split; [intros ([k' v] & <- & I); exists v; exact I|intros (v & I); exists (k, v); auto]. Qed.
