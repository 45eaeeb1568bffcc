From Coq Require Import Sorted Permutation.
From Verif Require Import Base M_Amount M_Convert M_Regex M_Parser M_Names M_Tags M_Date M_Ledger M_Report M_Listing S_Names S_Listing L_Dec L_Amount L_Sort L_Names L_Tags L_Rules L_Listing L_Resolve.

Lemma tag_set_keys k v t : (forall x, In x (map fst (tag_set k v t)) <-> x = k \/ In x (map fst t)) /\ (NoDup (map fst t) -> NoDup (map fst (tag_set k v t))).
Proof.
  induction t as [|[k2 v2] t (K & N)]; cbn [tag_set map fst].
  - split; [cbn; intuition|]. constructor; [intros []|constructor].
  - destruct (eqb_bytes k k2) eqn:E.
    + pose proof E as E'. apply eqb_bytes_eq in E'. subst. cbn [map fst]. split; [cbn; intuition|auto].
    + cbn [map fst]. split.
      * intros x. cbn [In]. rewrite K. intuition.
      * intros H. inversion H; subst. constructor; [|auto]. rewrite K. intros [-> |I]; [rewrite eqb_refl' in E; discriminate|auto].
Qed.
Lemma set_all_nodup kvs : forall t, NoDup (map fst t) -> NoDup (map fst (set_all t kvs)).
Proof. unfold set_all. induction kvs as [|kv kvs IH]; intros t N; cbn [fold_left]; [exact N|]. apply IH, tag_set_keys, N. Qed.
Lemma parse_tags_nodup lines : NoDup (map fst (parse_tags lines)).
Proof.
  unfold parse_tags. assert (G : forall t, NoDup (map fst t) -> NoDup (map fst (fold_left (fun t l => set_all t (line_tags l)) lines t))).
  { induction lines as [|l lines IH]; intros t N; cbn [fold_left]; [exact N|]. apply IH, set_all_nodup, N. }
  apply G. constructor.
Qed.

(** a name has at most one value in a map, whatever the iteration order *)
Lemma vals_in_none k t : ~ In k (map fst t) -> vals_in k t = [].
Proof.
  unfold vals_in. induction t as [|[k' v] t IH]; intros N; cbn [filter fst map]; [reflexivity|].
  cbn [map fst In] in N. destruct (eqb_bytes k k') eqn:E; [apply eqb_bytes_eq in E; subst; exfalso; auto|]. apply IH. auto.
Qed.
Lemma vals_in_one k v t : NoDup (map fst t) -> In (k, v) t -> vals_in k t = [v].
Proof.
  induction t as [|[k' v'] t IH]; intros N I; [destruct I|]. cbn [map fst] in N. inversion N; subst. unfold vals_in. cbn [filter fst].
  destruct I as [E|I].
  - injection E as -> ->. rewrite eqb_refl'. cbn [map snd]. f_equal. apply (vals_in_none k t). assumption.
  - destruct (eqb_bytes k k') eqn:E; [|exact (IH H2 I)]. apply eqb_bytes_eq in E. subst. exfalso. apply H1. apply in_fst_vals. eauto.
Qed.
Lemma existsb_in k l : existsb (eqb_bytes k) l = true <-> In k l.
Proof. rewrite existsb_exists. split; [intros (x & I & E); apply eqb_bytes_eq in E; subst; exact I|intros I; exists k; split; [exact I|apply eqb_refl']]. Qed.
Lemma vals_in_flat {A} k t t' (f : list A) : NoDup (map fst t) -> Permutation t t' ->
  flat_map (fun _ => f) (vals_in k t') = if existsb (eqb_bytes k) (map fst t) then f else [].
Proof.
  intros N P. assert (N' : NoDup (map fst t')) by (eapply Permutation_NoDup; [apply Permutation_map, P|exact N]).
  destruct (existsb (eqb_bytes k) (map fst t)) eqn:E.
  - apply existsb_in, in_fst_vals in E as (v & I). rewrite (vals_in_one k v t' N' (Permutation_in _ P I)). cbn. apply app_nil_r.
  - rewrite vals_in_none; [reflexivity|]. intros I. apply in_fst_vals in I as (v & I). apply (Permutation_in _ (Permutation_sym P)) in I.
    assert (existsb (eqb_bytes k) (map fst t) = true) by (apply existsb_in, in_fst_vals; eauto). congruence.
Qed.
Lemma visit_uses L k xs vs : visits L xs vs -> flat_map (visit_accs k) vs = uses L xs k.
Proof.
  unfold visits, uses. induction 1 as [|x v xs vs (P & F) V IH]; [reflexivity|]. cbn [flat_map]. rewrite <- IH. f_equal. clear IH V.
  unfold visit_accs. f_equal.
  - assert (G : forall ps vps, Forall2 (fun p tp => Permutation (post_tags L p) (fst tp) /\ snd tp = rp_acc (heap L p)) ps vps ->
      flat_map (fun tp => flat_map (fun _ => [snd tp]) (vals_in k (fst tp))) vps =
      flat_map (fun p => if existsb (eqb_bytes k) (map fst (post_tags L p)) then [rp_acc (heap L p)] else []) ps).
    { induction 1 as [|p tp ps vps (Pp & Ep) F' IH]; [reflexivity|]. cbn [flat_map]. rewrite IH. f_equal.
      etransitivity; [exact (vals_in_flat k (post_tags L p) (fst tp) [snd tp] (parse_tags_nodup _) Pp)|]. rewrite Ep. reflexivity. }
    apply G, F.
  - etransitivity; [exact (vals_in_flat k (tx_tags x) (v_tags v) _ (parse_tags_nodup _) P)|].
    replace (map snd (v_posts v)) with (map (fun p => rp_acc (heap L p)) (x_posts x)); [reflexivity|].
    clear P. induction F as [|p tp ps vps (_ & Ep) F IH]; [reflexivity|]. cbn [map]. f_equal; [symmetry; exact Ep|exact IH].
Qed.
Lemma visit_tagged L k w xs vs : visits L xs vs -> In w (flat_map (visit_vals k) vs) <-> tagged L xs k w.
Proof.
  unfold visits. intros V. unfold tagged. split.
  - intros I. induction V as [|x v xs vs (P & F) V IH]; [destruct I|]. cbn [flat_map] in I. apply in_app_iff in I as [I|I].
    + exists x. split; [left; reflexivity|]. unfold visit_vals in I. apply in_app_iff in I as [I|I].
      * right. apply in_flat_map in I as (tp & It & I). apply vals_in_iff in I. clear V P IH. induction F as [|p tp' ps vps (Pp & _) F IH]; [destruct It|].
        destruct It as [<-|It]; [exists p; split; [left; reflexivity|exact (Permutation_in _ (Permutation_sym Pp) I)]|].
        destruct (IH It) as (p' & I1 & I2). exists p'. split; [right; exact I1|exact I2].
      * left. apply vals_in_iff in I. exact (Permutation_in _ (Permutation_sym P) I).
    + destruct (IH I) as (x' & I1 & I2). exists x'. split; [right; exact I1|exact I2].
  - intros (x & I & H). induction V as [|x' v xs vs (P & F) V IH]; [destruct I|]. cbn [flat_map]. apply in_app_iff. destruct I as [-> |I]; [left|right; auto].
    unfold visit_vals. apply in_app_iff. destruct H as [H|(p & Ip & H)].
    + right. apply vals_in_iff. exact (Permutation_in _ P H).
    + left. apply in_flat_map. clear V P IH. induction F as [|p' tp ps vps (Pp & _) F IH]; [destruct Ip|].
      destruct Ip as [-> |Ip]; [exists tp; split; [left; reflexivity|]; apply vals_in_iff; exact (Permutation_in _ Pp H)|].
      destruct (IH Ip) as (tp' & I1 & I2). exists tp'. split; [right; exact I1|exact I2].
Qed.

Lemma firsts_in x l : In x (firsts l) <-> In x l.
Proof.
  induction l as [|y l IH]; cbn [firsts In]; [reflexivity|]. rewrite filter_In, IH. split.
  - intros [E|(I & _)]; auto.
  - intros [E|I]; [auto|]. destruct (eqb_bytes x y) eqn:E; [left; symmetry; apply eqb_bytes_eq, E|right; split; [exact I|reflexivity]].
Qed.
Lemma firsts_nodup l : NoDup (firsts l).
Proof.
  induction l as [|y l IH]; cbn [firsts]; constructor; [|apply NoDup_filter, IH]. rewrite filter_In. intros (_ & E). rewrite eqb_refl' in E. discriminate.
Qed.
Lemma filter_and {A} (f g : A -> bool) l : filter f (filter g l) = filter (fun x => g x && f x) l.
Proof. induction l as [|x l IH]; cbn [filter]; [reflexivity|]. destruct (g x); cbn [filter andb]; [destruct (f x); rewrite IH; reflexivity|exact IH]. Qed.
Lemma fold_firsts l : forall acc, fold_left add_once l acc = acc ++ filter (fun y => negb (existsb (fun v => eqb_bytes v y) acc)) (firsts l).
Proof.
  induction l as [|x l IH]; intros acc; cbn [fold_left firsts filter]; [symmetry; apply app_nil_r|]. rewrite IH. unfold add_once at 1 2.
  destruct (existsb (fun v => eqb_bytes v x) acc) eqn:E; cbn [negb].
  - f_equal. rewrite filter_and. apply filter_ext. intros y. destruct (eqb_bytes y x) eqn:F; cbn [negb andb]; [|reflexivity].
    apply eqb_bytes_eq in F. subst. rewrite E. reflexivity.
  - rewrite <- app_assoc. cbn [app]. f_equal. f_equal. rewrite filter_and. apply filter_ext. intros y.
    rewrite existsb_app. cbn [existsb]. rewrite orb_false_r, (eqb_sym x y), negb_orb, andb_comm. reflexivity.
Qed.
Lemma fold_firsts_nil l : fold_left add_once l [] = firsts l.
Proof. rewrite fold_firsts. cbn [app existsb negb]. induction (firsts l) as [|y r IH]; cbn [filter]; [reflexivity|]. rewrite IH. reflexivity. Qed.
Lemma uses_iff L xs k a : In a (uses L xs k) <-> used_with L xs k a.
Proof.
  unfold uses, used_with. rewrite in_flat_map. split.
  - intros (x & Ix & I). apply in_app_iff in I as [I|I].
    + apply in_flat_map in I as (p & Ip & I). destruct (existsb (eqb_bytes k) (map fst (post_tags L p))) eqn:E; [|destruct I].
      destruct I as [I|[]]. exists x, p. split; [exact Ix|]. split; [exact Ip|]. split; [exact I|]. left. apply existsb_in, E.
    + destruct (existsb (eqb_bytes k) (map fst (tx_tags x))) eqn:E; [|destruct I]. apply in_map_iff in I as (p & E' & Ip).
      exists x, p. split; [exact Ix|]. split; [exact Ip|]. split; [exact E'|]. right. apply existsb_in, E.
  - intros (x & p & Ix & Ip & <- & H). exists x. split; [exact Ix|]. apply in_app_iff. destruct H as [H|H]; apply existsb_in in H.
    + left. apply in_flat_map. exists p. split; [exact Ip|]. rewrite H. left; reflexivity.
    + right. rewrite H. apply in_map_iff. exists p. auto.
Qed.

(** the row of one name *)
Lemma join_nil s l : Forall (fun x => x <> []) l -> join s l = [] -> l = [].
Proof. intros F E. destruct l as [|x l]; [reflexivity|]. inversion F; subst. destruct l as [|y l]; cbn [join] in E; [contradiction|]. destruct x; [contradiction|discriminate E]. Qed.
Lemma tag_lines_row fv fa k vals accs : Forall (fun x => x <> []) vals -> tag_lines fv fa k vals accs = tag_row fv fa k vals accs.
Proof.
  intros F. unfold tag_lines, tag_row. destruct vals as [|v vals].
  - cbn [join]. rewrite andb_false_r. cbn [app]. rewrite <- !app_assoc. reflexivity.
  - destruct (join (B """, """) (v :: vals)) as [|c r] eqn:E; [pose proof (join_nil _ _ F E) as J; discriminate J|].
    rewrite andb_true_r. destruct fv; rewrite <- !app_assoc; cbn [app]; reflexivity.
Qed.
