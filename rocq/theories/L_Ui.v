(** Lemmas for the controls of the page. *)
From Verif Require Import Base M_Amount M_Date M_Names M_Web M_Page M_Views S_Views M_Ui S_Ui L_Dec L_Resolve L_Views.
Local Open Scope Z_scope.

Section Tree.
Variable pg : page.
Hypothesis T : page_tree pg.
Lemma child_parent a b : In b (pg_children pg a) <-> exists pb, find_account (pg_accounts pg) b = Some pb /\ pa_parent pb = Some a.
Proof. exact (proj1 (proj2 T) a b). Qed.
Lemma under_trans a b c : under pg a b -> under pg b c -> under pg a c.
Proof. intros H K. induction K; [exact H|]. eapply beneath_child; eassumption. Qed.
Lemma under_self a : under pg a a. Proof. constructor. Qed.
Lemma under_one a b : In b (pg_children pg a) -> under pg a b.
Proof. intros H. eapply beneath_child; [constructor|exact H]. Qed.
Lemma under_length a b : under pg a b -> (List.length a <= List.length b)%nat.
Proof.
  intros H. induction H as [|b c H IH I]; [lia|]. apply child_parent in I as (pb & F & P). destruct (proj2 (proj2 T) _ _ _ F P) as [_ L]. lia.
Qed.
Lemma under_known a b : under pg a b -> (exists pa, find_account (pg_accounts pg) a = Some pa) -> exists pb, find_account (pg_accounts pg) b = Some pb.
Proof. intros H K. destruct H as [|b c H I]; [exact K|]. apply child_parent in I as (pb & F & P). eauto. Qed.
Lemma under_up a b : under pg a b -> (exists pb, find_account (pg_accounts pg) b = Some pb) -> exists pa, find_account (pg_accounts pg) a = Some pa.
Proof. intros H. induction H as [|b c H IH I]; [auto|]. intros _. apply IH. apply child_parent in I as (pb & F & P). exact (proj1 (proj2 (proj2 T) _ _ _ F P)). Qed.
Lemma under_cases a b : under pg a b -> a = b \/ strictly_above pg a b.
Proof.
  intros H. induction H as [|b c H IH I]; [left; reflexivity|]. right. destruct IH as [<-|(x & Ix & U)]; [exists c; split; [exact I|constructor]|].
  exists x. split; [exact Ix|]. eapply beneath_child; eassumption.
Qed.
Lemma strict_under a b : strictly_above pg a b -> under pg a b.
Proof. intros (c & I & U). eapply under_trans; [exact (under_one _ _ I)|exact U]. Qed.
Lemma strict_up a b pb p : find_account (pg_accounts pg) b = Some pb -> pa_parent pb = Some p -> (strictly_above pg a b <-> under pg a p).
Proof.
  intros F P. split.
  - intros (c & I & U). inversion U as [E|x y H I2].
    + subst c. apply child_parent in I as (pb' & F' & P'). rewrite F in F'. injection F' as <-. rewrite P in P'. injection P' as ->. constructor.
    + subst y. apply child_parent in I2 as (pb' & F' & P'). rewrite F in F'. injection F' as <-. rewrite P in P'. injection P' as ->.
      eapply under_trans; [exact (under_one _ _ I)|exact H].
  - intros U. assert (I : In b (pg_children pg p)) by (apply child_parent; eauto). destruct (under_cases a p U) as [<-|(c & Ic & Uc)].
    + exists b. split; [exact I|constructor].
    + exists c. split; [exact Ic|]. eapply beneath_child; eassumption.
Qed.
Lemma linear a b x : under pg a x -> under pg b x -> under pg a b \/ under pg b a.
Proof.
  intros H. induction H as [|y z H IH I]; intros K; [right; exact K|]. inversion K as [E|y' z' K' I'].
  - subst b. left. eapply beneath_child; eassumption.
  - subst z'. apply child_parent in I as (p1 & F1 & P1). apply child_parent in I' as (p2 & F2 & P2). rewrite F1 in F2. injection F2 as <-. rewrite P1 in P2. injection P2 as <-. exact (IH K').
Qed.
Lemma no_parent_top a r pr : under pg a r -> find_account (pg_accounts pg) r = Some pr -> pa_parent pr = None -> a = r.
Proof. intros H F P. inversion H as [E|y z K I]; [reflexivity|]. subst z. apply child_parent in I as (p & F' & P'). rewrite F in F'. injection F' as <-. congruence. Qed.
Lemma root_above_under a b r : under pg a b -> root_above pg a r <-> root_above pg b r.
Proof.
  intros H. split; intros (U & pr & F & P).
  - split; [eapply under_trans; eassumption|eauto].
  - split; [|eauto]. destruct (linear a r b H U) as [K|K]; [|exact K]. rewrite (no_parent_top a r pr K F P). constructor.
Qed.
Lemma root_above_unique a r r' : root_above pg a r -> root_above pg a r' -> r = r'.
Proof.
  intros (U & pr & F & P) (U' & pr' & F' & P'). destruct (linear r r' a U U') as [K|K]; [exact (no_parent_top _ _ _ K F' P')|symmetry; exact (no_parent_top _ _ _ K F P)].
Qed.

Lemma root_account_spec f : forall a, (List.length a < f)%nat -> (exists pa, find_account (pg_accounts pg) a = Some pa) ->
  exists r pr, root_account pg f a = Some pr /\ find_account (pg_accounts pg) r = Some pr /\ root_above pg a r.
Proof.
  induction f as [|f IH]; intros a L (pa & F); [lia|]. cbn [root_account]. rewrite F. destruct (pa_parent pa) as [p|] eqn:P.
  - destruct (proj2 (proj2 T) _ _ _ F P) as [K Lp]. destruct (IH p ltac:(lia) K) as (r & pr & E & Fr & R). exists r, pr. split; [exact E|split; [exact Fr|]].
    apply (root_above_under p a r); [|exact R]. apply under_one, child_parent. eauto.
  - exists a, pa. split; [reflexivity|split; [exact F|]]. split; [constructor|eauto].
Qed.
Lemma parents_spec f : forall a, (List.length a < f)%nat -> (exists pa, find_account (pg_accounts pg) a = Some pa) -> path_to pg a (with_all_parents pg f a).
Proof.
  induction f as [|f IH]; intros a L (pa & F); [lia|]. cbn [with_all_parents]. rewrite F. destruct (pa_parent pa) as [p|] eqn:P.
  - destruct (proj2 (proj2 T) _ _ _ F P) as [K Lp]. eapply path_child; [exact F|exact P|]. apply IH; [lia|exact K].
  - eapply path_root; eassumption.
Qed.
Lemma path_under a l : path_to pg a l -> forall x, In x l <-> under pg x a.
Proof.
  intros H. induction H as [a pa F P|a pa p l F P H IH]; intros x.
  - split; [intros [<-|[]]; constructor|]. intros U. left. symmetry. exact (no_parent_top _ _ _ U F P).
  - rewrite in_app_iff, IH. split.
    + intros [U|[<-|[]]]; [|constructor]. apply strict_under. apply (strict_up x a pa p F P). exact U.
    + intros U. destruct (under_cases x a U) as [<-|S]; [right; left; reflexivity|]. left. apply (strict_up x a pa p F P). exact S.
Qed.
Lemma is_parent_spec f : forall x a, (List.length a < f)%nat -> (exists pa, find_account (pg_accounts pg) a = Some pa) ->
  (is_parent_of pg f x a = true <-> strictly_above pg x a).
Proof.
  induction f as [|f IH]; intros x a L (pa & F); [lia|]. cbn [is_parent_of]. rewrite F. destruct (pa_parent pa) as [p|] eqn:P.
  - destruct (proj2 (proj2 T) _ _ _ F P) as [K Lp]. rewrite orb_true_iff, eqb_bytes_eq, (IH x p ltac:(lia) K), (strict_up x a pa p F P). split.
    + intros [<-|S]; [constructor|apply strict_under, S].
    + intros U. destruct (under_cases x p U) as [->|S]; auto.
  - split; [discriminate|]. intros S. apply strict_under in S as U. pose proof (no_parent_top _ _ _ U F P) as E. subst x. destruct S as (c & I & Uc).
    apply child_parent in I as (pc & Fc & Pc). destruct (proj2 (proj2 T) _ _ _ Fc Pc) as [_ Lc]. pose proof (under_length _ _ Uc). lia.
Qed.
Lemma all_children_under mid f show stop ex : forall a b, In b (all_children mid pg f show stop ex a) -> under pg a b /\ exists pb, find_account (pg_accounts pg) b = Some pb.
Proof.
  induction f as [|f IH]; intros a b I; [destruct I|]. cbn [all_children] in I. apply in_flat_map in I as (c & Ic & I).
  destruct (child_shown mid pg show stop ex c); [|destruct I]. destruct I as [<-|I].
  - split; [exact (under_one _ _ Ic)|]. apply child_parent in Ic as (pc & F & _). eauto.
  - destruct (IH _ _ I) as [U K]. split; [|exact K]. eapply under_trans; [exact (under_one _ _ Ic)|exact U].
Qed.
End Tree.

Lemma views_for_spec name l : views_for name = Some l <-> category_views name l.
Proof.
  assert (E : forall ns, existsb (eqb_bytes name) ns = true <-> In name ns).
  { intros ns. rewrite existsb_exists. split; [intros (x & I & H); apply eqb_bytes_eq in H; subst; exact I|]. intros I. exists name. split; [exact I|apply eqb_bytes_refl]. }
  unfold views_for, category_views. destruct (existsb (eqb_bytes name) [B "Assets"; B "Liabilities"; B "Income"; B "Expenses"]) eqn:E1.
  - pose proof E1 as I. apply E in I. split; [intros [= <-]; auto|]. intros [[_ ->]|[I2 _]]; [reflexivity|]. exfalso.
    destruct I as [<-|[<-|[<-|[<-|[]]]]]; destruct I2 as [X|[X|[]]]; discriminate.
  - assert (N : ~ In name [B "Assets"; B "Liabilities"; B "Income"; B "Expenses"]) by (intros I; apply E in I; congruence).
    destruct (existsb (eqb_bytes name) [B "Equity"; B "Unbalanced"]) eqn:E2.
    + apply E in E2. split; [intros [= <-]; auto|]. intros [[I _]|[_ ->]]; [contradiction|reflexivity].
    + split; [discriminate|]. intros [[I _]|[I _]]; [contradiction|]. apply E in I. congruence.
Qed.
Lemma view_eqb_eq v w : view_eqb v w = true <-> v = w.
Proof. destruct v, w; cbn; split; congruence. Qed.
Lemma existsb_view v l : existsb (view_eqb v) l = true <-> In v l.
Proof. rewrite existsb_exists. split; [intros (x & I & H); apply view_eqb_eq in H; subst; exact I|]. intros I. exists v. split; [exact I|apply view_eqb_eq; reflexivity]. Qed.

Section Handlers.
Variable mid : Z -> Z.
Variable pg : page.
Hypothesis T : page_tree pg.
Definition pre_ok (s : ui) : Prop := exists a r pr l,
  u_sel s = Some a /\ root_above pg a r /\ find_account (pg_accounts pg) r = Some pr /\ category_views (pa_name pr) (u_offered s) /\
  In (u_view s) (u_offered s) /\
  u_root s = Some l /\ under pg l a /\ Forall (under pg l) (u_list s) /\ path_to pg a (u_crumbs s) /\ Forall (under pg a) (u_exclude s).
Lemma root_known a r : root_above pg a r -> exists pa, find_account (pg_accounts pg) a = Some pa.
Proof. intros (U & pr & F & _). eapply under_known; eauto. Qed.
Lemma root_views_spec s a r pr : u_sel s = Some a -> root_above pg a r -> find_account (pg_accounts pg) r = Some pr -> root_views pg s = views_for (pa_name pr).
Proof.
  intros E R F. unfold root_views. rewrite E. destruct (root_account_spec pg T (height a) a) as (r' & pr' & E' & F' & R'); [unfold height; lia|eapply root_known; exact R|].
  rewrite E'. rewrite (root_above_unique pg T a r' r R' R) in F'. rewrite F in F'. injection F' as ->. reflexivity.
Qed.
Lemma update_view_ok s : pre_ok s -> snd (update_view pg s) = false /\ ui_ok pg (fst (update_view pg s)) /\
  u_sel (fst (update_view pg s)) = u_sel s /\ u_root (fst (update_view pg s)) = u_root s /\ u_list (fst (update_view pg s)) = u_list s /\
  u_closed (fst (update_view pg s)) = u_closed s /\ u_end (fst (update_view pg s)) = u_end s.
Proof.
  intros (a & r & pr & l & E & R & F & C & V & Rest). unfold update_view. rewrite (root_views_spec s a r pr E R F). rewrite (proj2 (views_for_spec _ _) C).
  rewrite (proj2 (existsb_view _ _) V). cbn [fst snd]. split; [reflexivity|].
  destruct (u_view s) eqn:Ev; [| | |destruct (u_agg s) eqn:Ea]; (split; [|split; [reflexivity|split; [reflexivity|auto]]]).
  1-4: exists a, r, pr, l; repeat (split; [first [assumption|rewrite Ev; assumption|intros X; congruence]|]); exact Rest.
  exists a, r, pr, l. unfold update_aggregation. cbn. rewrite Ev. repeat (split; [first [assumption|discriminate]|]). exact Rest.
Qed.
Lemma update_account_ok s a r pr l : u_sel s = Some a -> root_above pg a r -> find_account (pg_accounts pg) r = Some pr ->
  category_views (pa_name pr) (u_offered s) -> In (u_view s) (u_offered s) -> u_root s = Some l -> under pg l a -> Forall (under pg l) (u_list s) ->
  snd (update_account pg s) = false /\ ui_ok pg (fst (update_account pg s)) /\
  u_sel (fst (update_account pg s)) = u_sel s /\ u_root (fst (update_account pg s)) = u_root s /\ u_list (fst (update_account pg s)) = u_list s /\
  u_closed (fst (update_account pg s)) = u_closed s /\ u_end (fst (update_account pg s)) = u_end s.
Proof.
  intros E R F C V L U X. unfold update_account. cbn [set_exclude u_sel]. rewrite E.
  destruct (update_view_ok (set_crumbs (set_exclude s []) (with_all_parents pg (height a) a))) as (H1 & H2 & H3).
  - exists a, r, pr, l. cbn [set_crumbs set_exclude u_sel u_offered u_view u_root u_list u_crumbs u_exclude]. repeat (split; [assumption|]). split; [|constructor].
    apply parents_spec; [exact T|unfold height; lia|]. eapply root_known; exact R.
  - split; [exact H1|]. split; [exact H2|]. rewrite <- E. exact H3.
Qed.
Lemma update_accounts_ok s a : known_roots pg -> u_sel s = Some a -> (exists pa, find_account (pg_accounts pg) a = Some pa) ->
  snd (update_accounts mid pg s) = false /\ ui_ok pg (fst (update_accounts mid pg s)) /\ u_sel (fst (update_accounts mid pg s)) = Some a /\
  u_root (fst (update_accounts mid pg s)) = Some a /\ u_list (fst (update_accounts mid pg s)) = all_children mid pg (depth_of_page pg) (u_closed s) (u_end s) [] a /\
  u_closed (fst (update_accounts mid pg s)) = u_closed s /\ u_end (fst (update_accounts mid pg s)) = u_end s.
Proof.
  intros K E (pa & Fa). destruct (root_account_spec pg T (height a) a) as (r & pr & _ & F & R); [unfold height; lia|eauto|].
  assert (C : exists l, category_views (pa_name pr) l).
  { destruct R as (_ & pr' & F' & P'). rewrite F in F'. injection F' as <-. pose proof (K r pr F P') as I. unfold category_views. cbn [In] in *. destruct I as [I|[I|[I|[I|[I|[I|[]]]]]]]; rewrite <- I;
      (eexists; first [left; split; [tauto|reflexivity]|right; split; [tauto|reflexivity]]). }
  destruct C as (l & C). unfold update_accounts. assert (RV : root_views pg (set_offered s []) = Some l).
  { rewrite (root_views_spec (set_offered s []) a r pr E R F). apply views_for_spec, C. }
  rewrite RV. cbn [set_offered u_view].
  set (s1 := if existsb (view_eqb (u_view s)) l then set_offered s [] else set_view (set_offered s []) (hd Balances l)).
  change (if existsb (view_eqb (u_view s)) l then _ else _) with s1.
  assert (E1 : u_sel s1 = Some a) by (unfold s1; destruct (existsb _ _); exact E).
  assert (Ec : u_closed s1 = u_closed s) by (unfold s1; destruct (existsb _ _); reflexivity).
  assert (Ee : u_end s1 = u_end s) by (unfold s1; destruct (existsb _ _); reflexivity).
  assert (Ev : In (u_view s1) l).
  { unfold s1. destruct (existsb (view_eqb (u_view s)) l) eqn:X; [apply existsb_view in X; exact X|]. cbn [set_view u_view]. destruct C as [[_ ->]|[_ ->]]; left; reflexivity. }
  clearbody s1. cbn [set_offered u_sel u_closed u_end]. rewrite E1, Ec, Ee.
  set (s2 := set_list _ _ _). destruct (update_account_ok s2 a r pr a) as (H1 & H2 & H3 & H4 & H5 & H6 & H7).
  - exact E1.
  - exact R.
  - exact F.
  - exact C.
  - exact Ev.
  - reflexivity.
  - constructor.
  - cbn [s2 set_list u_list]. apply Forall_forall. intros b I. exact (proj1 (all_children_under pg T _ _ _ _ _ _ _ I)).
  - split; [exact H1|]. split; [exact H2|]. rewrite H3, H4, H5, H6, H7. cbn [s2 set_list u_sel u_root u_list u_closed u_end set_offered]. repeat split; assumption.
Qed.
Lemma remove_first_in a l x : In x (remove_first a l) -> In x l.
Proof. induction l as [|y r IH]; cbn [remove_first]; [auto|]. destruct (eqb_bytes a y); [right; assumption|]. intros [<-|I]; [left; reflexivity|right; auto]. Qed.
End Handlers.
