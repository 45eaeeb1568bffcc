(** Lemmas: the search for a conversion. *)
From Coq Require Import Permutation Sorted.
From Verif Require Import Base M_Amount L_Amount L_Load M_Web S_Web.
Local Open Scope nat_scope.

Section Search.
Variable D : commodity -> list commodity.
Variables from to : commodity.
Hypothesis Hft : from <> to.

Lemma cmem_in c l : cmem c l = true <-> In c l.
Proof.
  unfold cmem. rewrite existsb_exists. split.
  - intros (x & I & E). apply eq_commodity_eq in E. subst. exact I.
  - intros I. exists c. split; [exact I|apply eq_commodity_refl].
Qed.
Lemma way_to_in c l w : way_to c l = Some w -> In (c, w) l.
Proof.
  induction l as [|[c' w'] l IH]; cbn [way_to]; [discriminate|]. destruct (eq_commodity c c') eqn:E.
  - apply eq_commodity_eq in E. intros H. injection H as <-. subst. left. reflexivity.
  - intros H. right. auto.
Qed.
Lemma in_way_to c l w : NoDup (map fst l) -> In (c, w) l -> way_to c l = Some w.
Proof.
  induction l as [|[c' w'] l IH]; cbn [way_to map fst]; intros N I; [destruct I|]. inversion N; subst. destruct I as [E|I].
  - injection E as -> ->. rewrite eq_commodity_refl. reflexivity.
  - destruct (eq_commodity c c') eqn:E; [|auto]. apply eq_commodity_eq in E. subst c'. elim H1. apply (in_map fst) in I. exact I.
Qed.

(** the search uses the direct conversions only *)
Definition is_direct (W : ways) (c : commodity) : bool := match way_to to (W c) with Some w => steps w =? 1 | None => false end.
Lemma remembers_direct W c : remembers D W -> is_direct W c = cmem to (D c).
Proof.
  intros R. destruct (R c) as (E & N & _). unfold is_direct. destruct (cmem to (D c)) eqn:M.
  - apply cmem_in in M. rewrite <- E in M. apply in_map_iff in M as ([t w] & Et & I). cbn [fst] in Et. subst t. apply filter_In in I as [I Dr].
    rewrite (in_way_to _ _ _ N I). exact Dr.
  - destruct (way_to to (W c)) as [w|] eqn:Ew; [|reflexivity]. destruct (steps w =? 1) eqn:S1; [|reflexivity].
    apply way_to_in in Ew. assert (In to (D c)). { rewrite <- E. apply (in_map fst _ (to, w)). apply filter_In. auto. }
    apply cmem_in in H. congruence.
Qed.
Fixpoint push (path : list commodity) (l : list commodity) (queue : list (list commodity)) (visited : list commodity) :=
  match l with
  | [] => (queue, visited)
  | c2 :: r => if cmem c2 visited then push path r queue visited else push path r (queue ++ [c2 :: path]) (visited ++ [c2])
  end.
Lemma push_next_direct path l : Forall (fun e => 1 <= steps (snd e)) l -> forall q v,
  push_next path l q v = push path (map fst (filter direct l)) q v.
Proof.
  induction 1 as [|[c w] l H Hl IH]; intros q v; [reflexivity|]. cbn [push_next filter snd] in *. unfold direct at 1. cbn [snd].
  destruct (1 <? steps w) eqn:E1; cbn [orb].
  - replace (steps w =? 1) with false by lia. apply IH.
  - replace (steps w =? 1) with true by lia. cbn [map fst push]. destruct (cmem c v); apply IH.
Qed.
Fixpoint search (fuel : nat) (queue : list (list commodity)) (visited : list commodity) : option (list commodity) :=
  match fuel with
  | O => None
  | S f => match queue with
    | [] => None
    | [] :: _ => None
    | ((c :: _) as path) :: queue =>
        if cmem to (D c) then Some (to :: path) else let '(queue, visited) := push path (D c) queue visited in search f queue visited
    end
  end.
Lemma bfs_search W : remembers D W -> forall fuel q v, bfs fuel W to q v = search fuel q v.
Proof.
  intros R. induction fuel as [|f IH]; intros q v; [reflexivity|]. cbn [bfs search]. destruct q as [|[|c p] q]; try reflexivity.
  pose proof (remembers_direct W c R) as E. unfold is_direct in E. destruct (R c) as (E1 & _ & F).
  assert (P : push_next (c :: p) (W c) q v = push (c :: p) (D c) q v).
  { rewrite push_next_direct, E1; [reflexivity|]. revert F. apply Forall_impl. tauto. }
  rewrite <- E. destruct (way_to to (W c)) as [w|].
  - destruct (steps w =? 1); [reflexivity|]. rewrite P. destruct (push _ _ _ _). apply IH.
  - rewrite P. destruct (push _ _ _ _). apply IH.
Qed.

(** ** the search *)
(** [fin] are the paths taken from the queue so far *)
Definition head (p : list commodity) : commodity := match p with c :: _ => c | [] => from end.
Definition path_ok (p : list commodity) : Prop := p <> [] /\ (exists r, rev p = from :: r) /\ linked D (rev p).
Record inv (fin queue : list (list commodity)) (visited : list commodity) : Prop := {
  i_paths : Forall path_ok (fin ++ queue);
  i_vis : visited = map head (fin ++ queue);
  i_nodup : NoDup visited;
  i_order : StronglySorted (fun p q => List.length p <= List.length q) (fin ++ queue);
  i_near : forall p f r, queue = f :: r -> In p (fin ++ queue) -> List.length p <= S (List.length f);
  i_tails : forall p x, In p (fin ++ queue) -> In x (tl p) -> In x (map head fin);
  i_fin : forall p, In p fin -> ~ In to (D (head p)) /\
            forall c, In c (D (head p)) -> exists q, In q (fin ++ queue) /\ head q = c /\ List.length q <= S (List.length p) }.

Lemma linked_snoc l a b : linked D (l ++ [a]) -> In b (D a) -> linked D (l ++ [a; b]).
Proof.
  induction l as [|x l IH]; intros H I; [cbn; auto|]. destruct l as [|y l]; cbn [app linked] in *.
  - destruct H as [H _]. auto.
  - destruct H as [H1 H2]. split; [exact H1|]. apply IH; auto.
Qed.
Lemma path_ok_cons c p : path_ok p -> In c (D (head p)) -> path_ok (c :: p).
Proof.
  intros (N & (r & E) & L) I. split; [discriminate|]. cbn [rev]. split; [exists (r ++ [c]); rewrite E; reflexivity|].
  destruct p as [|a p]; [congruence|]. cbn [rev head] in *. rewrite <- app_assoc. cbn [app]. apply linked_snoc; auto.
Qed.

(** the loop over the commodities a commodity has prices in *)
Lemma push_spec p l : forall q v q' v', push p l q v = (q', v') ->
  exists new, q' = q ++ map (fun c => c :: p) new /\ v' = v ++ new /\ (forall c, In c new -> In c l) /\
    (NoDup v -> NoDup v') /\ (forall c, In c l -> In c v').
Proof.
  induction l as [|c l IH]; intros q v q' v' E; cbn [push] in E.
  - injection E as <- <-. exists []. cbn [map app]. rewrite !app_nil_r. repeat split; auto; contradiction.
  - destruct (cmem c v) eqn:M.
    + apply IH in E as (new & E1 & E2 & E3 & E4 & E5). exists new. split; [exact E1|split; [exact E2|split; [|split]]].
      * intros x I; right; apply E3; auto.
      * exact E4.
      * intros x [<-|I]; [|auto]. apply cmem_in in M. rewrite E2. apply in_or_app. auto.
    + apply IH in E as (new & E1 & E2 & E3 & E4 & E5). exists (c :: new). cbn [map]. rewrite E1, E2, <- !app_assoc. cbn [app].
      assert (NC : ~ In c v) by (intros I; apply cmem_in in I; congruence).
      split; [reflexivity|split; [reflexivity|split; [|split]]].
      * intros x [<-|I]; [left; reflexivity|right; apply E3, I].
      * intros N. rewrite E2, <- app_assoc in E4. apply E4. apply NoDup_app_intro; [exact N|repeat constructor; intros []|]. intros x I [<-|[]]. auto.
      * intros x [<-|I]; [apply in_or_app; right; left; reflexivity|]. apply E5 in I. rewrite E2, <- app_assoc in I. exact I.
Qed.

Lemma sorted_app {A} (R : A -> A -> Prop) l1 l2 : StronglySorted R l1 -> StronglySorted R l2 -> (forall x y, In x l1 -> In y l2 -> R x y) ->
  StronglySorted R (l1 ++ l2).
Proof.
  induction l1 as [|a l1 IH]; intros S1 S2 H; [exact S2|]. inversion S1; subst. cbn [app]. constructor.
  - apply IH; auto. intros; apply H; [right|]; auto.
  - apply Forall_app. split; [assumption|]. apply Forall_forall. intros y I. apply H; [left; reflexivity|exact I].
Qed.
Lemma sorted_split {A} (R : A -> A -> Prop) l1 l2 : StronglySorted R (l1 ++ l2) -> forall x y, In x l1 -> In y l2 -> R x y.
Proof.
  induction l1 as [|a l1 IH]; intros S x y I J; [destruct I|]. cbn [app] in S. inversion S; subst. destruct I as [<-|I]; [|eapply IH; eauto].
  rewrite Forall_forall in H2. apply H2. apply in_or_app. auto.
Qed.
Lemma inv_step fin c p queue v q' v' : inv fin ((c :: p) :: queue) v -> ~ In to (D c) -> push (c :: p) (D c) queue v = (q', v') ->
  inv (fin ++ [c :: p]) q' v' /\ (List.length v' + List.length queue = List.length v + List.length q').
Proof.
  intros [P V N O R T F] NT E. apply push_spec in E as (new & -> & -> & E3 & E4 & E5).
  assert (EA : (fin ++ [c :: p]) ++ queue ++ map (fun x => x :: c :: p) new = (fin ++ (c :: p) :: queue) ++ map (fun x => x :: c :: p) new)
    by (rewrite <- !app_assoc; reflexivity).
  assert (Hp : path_ok (c :: p)) by (rewrite Forall_forall in P; apply P, in_or_app; right; left; reflexivity).
  assert (L1 : forall x, In x (fin ++ (c :: p) :: queue) -> List.length x <= S (List.length (c :: p))) by (intros x I; eapply R; [reflexivity|exact I]).
  assert (VE : v ++ new = map head ((fin ++ (c :: p) :: queue) ++ map (fun x => x :: c :: p) new)).
  { rewrite map_app, <- V. f_equal. rewrite map_map. cbn [head]. symmetry. apply map_id. }
  split.
  - constructor.
    + rewrite EA. apply Forall_app. split; [exact P|]. apply Forall_forall. intros x I. apply in_map_iff in I as (y & <- & I). apply path_ok_cons; [exact Hp|]. apply E3, I.
    + rewrite EA. exact VE.
    + apply E4, N.
    + rewrite EA. apply sorted_app; [exact O| |].
      * clear. induction new; cbn [map]; constructor; auto. apply Forall_forall. intros x I. apply in_map_iff in I as (y & <- & _). cbn. lia.
      * intros x y I J. apply in_map_iff in J as (z & <- & _). apply L1 in I. cbn [List.length] in *. lia.
    + intros x f r Ef I. rewrite EA in I. assert (Lf : List.length (c :: p) <= List.length f).
      { destruct queue as [|g queue]; cbn [app] in Ef.
        - destruct new as [|y new]; cbn [map] in Ef; [discriminate|]. injection Ef as <- _. cbn [List.length]. lia.
        - injection Ef as <- _. replace (fin ++ (c :: p) :: g :: queue) with ((fin ++ [c :: p]) ++ g :: queue) in O by (rewrite <- app_assoc; reflexivity).
          apply (sorted_split _ _ _ O); [apply in_or_app; right; left; reflexivity|left; reflexivity]. }
      apply in_app_or in I as [I|I]; [apply L1 in I; cbn [List.length] in *; lia|]. apply in_map_iff in I as (y & <- & _). cbn [List.length] in *. lia.
    + intros x y I J. rewrite EA in I. rewrite map_app. apply in_or_app. apply in_app_or in I as [I|I]; [left; eapply T; eauto|].
      apply in_map_iff in I as (z & <- & _). cbn [tl] in J. destruct J as [<-|J]; [right; left; reflexivity|]. left. apply (T (c :: p) y); [apply in_or_app; right; left; reflexivity|exact J].
    + intros x I. rewrite EA. apply in_app_or in I as [I|[<-|[]]].
      * destruct (F x I) as [F1 F2]. split; [exact F1|]. intros y J. destruct (F2 y J) as (q & Q1 & Q2). exists q. split; [apply in_or_app; left; exact Q1|exact Q2].
      * split; [exact NT|]. intros y J. cbn [head] in J. apply E5 in J. rewrite VE in J. apply in_map_iff in J as (q & <- & I). exists q. split; [exact I|split; [reflexivity|]].
        apply in_app_or in I as [I|I]; [apply L1, I|]. apply in_map_iff in I as (z & <- & _). cbn [List.length]. lia.
  - rewrite !app_length, map_length. lia.
Qed.

(** any chain that starts at [from] leaves what is finished through the queue *)
Lemma frontier fin queue v : inv fin queue v -> forall m p x, In p fin -> linked D (head p :: m ++ [x]) ->
  (exists q, In q fin /\ head q = x /\ List.length q <= List.length p + S (List.length m)) \/
  (exists q, In q queue /\ List.length q <= List.length p + S (List.length m)).
Proof.
  intros I m. induction m as [|y m IH]; intros p x Hp L; cbn [app linked] in L.
  - destruct L as [L _]. destruct (i_fin _ _ _ I p Hp) as [_ F]. destruct (F x L) as (q & Q1 & Q2 & Q3). apply in_app_or in Q1 as [Q1|Q1]; [left|right]; exists q; cbn [List.length]; repeat split; auto; lia.
  - destruct L as [L1 L2]. destruct (i_fin _ _ _ I p Hp) as [_ F]. destruct (F y L1) as (q & Q1 & Q2 & Q3). subst y. apply in_app_or in Q1 as [Q1|Q1].
    + destruct (IH q x Q1 L2) as [(z & Z1 & Z2 & Z3)|(z & Z1 & Z2)]; [left|right]; exists z; cbn [List.length]; repeat split; auto; lia.
    + right. exists q. split; [exact Q1|]. cbn [List.length]. lia.
Qed.

(** a chain to [to] cannot lie within what is finished *)
Lemma chain_frontier fin queue v p m : inv fin queue v -> In p fin -> linked D (head p :: m ++ [to]) ->
  exists q, In q queue /\ List.length q <= List.length p + List.length m.
Proof.
  intros I Hp L. destruct m as [|y m] using rev_ind.
  - cbn [app linked] in L. destruct (i_fin _ _ _ I p Hp) as [F _]. tauto.
  - clear IHm. rewrite <- app_assoc in L. cbn [app] in L.
    assert (L1 : linked D (head p :: m ++ [y]) /\ In to (D y)).
    { clear -L. revert L. generalize (head p). induction m as [|z m IH]; intros a L; cbn [app linked] in *; [tauto|]. destruct L as [L1 L2]. apply IH in L2. tauto. }
    destruct L1 as [L1 L2]. rewrite app_length. cbn [List.length].
    destruct (frontier _ _ _ I m p y Hp L1) as [(q & Q1 & Q2 & _)|(q & Q1 & Q2)].
    + destruct (i_fin _ _ _ I q Q1) as [F _]. rewrite Q2 in F. tauto.
    + exists q. split; [exact Q1|lia].
Qed.

Definition started (fin queue : list (list commodity)) : Prop :=
  fin = [] /\ queue = [[from]] \/ exists p, In p fin /\ head p = from /\ List.length p = 1.
Lemma search_spec (U : list commodity) : (forall c x, In x (D c) -> In x U) -> In from U ->
  forall fuel fin queue v, inv fin queue v -> started fin queue -> List.length U + List.length queue < fuel + List.length v ->
  match search fuel queue v with
  | Some w => exists c p, w = to :: c :: p /\ path_ok (c :: p) /\ In to (D c) /\
      (forall m, linked D (from :: m ++ [to]) -> List.length w <= S (S (List.length m))) /\ (forall x, In x p -> ~ In to (D x))
  | None => forall m, ~ linked D (from :: m ++ [to])
  end.
Proof.
  intros HU Hf. induction fuel as [|fuel IH]; intros fin queue v I St Fu.
  - exfalso. assert (LV : List.length v <= List.length U).
    { apply NoDup_incl_length; [apply (i_nodup _ _ _ I)|]. intros x J. rewrite (i_vis _ _ _ I) in J. apply in_map_iff in J as (p & <- & J).
      pose proof (i_paths _ _ _ I) as P. rewrite Forall_forall in P. destruct (P p J) as (N & (r & Er) & L). destruct p as [|c p]; [congruence|]. cbn [head].
      cbn [rev] in L, Er. destruct (rev p) as [|a l] eqn:EP using rev_ind.
      - cbn [app] in Er. injection Er as -> _. exact Hf.
      - clear IHl. clear Er EP. apply (HU a). revert L. clear. induction l as [|y l IH]; cbn [app linked]; [tauto|]. destruct l; cbn [app linked] in *; tauto. }
    cbn in Fu. lia.
  - cbn [search]. destruct queue as [|[|c p] queue].
    + intros m L. destruct St as [[_ St]|(p & P1 & P2 & P3)]; [discriminate|]. rewrite <- P2 in L. destruct (chain_frontier _ _ _ _ _ I P1 L) as (q & [] & _).
    + exfalso. pose proof (i_paths _ _ _ I) as P. rewrite Forall_forall in P. destruct (P []) as (N & _); [apply in_or_app; right; left; reflexivity|congruence].
    + destruct (cmem to (D c)) eqn:M.
      * apply cmem_in in M. exists c, p. split; [reflexivity|]. split; [|split; [exact M|split]].
        -- pose proof (i_paths _ _ _ I) as P. rewrite Forall_forall in P. apply P, in_or_app. right; left; reflexivity.
        -- intros m L. destruct St as [[-> St]|(p0 & P1 & P2 & P3)].
           ++ injection St as -> -> ->. cbn [List.length]. lia.
           ++ rewrite <- P2 in L. destruct (chain_frontier _ _ _ _ _ I P1 L) as (q & Q1 & Q2). rewrite P3 in Q2.
              assert (List.length (c :: p) <= List.length q).
              { destruct Q1 as [<-|Q1]; [lia|]. pose proof (i_order _ _ _ I) as O. replace (fin ++ (c :: p) :: queue) with ((fin ++ [c :: p]) ++ queue) in O by (rewrite <- app_assoc; reflexivity).
                apply (sorted_split _ _ _ O); [apply in_or_app; right; left; reflexivity|exact Q1]. }
              cbn [List.length] in *. lia.
        -- intros x Hx. assert (Hh : In x (map head fin)) by (apply (i_tails _ _ _ I (c :: p)); [apply in_or_app; right; left; reflexivity|exact Hx]).
           apply in_map_iff in Hh as (q & <- & Q). apply (i_fin _ _ _ I q Q).
      * destruct (push (c :: p) (D c) queue v) as [q' v'] eqn:E.
        assert (NT : ~ In to (D c)) by (intros J; apply cmem_in in J; congruence).
        destruct (inv_step _ _ _ _ _ _ _ I NT E) as [I' Le]. apply (IH _ _ _ I').
        -- right. destruct St as [[-> St]|(p0 & P1 & P2)].
           ++ injection St as -> -> ->. exists [from]. cbn. auto.
           ++ exists p0. split; [apply in_or_app; left; exact P1|exact P2].
        -- cbn [List.length] in Fu. lia.
Qed.
Lemma inv_start : inv [] [[from]] [from].
Proof.
  constructor; cbn [app map head].
  - repeat constructor; try discriminate; eexists; reflexivity.
  - reflexivity.
  - repeat constructor; intros [].
  - repeat constructor.
  - intros p f r E [<-|[]]. injection E as <- _. lia.
  - intros p x [<-|[]] [].
  - intros p [].
Qed.
End Search.

(** ** what is remembered *)
Lemma set_way_fst t w l : forall x, In x (map fst (set_way t w l)) <-> x = t \/ In x (map fst l).
Proof.
  induction l as [|[c' w'] l IH]; intros x; cbn [set_way map fst In]; [intuition|]. destruct (eq_commodity t c') eqn:E; cbn [map fst In].
  - apply eq_commodity_eq in E. subst. intuition.
  - rewrite IH. intuition.
Qed.
Lemma set_way_nodup t w l : NoDup (map fst l) -> NoDup (map fst (set_way t w l)).
Proof.
  induction l as [|[c' w'] l IH]; cbn [set_way map fst]; intros N; [repeat constructor; intros []|]. inversion N; subst.
  destruct (eq_commodity t c') eqn:E; cbn [map fst]; constructor; auto. rewrite set_way_fst. intros [F|F]; [|auto]. subst. rewrite eq_commodity_refl in E. discriminate.
Qed.
Lemma set_way_forall (P : commodity * way -> Prop) t w l : Forall P l -> P (t, w) -> Forall P (set_way t w l).
Proof.
  induction 1 as [|[c' w'] l H Hl IH]; intros Pw; cbn [set_way]; [repeat constructor; auto|]. destruct (eq_commodity t c') eqn:E.
  - apply eq_commodity_eq in E. subst. constructor; auto.
  - constructor; auto.
Qed.
Lemma set_way_direct t w l : steps w <> 1 -> (forall w', In (t, w') l -> steps w' <> 1) ->
  filter direct (set_way t w l) = filter direct l.
Proof.
  intros Hw. induction l as [|[c' w'] l IH]; intros H; cbn [set_way filter].
  - unfold direct. cbn [snd]. replace (steps w =? 1) with false by lia. reflexivity.
  - destruct (eq_commodity t c') eqn:E.
    + apply eq_commodity_eq in E. subst. cbn [filter]. specialize (H w' (or_introl eq_refl)).
      replace (direct (c', w)) with false by (unfold direct; cbn [snd]; lia). replace (direct (c', w')) with false by (unfold direct; cbn [snd]; lia). reflexivity.
    + cbn [filter]. rewrite IH; [reflexivity|]. intros x I. apply H. right. exact I.
Qed.
Lemma linked_tail D a l : linked D (a ++ l) -> linked D l.
Proof. induction a as [|x a IH]; intros H; [exact H|]. apply IH. destruct a; cbn [app linked] in *; [destruct l; [exact I|apply H]|apply H]. Qed.
Lemma upd_remembers D W c t w : remembers D W -> chain D c t w -> 2 <= steps w -> ~ In t (D c) -> remembers D (upd_ways W c t w).
Proof.
  intros R C S2 NT x. unfold upd_ways. destruct (eq_commodity x c) eqn:E; [|apply R]. apply eq_commodity_eq in E. subst x.
  destruct (R c) as (E1 & N & F). split; [|split].
  - rewrite set_way_direct; [exact E1|lia|]. intros w' I S1. apply NT. rewrite <- E1. apply (in_map fst _ (t, w')). apply filter_In. split; [exact I|].
    unfold direct. cbn [snd]. apply Nat.eqb_eq. exact S1.
  - apply set_way_nodup, N.
  - apply set_way_forall; [exact F|]. cbn [fst snd]. split; [exact C|lia].
Qed.
Lemma compose_back_spec D to path : forall W don m a, remembers D W -> don = a :: m ++ [to] -> linked D (rev path ++ don) ->
  (forall x, In x path -> ~ In to (D x)) ->
  fst (compose_back W to don path) = rev path ++ don /\ remembers D (snd (compose_back W to don path)).
Proof.
  induction path as [|c path IH]; intros W don m a R E L NT; cbn [compose_back rev]; [auto|].
  cbn [rev] in L. rewrite <- app_assoc in L |- *. cbn [app] in *. apply (IH _ (c :: don) (a :: m) c).
  - apply upd_remembers; [exact R| | |apply NT; left; reflexivity].
    + exists (a :: m). rewrite E. split; [reflexivity|]. rewrite <- E. apply (linked_tail D (rev path)). exact L.
    + rewrite E. unfold steps. cbn [List.length pred]. rewrite app_length. cbn. lia.
  - rewrite E. reflexivity.
  - exact L.
  - intros x I. apply NT. right. exact I.
Qed.

Theorem find_spec D U W from to fuel : from <> to -> remembers D W -> (forall c x, In x (D c) -> In x U) -> In from U -> List.length U < fuel ->
  remembers D (snd (find_conversion fuel W from to)) /\
  match fst (find_conversion fuel W from to) with
  | Some w => chain D from to w /\ forall w', chain D from to w' -> List.length w <= List.length w'
  | None => forall w, ~ chain D from to w
  end.
Proof.
  intros Hft R HU Hf Fu. unfold find_conversion. rewrite (bfs_search D to W R fuel [[from]] [from]).
  pose proof (search_spec D from to U HU Hf fuel [] [[from]] [from] (inv_start D from to) (or_introl (conj eq_refl eq_refl)) ltac:(cbn; lia)) as S.
  destruct (search D to fuel [[from]] [from]) as [w|].
  - destruct S as (c & p & -> & (N & (r & Er) & L) & I & Sh & NT). cbn [rev] in *.
    destruct (compose_back_spec D to p W [c; to] [] c R eq_refl) as [E1 E2]; [|exact NT|].
    { apply (linked_snoc D (rev p)); auto. }
    destruct (compose_back W to [c; to] p) as [w' W']. cbn [fst snd] in *. split; [exact E2|]. subst w'. split.
    + assert (EQ : rev p ++ [c; to] = (rev p ++ [c]) ++ [to]) by (rewrite <- app_assoc; reflexivity). rewrite EQ. rewrite Er. exists r. split; [reflexivity|].
      change (from :: r) with (from :: r) in *. rewrite <- Er, <- EQ. apply (linked_snoc D (rev p)); auto.
    + intros w' (m & -> & Lw). specialize (Sh m Lw). cbn [List.length] in *. rewrite !app_length, rev_length. cbn [List.length]. lia.
  - cbn [fst snd]. split; [exact R|]. intros w (m & -> & L). exact (S m L).
Qed.
(** earlier searches change nothing *)
Theorem find_history D W W' from to fuel : remembers D W -> remembers D W' ->
  fst (find_conversion fuel W from to) = fst (find_conversion fuel W' from to).
Proof.
  intros R R'. unfold find_conversion. rewrite (bfs_search D to W R), (bfs_search D to W' R').
  destruct (search D to fuel [[from]] [from]) as [[|t [|c p]]|]; try reflexivity.
  assert (G : forall p V V' d, fst (compose_back V to d p) = fst (compose_back V' to d p)).
  { clear. induction p; intros; cbn [compose_back]; auto. }
  specialize (G p W W' [c; t]). destruct (compose_back W to [c; t] p), (compose_back W' to [c; t] p). cbn [fst] in *. congruence.
Qed.
