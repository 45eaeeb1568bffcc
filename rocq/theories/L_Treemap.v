(** Lemmas about the table and the chart of balances. *)
From Coq Require Import Permutation Sorted.
From Verif Require Import Base M_Amount S_Amount M_Date M_Names M_Ledger M_Web M_Page M_Views S_Views L_Views M_Ui S_Ui L_Ui M_Columns L_Dec L_Resolve L_Tree L_Entries L_Amount Properties_Ui M_Treemap S_Treemap.
Local Open Scope Z_scope.

(** ** A tree of names *)
Section Tree.
Variable vis : bytes -> list bytes.
Variable par : bytes -> option bytes.
Hypothesis Hp : forall a b, In b (vis a) -> par b = Some a /\ (List.length a < List.length b)%nat.
Hypothesis Hn : forall a, NoDup (vis a).
Lemma beneath_len a b : beneath vis a b -> (List.length a <= List.length b)%nat.
Proof. induction 1 as [|b c _ IH I]; [lia|]. apply Hp in I. lia. Qed.
Lemma beneath_trans a b c : beneath vis a b -> beneath vis b c -> beneath vis a c.
Proof. intros H1 H2. induction H2 as [|c d _ IH I]; [exact H1|]. econstructor; eassumption. Qed.
Lemma beneath_line a b c : beneath vis a c -> beneath vis b c -> beneath vis a b \/ beneath vis b a.
Proof.
  intros H. revert b. induction H as [|c d H IH I]; intros b K; [right; exact K|]. inversion K as [|c' ? K' I']; subst.
  - left. econstructor; eassumption.
  - apply Hp in I as [I _]. apply Hp in I' as [I' _]. rewrite I in I'. injection I' as <-. apply IH, K'.
Qed.
Lemma siblings_apart a b c x : In b (vis a) -> In c (vis a) -> beneath vis b x -> beneath vis c x -> b = c.
Proof.
  assert (G : forall b c, In b (vis a) -> In c (vis a) -> beneath vis b c -> b = c).
  { intros b0 c0 Ib Ic H. inversion H as [|y ? H' I]; subst; [reflexivity|]. exfalso. apply Hp in I as [I _]. apply Hp in Ib as [_ Ib]. apply Hp in Ic as [Ic _]. rewrite I in Ic. injection Ic as ->.
    apply beneath_len in H'. lia. }
  intros Ib Ic H1 H2. destruct (beneath_line _ _ _ H1 H2) as [H|H]; [apply G; assumption|symmetry; apply G; assumption].
Qed.
Lemma rows_list_in bs l : rows_list vis bs l -> forall x, In x l -> exists b, In b bs /\ beneath vis b x.
Proof.
  induction 1 as [|b bs l1 l2 H1 H2 IH]; intros x I; [destruct I|]. apply in_app_or in I as [I|I].
  - exists b. split; [left; reflexivity|]. apply (rows_in _ _ _ H1 x I).
  - destruct (IH x I) as (y & I1 & I2). exists y. split; [right; exact I1|exact I2].
Qed.
Lemma rows_nodup : forall a l, rows_of vis a l -> NoDup l.
Proof.
  intros a l H. induction H as [a l H IH| |b bs l1 l2 H1 IH1 H2 IH2] using rows_of_mind with
    (P0 := fun bs l _ => NoDup bs -> (exists a, forall b, In b bs -> In b (vis a)) -> NoDup l).
  - constructor; [|apply IH; [apply Hn|eauto]]. intros I. destruct (rows_list_in _ _ H a I) as (b & Ib & Hb). apply beneath_len in Hb. apply Hp in Ib. lia.
  - constructor.
  - intros N (a & Ha). inversion N as [|? ? N1 N2]; subst. apply NoDup_app_iff. split; [exact IH1|]. split; [apply IH2; [exact N2|exists a; intros; apply Ha; right; assumption]|].
    intros x I1 I2. destruct (rows_list_in _ _ H2 x I2) as (c & Ic & Hc). assert (b = c) by (apply (siblings_apart a b c x); [apply Ha; left; reflexivity|apply Ha; right; exact Ic|apply (rows_in _ _ _ H1 x I1)|exact Hc]).
    subst c. contradiction.
Qed.
Lemma rows_list_nodup bs l : rows_list vis bs l -> NoDup bs -> (exists a, forall b, In b bs -> In b (vis a)) -> NoDup l.
Proof.
  induction 1 as [|b bs l1 l2 H1 H2 IH]; intros N (a & Ha); [constructor|]. inversion N as [|? ? N1 N2]; subst. apply NoDup_app_iff. split; [apply (rows_nodup _ _ H1)|].
  split; [apply IH; [exact N2|exists a; intros; apply Ha; right; assumption]|].
  intros x I1 I2. destruct (rows_list_in _ _ H2 x I2) as (c & Ic & Hc). assert (b = c) by (apply (siblings_apart a b c x); [apply Ha; left; reflexivity|apply Ha; right; exact Ic|apply (rows_in _ _ _ H1 x I1)|exact Hc]).
  subst c. contradiction.
Qed.
Lemma rows_only : forall a l, rows_of vis a l -> forall l', rows_of vis a l' -> l' = l.
Proof.
  intros a l H. induction H as [a l H IH| |b bs l1 l2 H1 IH1 H2 IH2] using rows_of_mind with (P0 := fun bs l _ => forall l', rows_list vis bs l' -> l' = l).
  - intros l' R. inversion R as [a' l0 R0]; subst. f_equal. apply IH, R0.
  - intros l' R. inversion R. reflexivity.
  - intros l' R. inversion R as [|? ? k1 k2 R1 R2]; subst. f_equal; [apply IH1, R1|apply IH2, R2].
Qed.
(** the children of a node among the rows are its children in the tree *)
Definition par_is (x b : bytes) : bool := match par b with Some p => eqb_bytes p x | None => false end.
Lemma par_is_iff x b : par_is x b = true <-> par b = Some x.
Proof. unfold par_is. destruct (par b) as [p|]; [rewrite eqb_bytes_eq; split; congruence|]. split; discriminate. Qed.
Lemma children_all x bs : (forall b, In b bs -> In b (vis x)) -> filter (par_is x) bs = bs.
Proof. induction bs as [|b bs IH]; intros H; [reflexivity|]. cbn [filter]. rewrite (proj2 (par_is_iff x b)); [f_equal; apply IH; intros; apply H; right; assumption|]. apply (Hp x b (H b (or_introl eq_refl))). Qed.
Lemma rows_children : forall a l, rows_of vis a l -> forall x,
  (In x l -> filter (par_is x) (tl l) = vis x) /\ (~ In x l -> filter (par_is x) (tl l) = []).
Proof.
  intros a l H. induction H as [a l H IH| |b bs l1 l2 H1 IH1 H2 IH2] using rows_of_mind with
    (P0 := fun bs l _ => NoDup bs -> (exists a, forall b, In b bs -> In b (vis a)) -> forall x,
       (In x l -> filter (par_is x) l = vis x) /\ (~ In x l -> filter (par_is x) l = filter (par_is x) bs)).
  - intros x. cbn [tl]. destruct (IH (Hn a) (ex_intro _ a (fun b I => I)) x) as [K1 K2]. split.
    + intros [<-|I]; [|apply K1, I]. rewrite K2; [apply children_all; auto|].
      intros I. destruct (rows_list_in _ _ H a I) as (b & Ib & Hb). apply beneath_len in Hb. apply Hp in Ib. lia.
    + intros N. rewrite K2 by (intros I; apply N; right; exact I).
      assert (Nx : forall b, In b (vis a) -> par_is x b = false). { intros b I. destruct (par_is x b) eqn:E; [|reflexivity]. apply par_is_iff in E. apply Hp in I as [I _]. rewrite I in E. injection E as <-. exfalso. apply N. left. reflexivity. }
      clear -Nx. induction (vis a) as [|b r IHr]; [reflexivity|]. cbn [filter]. rewrite Nx by (left; reflexivity). apply IHr. intros; apply Nx; right; assumption.
  - intros _ _ x. split; [intros []|reflexivity].
  - intros N (a & Ha) x. inversion N as [|? ? N1 N2]; subst. specialize (IH2 N2 (ex_intro _ a (fun c I => Ha c (or_intror I))) x). destruct IH2 as [K1 K2]. specialize (IH1 x).
    assert (Nd : NoDup (l1 ++ l2)) by (apply (rows_list_nodup (b :: bs) (l1 ++ l2)); [constructor; assumption|exact N|exists a; exact Ha]).
    apply NoDup_app_iff in Nd as (_ & _ & Dj). rewrite filter_app.
    assert (Eb : exists r, l1 = b :: r) by (inversion H1; eauto). destruct Eb as [r ->]. cbn [tl] in IH1. cbn [filter].
    assert (Pb : par b = Some a) by (apply (Hp a b), Ha; left; reflexivity).
    assert (La : forall y, In y ((b :: r) ++ l2) -> (List.length a < List.length y)%nat).
    { intros y I. apply in_app_or in I as [I|I]; [apply (rows_in _ _ _ H1) in I|destruct (rows_list_in _ _ H2 y I) as (c & Ic & Hc)].
      - apply beneath_len in I. pose proof (proj2 (Hp a b (Ha b (or_introl eq_refl)))). lia.
      - apply beneath_len in Hc. pose proof (proj2 (Hp a c (Ha c (or_intror Ic)))). lia. }
    assert (Xa : par_is x b = true -> x = a) by (intros E; apply par_is_iff in E; congruence).
    assert (Fb : forall cs, (forall c, In c cs -> In c (vis a)) -> x <> a -> filter (par_is x) cs = []).
    { induction cs as [|c cs IHc]; intros Hc Nx; [reflexivity|]. cbn [filter]. destruct (par_is x c) eqn:E; [|apply IHc; [intros; apply Hc; right; assumption|exact Nx]].
      apply par_is_iff in E. pose proof (proj1 (Hp a c (Hc c (or_introl eq_refl)))) as P. rewrite E in P. congruence. }
    assert (Nin : In x ((b :: r) ++ l2) -> x <> a) by (intros I E; specialize (La x I); subst; lia).
    destruct (in_dec (list_eq_dec Ascii.ascii_dec) x (b :: r)) as [I1|I1].
    + assert (Nx : x <> a) by (apply Nin, in_or_app; left; exact I1). split; [|intros C; exfalso; apply C, in_or_app; left; exact I1]. intros _.
      destruct (par_is x b) eqn:E; [exfalso; apply Nx, Xa; reflexivity|]. rewrite (proj1 IH1 I1), K2; [rewrite Fb; [apply app_nil_r|intros; apply Ha; right; assumption|exact Nx]|].
      intros I2. apply (Dj x I1 I2).
    + destruct (in_dec (list_eq_dec Ascii.ascii_dec) x l2) as [I2|I2].
      * assert (Nx : x <> a) by (apply Nin, in_or_app; right; exact I2). split; [|intros C; exfalso; apply C, in_or_app; right; exact I2]. intros _.
        destruct (par_is x b) eqn:E; [exfalso; apply Nx, Xa; reflexivity|]. rewrite (proj2 IH1 I1), (K1 I2). reflexivity.
      * split; [intros C; apply in_app_or in C as [C|C]; contradiction|]. intros _. rewrite (proj2 IH1 I1), (K2 I2). destruct (par_is x b); reflexivity.
Qed.
End Tree.

(** ** Levels *)
Section Levels.
Variable vis : bytes -> list bytes.
Variable par : bytes -> option bytes.
Hypothesis Hp : forall a b, In b (vis a) -> par b = Some a /\ (List.length a < List.length b)%nat.
Hypothesis Hn : forall a, NoDup (vis a).
Variable sel : bytes.
Definition lev (b : bytes) (n : nat) : Prop := level (fun x y => In y (vis x)) sel b n.
Lemma lev_len b n : lev b n -> (List.length sel + n <= List.length b)%nat.
Proof. induction 1 as [|b c n _ IH I]; [lia|]. apply Hp in I. lia. Qed.
Lemma lev_unique b n : lev b n -> forall m, lev b m -> n = m.
Proof.
  induction 1 as [|b c n H IH I]; intros m K; inversion K as [|b' c' m' K' I']; subst.
  - reflexivity.
  - apply lev_len in K'. apply Hp in I'. lia.
  - apply lev_len in H. apply Hp in I. lia.
  - f_equal. apply IH. apply Hp in I as [I _]. apply Hp in I' as [I' _]. rewrite I in I'. injection I' as <-. exact K'.
Qed.
Lemma lev_beneath b : beneath vis sel b <-> exists n, lev b n.
Proof.
  split.
  - induction 1 as [|b c _ [n IH] I]; [exists 0%nat; constructor|]. exists (S n). econstructor; eassumption.
  - intros [n H]. induction H; [constructor|]. econstructor; eassumption.
Qed.

Variable A : Type.
Variable id : A -> bytes.
Variable pid : A -> option bytes.
Variable r0 : A.
Variable rest : list A.
Notation l := (r0 :: rest).
Hypothesis Hrows : rows_of vis sel (map id l).
Hypothesis Hroot : pid r0 = None.
Hypothesis Hpid : forall x, In x rest -> pid x = par (id x).
Variable D : nat.
Hypothesis HD : forall x, In x l -> (List.length (id x) < D)%nat.
Lemma id_sel : id r0 = sel. Proof. cbn [map] in Hrows. inversion Hrows. reflexivity. Qed.
Lemma ids_nodup : NoDup (map id l). Proof. exact (rows_nodup vis par Hp Hn _ _ Hrows). Qed.
Lemma id_inj x y : In x l -> In y l -> id x = id y -> x = y.
Proof.
  pose proof ids_nodup as N. revert N. generalize l. clear. intros k. induction k as [|z k IH]; intros N Ix Iy E; [destruct Ix|]. cbn [map] in N. inversion N as [|? ? N1 N2]; subst.
  destruct Ix as [->|Ix], Iy as [->|Iy]; [reflexivity| | |apply IH; assumption]; exfalso; apply N1; [rewrite E|rewrite <- E]; apply in_map; assumption.
Qed.
Lemma in_ids b : In b (map id l) <-> exists n, lev b n.
Proof. rewrite <- lev_beneath. split; [apply (rows_in _ _ _ Hrows)|apply (rows_below _ _ _ Hrows)]. Qed.
Lemma rest_sel x : In x rest -> id x <> sel.
Proof. intros I E. pose proof ids_nodup as N. cbn [map] in N. apply NoDup_cons_iff in N as [N1 _]. apply N1. rewrite id_sel, <- E. apply in_map, I. Qed.
Lemma map_filter {X Y} (f : X -> Y) (g : X -> bool) (h : Y -> bool) k : (forall x, In x k -> g x = h (f x)) -> map f (filter g k) = filter h (map f k).
Proof. induction k as [|x k IH]; intros H; [reflexivity|]. cbn [filter map]. rewrite (H x (or_introl eq_refl)). rewrite <- IH by (intros; apply H; right; assumption). destruct (h (f x)); reflexivity. Qed.
Lemma children_ids x : In x l -> map id (node_children id pid l x) = vis (id x).
Proof.
  intros I. unfold node_children. cbn [filter]. unfold has_parent at 1. rewrite Hroot. rewrite (map_filter id _ (par_is par (id x))).
  - apply (rows_children vis par Hp Hn sel _ Hrows (id x)). apply in_map, I.
  - intros y Iy. unfold has_parent, par_is. rewrite (Hpid y Iy). reflexivity.
Qed.
Lemma children_in x y : In y (node_children id pid l x) -> In y l.
Proof. unfold node_children. rewrite filter_In. tauto. Qed.
Lemma visit_rows : forall f x, In x l -> (D <= f + List.length (id x))%nat -> rows_of vis (id x) (map id (visit id pid f l x)).
Proof.
  induction f as [|f IH]; intros x I Hf; [specialize (HD x I); lia|]. cbn [visit map]. constructor. rewrite <- (children_ids x I).
  assert (C : forall y, In y (node_children id pid l x) -> rows_of vis (id y) (map id (visit id pid f l y))).
  { intros y Iy. apply IH; [apply (children_in _ _ Iy)|]. assert (Iv : In (id y) (vis (id x))) by (rewrite <- (children_ids x I); apply in_map, Iy). apply Hp in Iv. lia. }
  clear -C. induction (node_children id pid l x) as [|y ys IHy]; cbn [map flat_map]; [constructor|]. rewrite map_app. constructor; [apply C; left; reflexivity|]. apply IHy. intros; apply C; right; assumption.
Qed.
Lemma one_id (k : list A) b : NoDup (map id k) -> In b (map id k) -> List.length (filter (has_id id b) k) = 1%nat.
Proof.
  induction k as [|x k IH]; intros N I; [destruct I|]. cbn [map] in N, I. inversion N as [|? ? N1 N2]; subst. cbn [filter]. unfold has_id at 1. destruct (eqb_bytes b (id x)) eqn:E.
  - apply eqb_bytes_eq in E. subst b. cbn [List.length]. f_equal. clear -N1. induction k as [|y k IH]; [reflexivity|]. cbn [filter]. unfold has_id at 1. destruct (eqb_bytes (id x) (id y)) eqn:E.
    + apply eqb_bytes_eq in E. exfalso. apply N1. left. congruence.
    + apply IH. intros I. apply N1. right. exact I.
  - destruct I as [I|I]; [|apply IH; assumption]. exfalso. subst b. rewrite eqb_bytes_refl in E. discriminate.
Qed.
Lemma parent_there x : In x rest -> exists p, pid x = Some p /\ In p (map id l).
Proof.
  intros I. assert (J : In (id x) (map id l)) by (apply in_map; right; exact I). apply in_ids in J as [n J]. inversion J as [E|b c m H K]; subst.
  - exfalso. apply (rest_sel x I). symmetry. assumption.
  - exists b. rewrite (Hpid x I). split; [apply (Hp b _ K)|]. apply in_ids. eauto.
Qed.
Lemma stratify_ok f : (D <= f)%nat -> stratify id pid f l = Ok r0.
Proof.
  intros Hf. unfold stratify.
  match goal with |- (if ?b then _ else _) = _ => assert (E : b = true) end.
  { apply forallb_forall. intros x [<-|I]; [rewrite Hroot; reflexivity|]. destruct (parent_there x I) as (p & -> & J). apply Nat.eqb_eq. apply one_id; [apply ids_nodup|exact J]. }
  rewrite E. clear E. cbn [filter]. rewrite Hroot.
  assert (E : filter (fun x => match pid x with None => true | Some _ => false end) rest = []).
  { assert (K : forall x, In x rest -> exists p, pid x = Some p) by (intros x I; destruct (parent_there x I) as (p & P & _); eauto). clear -K. induction rest as [|x k IH]; [reflexivity|]. cbn [filter]. destruct (K x (or_introl eq_refl)) as [p ->]. apply IH. intros; apply K; right; assumption. }
  rewrite E. assert (V := visit_rows f r0 (or_introl eq_refl) ltac:(lia)). rewrite id_sel in V. apply (rows_only vis _ _ Hrows) in V.
  apply (f_equal (@List.length _)) in V. rewrite !map_length in V. rewrite (proj2 (Nat.eqb_eq _ _) V). reflexivity.
Qed.
Lemma value_visit (size : A -> Z) : forall f x, node_value id pid f l size x = zsum (map size (visit id pid f l x)).
Proof.
  induction f as [|f IH]; intros x; [reflexivity|]. cbn [node_value visit map]. change (zsum (size x :: map size (flat_map (visit id pid f l) (node_children id pid l x)))) with (size x + zsum (map size (flat_map (visit id pid f l) (node_children id pid l x)))).
  f_equal. induction (node_children id pid l x) as [|y ys IHy]; [reflexivity|]. cbn [map fold_right flat_map]. rewrite map_app, zsum_app, IHy, IH. reflexivity.
Qed.
(** the first [m] levels *)
Lemma sorted_app {X} (R : X -> X -> Prop) a b : StronglySorted R a -> StronglySorted R b -> (forall x y, In x a -> In y b -> R x y) -> StronglySorted R (a ++ b).
Proof.
  induction a as [|x a IH]; intros Ha Hb H; [exact Hb|]. inversion Ha as [|? ? Ha1 Ha2]; subst. cbn [app]. constructor; [apply IH; [exact Ha1|exact Hb|intros; apply H; [right|]; assumption]|].
  apply Forall_app. split; [exact Ha2|]. apply Forall_forall. intros y I. apply H; [left; reflexivity|exact I].
Qed.
Definition below_level (x y : bytes) : Prop := forall n m, lev x n -> lev y m -> (n <= m)%nat.
Lemma levels_spec : forall m f cur n, (D <= f + n)%nat -> (forall x, In x cur <-> In x l /\ lev (id x) n) -> NoDup (map id cur) ->
  let k := concat (firstn m (levels id pid f l cur)) in
  (forall x, In x k <-> In x l /\ exists j, (j < m)%nat /\ lev (id x) (n + j)) /\ NoDup (map id k) /\ StronglySorted below_level (map id k).
Proof.
  induction m as [|m IH]; intros f cur n Hf Hc Nc.
  - cbv zeta. cbn [firstn concat map]. split; [|split; constructor]. intros x. split; [intros []|]. intros (_ & j & Hj & _). lia.
  - cbv zeta. destruct cur as [|c0 cur0].
    + assert (E : levels id pid f l [] = []) by (destruct f; reflexivity). rewrite E. cbn [firstn concat map]. split; [|split; constructor]. intros x. split; [intros []|]. intros (Ix & j & _ & Hj). exfalso.
      assert (G : exists y, In y l /\ lev (id y) n).
      { clear -Hj Ix Hp Hn Hrows. revert x Ix Hj. induction j as [|j IH]; intros x Ix Hj; [rewrite Nat.add_0_r in Hj; eauto|]. rewrite Nat.add_succ_r in Hj. inversion Hj as [|b c k K I]; subst.
        assert (J : In b (map id l)) by (apply in_ids; eauto). apply in_map_iff in J as (y & <- & Iy). apply (IH y Iy K). }
      destruct G as (y & G). apply (Hc y), G.
    + set (cur := c0 :: cur0) in *.
      destruct f as [|f].
      { exfalso. destruct (proj1 (Hc c0) (or_introl eq_refl)) as [I L]. specialize (HD c0 I). apply lev_len in L. lia. }
      change (levels id pid (S f) l cur) with (cur :: levels id pid f l (flat_map (node_children id pid l) cur)). cbn [firstn concat].
      assert (Hc' : forall x, In x (flat_map (node_children id pid l) cur) <-> In x l /\ lev (id x) (S n)).
      { intros x. rewrite in_flat_map. split.
        - intros (y & Iy & Ix). apply Hc in Iy as [Iy Ly]. split; [apply (children_in _ _ Ix)|]. econstructor; [exact Ly|]. cbv beta. rewrite <- (children_ids y Iy). apply in_map, Ix.
        - intros (Ix & Lx). inversion Lx as [|b c k K I]; subst. assert (J : In b (map id l)) by (apply in_ids; eauto). apply in_map_iff in J as (y & <- & Iy). exists y. split; [apply Hc; split; assumption|].
          rewrite <- (children_ids y Iy) in I. apply in_map_iff in I as (z & Ez & Iz). rewrite <- (id_inj z x (children_in _ _ Iz) Ix Ez). exact Iz. }
      assert (Nc' : NoDup (map id (flat_map (node_children id pid l) cur))).
      { assert (Il : forall y, In y cur -> In y l) by (intros y Iy; apply Hc in Iy; apply Iy). clear -Nc Il Hp Hn Hrows Hroot Hpid. induction cur as [|y ys IHy]; [constructor|]. cbn [map flat_map] in *. inversion Nc as [|? ? N1 N2]; subst. rewrite map_app.
        apply NoDup_app_iff. split; [rewrite children_ids by (apply Il; left; reflexivity); apply Hn|]. split; [apply IHy; [exact N2|intros; apply Il; right; assumption]|].
        intros b I1 I2. rewrite children_ids in I1 by (apply Il; left; reflexivity). apply in_map_iff in I2 as (z & <- & I2). apply in_flat_map in I2 as (w & Iw & Iz).
        assert (I3 : In (id z) (vis (id w))) by (rewrite <- (children_ids w) by (apply Il; right; exact Iw); apply in_map, Iz). apply Hp in I1 as [I1 _]. apply Hp in I3 as [I3 _]. rewrite I1 in I3. injection I3 as E. apply N1. rewrite E. apply in_map, Iw. }
      destruct (IH f _ (S n) ltac:(lia) Hc' Nc') as (K1 & K2 & K3). cbv zeta in K1, K2, K3. split; [|split].
      * intros x. rewrite in_app_iff, Hc, K1. split.
        { intros [(I & L)|(I & j & Hj & L)]; (split; [exact I|]); [exists 0%nat; rewrite Nat.add_0_r; split; [lia|exact L]|]. exists (S j). rewrite Nat.add_succ_r. split; [lia|exact L]. }
        { intros (I & [|j] & Hj & L); [left; rewrite Nat.add_0_r in L; auto|]. right. split; [exact I|]. exists j. rewrite Nat.add_succ_r in L. split; [lia|exact L]. }
      * rewrite map_app. apply NoDup_app_iff. split; [exact Nc|]. split; [exact K2|]. intros b I1 I2. apply in_map_iff in I1 as (x & <- & I1). apply in_map_iff in I2 as (y & E & I2). apply Hc in I1 as [_ L1]. apply K1 in I2 as (_ & j & _ & L2). rewrite E in L2. pose proof (lev_unique _ _ L1 _ L2). lia.
      * rewrite map_app. apply sorted_app; [|exact K3|].
        { assert (Il : forall y, In y cur -> lev (id y) n) by (intros y Iy; apply Hc in Iy; apply Iy). clear -Il Hp Hn. induction cur as [|y ys IHy]; [constructor|]. cbn [map]. constructor; [apply IHy; intros; apply Il; right; assumption|].
          apply Forall_forall. intros b Ib. apply in_map_iff in Ib as (z & <- & Iz). intros i j Hi Hj. pose proof (lev_unique _ _ (Il y (or_introl eq_refl)) _ Hi). pose proof (lev_unique _ _ (Il z (or_intror Iz)) _ Hj). lia. }
        { intros b c I1 I2 i j Hi Hj. apply in_map_iff in I1 as (x & <- & I1). apply in_map_iff in I2 as (y & <- & I2). apply Hc in I1 as [_ L1]. apply K1 in I2 as (_ & h & _ & L2). pose proof (lev_unique _ _ L1 _ Hi). pose proof (lev_unique _ _ L2 _ Hj). lia. }
Qed.
End Levels.
