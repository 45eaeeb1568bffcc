(** Lemmas: registers (find/add/delete), date order. *)
From Coq Require Import Sorted Permutation.
From Verif Require Import Base M_Amount M_Regex M_Parser M_Names M_Ledger S_Books L_Dec L_Sort.

Lemma in_split_l (x : nat) (l : list nat) : In x l -> exists l1 l2, l = l1 ++ x :: l2 /\ ~ In x l1.
Proof.
  induction l as [|y l IH]; intros H; [destruct H|]. destruct (Nat.eq_dec y x) as [->|E].
  - exists [], l. split; [reflexivity|cbn; tauto].
  - destruct H as [->|H]; [tauto|]. destruct (IH H) as (l1 & l2 & -> & N). exists (y :: l1), l2. split; [reflexivity|]. cbn. tauto.
Qed.

Lemma nth_lo {A} (d : A) (lo r : list A) i : (i < List.length lo)%nat -> In (nth i (lo ++ r) d) lo.
Proof. intros H. rewrite app_nth1 by exact H. apply nth_In, H. Qed.
Lemma nth_hi {A} (d : A) (lo r : list A) i : (List.length lo <= i < List.length (lo ++ r))%nat -> In (nth i (lo ++ r) d) r.
Proof. intros H. rewrite app_nth2 by lia. rewrite app_length in H. apply nth_In. lia. Qed.

(** sort.Search over a list split by its test *)
Lemma search_split {A} (f : A -> bool) (d : A) (lo hi : list A) :
  (forall x, In x lo -> f x = false) -> (forall x, In x hi -> f x = true) ->
  search (List.length (lo ++ hi)) (fun i => f (nth i (lo ++ hi) d)) = List.length lo.
Proof.
  intros L U. set (n := List.length (lo ++ hi)). set (g := fun i => f (nth i (lo ++ hi) d)).
  assert (Gl : forall i, (i < List.length lo)%nat -> g i = false) by (intros i Hi; apply L, nth_lo, Hi).
  assert (Gh : forall i, (List.length lo <= i < n)%nat -> g i = true) by (intros i Hi; apply U, nth_hi, Hi).
  assert (Ln : (List.length lo <= n)%nat) by (unfold n; rewrite app_length; lia).
  destruct (search_spec n g) as (R & S1 & S2).
  { intros a b Hab Hb Ha. destruct (Nat.lt_ge_cases a (List.length lo)) as [E|E].
    - rewrite Gl in Ha by exact E. discriminate.
    - apply Gh. lia. }
  destruct (Nat.lt_trichotomy (search n g) (List.length lo)) as [E|[E|E]]; [|exact E|].
  - specialize (S2 (search n g)). rewrite Gl in S2 by exact E. discriminate S2. lia.
  - specialize (S1 _ E). rewrite Gh in S1 by lia. discriminate.
Qed.

Section Reg.
Context (date : nat -> Z).
Implicit Types (l ps : list nat) (p q : nat).

Lemma order_cons p l : in_date_order date (p :: l) <-> in_date_order date l /\ Forall (fun q => date p <= date q) l.
Proof. split; [intros H; inversion H; auto|intros [H1 H2]; constructor; auto]. Qed.
Lemma order_app l l' : in_date_order date (l ++ l') <->
  in_date_order date l /\ in_date_order date l' /\ (forall p q, In p l -> In q l' -> date p <= date q).
Proof.
  induction l as [|x l IH]; cbn [app].
  - split; [intros H; split; [constructor|split; [exact H|cbn; tauto]]|tauto].
  - rewrite !order_cons, IH, Forall_app, !Forall_forall. cbn [In]. split.
    + intros ((H1 & H2 & H3) & H4 & H5). repeat split; auto. intros p q [<-|Hp] Hq; auto.
    + intros ((H1 & H2) & H3 & H4). repeat split; auto.
Qed.
Lemma order_filter (P : nat -> bool) l : in_date_order date l -> in_date_order date (filter P l).
Proof.
  induction l as [|x l IH]; cbn [filter]; [auto|]. rewrite order_cons. intros [H1 H2].
  destruct (P x); [|auto]. rewrite order_cons. split; [auto|]. apply Forall_forall. intros q Hq.
  apply filter_In in Hq. rewrite Forall_forall in H2. apply H2; tauto.
Qed.

Lemma filter_none {A} (P : A -> bool) (l : list A) : (forall x, In x l -> P x = false) -> filter P l = [].
Proof. induction l as [|x l IH]; cbn [filter]; intros H; [reflexivity|]. rewrite (H x) by (left; auto). apply IH; intros; apply H; right; auto. Qed.
Lemma filter_all {A} (P : A -> bool) (l : list A) : (forall x, In x l -> P x = true) -> filter P l = l.
Proof. induction l as [|x l IH]; cbn [filter]; intros H; [reflexivity|]. rewrite (H x) by (left; auto). f_equal. apply IH; intros; apply H; right; auto. Qed.

(** split of a date-ordered list at a date *)
Lemma order_split d ps : in_date_order date ps -> exists lo mid hi, ps = lo ++ mid ++ hi /\
  (forall q, In q lo -> date q < d) /\ (forall q, In q mid -> date q = d) /\ (forall q, In q hi -> d < date q).
Proof.
  induction ps as [|x ps IH]; intros H.
  - exists [], [], []. cbn. repeat split; tauto.
  - apply order_cons in H as [H1 H2]. destruct (IH H1) as (lo & mid & hi & -> & L & M & U). rewrite Forall_forall in H2.
    destruct (Z.lt_trichotomy (date x) d) as [E|[E|E]].
    + exists (x :: lo), mid, hi. split; [reflexivity|split; [|split; assumption]]. intros q [<-|Hq]; auto.
    + destruct lo as [|y lo].
      * exists [], (x :: mid), hi. split; [reflexivity|split; [cbn; tauto|split; [|assumption]]]. intros q [<-|Hq]; auto.
      * exfalso. specialize (L y (or_introl eq_refl)). specialize (H2 y). cbn in H2. lia.
    + destruct lo as [|y lo].
      * destruct mid as [|y mid].
        -- exists [], [], (x :: hi). split; [reflexivity|split; [cbn; tauto|split; [cbn; tauto|]]]. intros q [<-|Hq]; auto.
        -- exfalso. specialize (M y (or_introl eq_refl)). specialize (H2 y). cbn in H2. lia.
      * exfalso. specialize (L y (or_introl eq_refl)). specialize (H2 y). cbn in H2. lia.
Qed.

Lemma scan_hit p : forall m1 r i, (forall q, In q m1 -> date q = date p) -> ~ In p m1 ->
  same_day_scan date p (m1 ++ p :: r) i = ((i + List.length m1)%nat, true).
Proof.
  induction m1 as [|x m1 IH]; intros r i M N; cbn [app same_day_scan List.length].
  - rewrite Z.eqb_refl, Nat.eqb_refl, Nat.add_0_r. reflexivity.
  - rewrite (M x) by (left; auto). rewrite Z.eqb_refl. destruct (Nat.eqb_spec x p) as [->|E]; [exfalso; apply N; left; auto|].
    rewrite IH; [f_equal; lia| |]; intros; auto. apply M; right; auto. intros F; apply N; right; auto.
Qed.
Lemma scan_miss p hi : (forall q, In q hi -> date p < date q) -> forall mid i,
  (forall q, In q mid -> date q = date p) -> ~ In p mid ->
  same_day_scan date p (mid ++ hi) i = ((i + List.length mid)%nat, false).
Proof.
  intros U. induction mid as [|x m1 IH]; intros i M N; cbn [app same_day_scan List.length].
  - rewrite Nat.add_0_r. destruct hi as [|y hi]; cbn [same_day_scan]; [reflexivity|].
    specialize (U y (or_introl eq_refl)). destruct (Z.eqb_spec (date y) (date p)); [lia|reflexivity].
  - rewrite (M x) by (left; auto). rewrite Z.eqb_refl. destruct (Nat.eqb_spec x p) as [->|E]; [exfalso; apply N; left; auto|].
    rewrite IH; [f_equal; lia| |]; intros; auto. apply M; right; auto. intros F; apply N; right; auto.
Qed.

Lemma find_split p lo mid hi :
  (forall q, In q lo -> date q < date p) -> (forall q, In q mid -> date q = date p) -> (forall q, In q hi -> date p < date q) ->
  (forall m1 m2, mid = m1 ++ p :: m2 -> ~ In p m1 -> find_posting date (lo ++ mid ++ hi) p = ((List.length lo + List.length m1)%nat, true)) /\
  (~ In p mid -> find_posting date (lo ++ mid ++ hi) p = ((List.length lo + List.length mid)%nat, false)).
Proof.
  intros L M U.
  assert (S : search (List.length (lo ++ mid ++ hi)) (fun i => date p <=? date (nth i (lo ++ mid ++ hi) O)) = List.length lo).
  { apply (search_split (fun q => date p <=? date q)).
    - intros x Hx. specialize (L x Hx). lia.
    - intros x Hx. apply in_app_or in Hx as [Hx|Hx]; [specialize (M x Hx)|specialize (U x Hx)]; lia. }
  unfold find_posting. rewrite S. rewrite skipn_app, skipn_all, Nat.sub_diag. cbn [skipn app].
  rewrite app_nth2, Nat.sub_diag by lia.
  destruct mid as [|x mid].
  - split; [intros [|] ? [=]|]. intros _. cbn [app List.length]. rewrite Nat.add_0_r.
    destruct hi as [|y hi].
    + rewrite app_nil_r, Nat.ltb_irrefl. reflexivity.
    + cbn [nth]. specialize (U y (or_introl eq_refl)). destruct (Z.eqb_spec (date y) (date p)); [lia|].
      rewrite andb_false_r. reflexivity.
  - assert (B : (List.length lo <? List.length (lo ++ (x :: mid) ++ hi))%nat && (date (nth 0 ((x :: mid) ++ hi) O) =? date p) = true).
    { cbn [app nth]. rewrite (M x) by (left; auto). rewrite Z.eqb_refl, app_length. cbn [List.length].
      apply andb_true_iff; split; [|reflexivity]. apply Nat.ltb_lt. lia. }
    rewrite B. split.
    + intros m1 m2 E N. rewrite E, <- app_assoc. cbn [app]. apply scan_hit; [|exact N].
      intros q Hq. apply M. rewrite E. apply in_or_app; auto.
    + intros N. apply scan_miss; auto.
Qed.

Lemma add_new ps p : in_date_order date ps -> ~ In p ps ->
  exists lo hi, ps = lo ++ hi /\ (forall q, In q lo -> date q <= date p) /\ (forall q, In q hi -> date p < date q) /\
    add_posting date ps p = lo ++ p :: hi.
Proof.
  intros H N. destruct (order_split (date p) ps H) as (lo & mid & hi & -> & L & M & U).
  destruct (find_split p lo mid hi L M U) as [_ F]. exists (lo ++ mid), hi. split; [apply app_assoc|]. split; [|split; [exact U|]].
  - intros q Hq. apply in_app_or in Hq as [Hq|Hq]; [specialize (L q Hq)|specialize (M q Hq)]; lia.
  - unfold add_posting. rewrite F by (intros F'; apply N; rewrite !in_app_iff; auto).
    rewrite app_assoc. rewrite <- app_length. rewrite firstn_app, skipn_app, firstn_all, skipn_all, Nat.sub_diag.
    cbn. rewrite app_nil_r. reflexivity.
Qed.
Lemma add_old ps p : in_date_order date ps -> In p ps -> add_posting date ps p = ps.
Proof.
  intros H N. destruct (order_split (date p) ps H) as (lo & mid & hi & -> & L & M & U).
  destruct (find_split p lo mid hi L M U) as [F _].
  assert (I : In p mid).
  { rewrite !in_app_iff in N. destruct N as [N|[N|N]]; [specialize (L p N); lia|exact N|specialize (U p N); lia]. }
  destruct (in_split_l _ _ I) as (m1 & m2 & E & Nm). unfold add_posting. rewrite (F m1 m2 E Nm). reflexivity.
Qed.
Lemma delete_old ps p : in_date_order date ps -> In p ps ->
  exists l1 l2, ps = l1 ++ p :: l2 /\ ~ In p l1 /\ delete_posting date ps p = l1 ++ l2.
Proof.
  intros H N. destruct (order_split (date p) ps H) as (lo & mid & hi & -> & L & M & U).
  destruct (find_split p lo mid hi L M U) as [F _].
  assert (I : In p mid).
  { rewrite !in_app_iff in N. destruct N as [N|[N|N]]; [specialize (L p N); lia|exact N|specialize (U p N); lia]. }
  destruct (in_split_l _ _ I) as (m1 & m2 & E & Nm). unfold delete_posting. rewrite (F m1 m2 E Nm).
  exists (lo ++ m1), (m2 ++ hi). rewrite E. split; [rewrite <- !app_assoc; reflexivity|]. split.
  - rewrite in_app_iff. intros [G|G]; [specialize (L p G); lia|auto].
  - rewrite <- app_length. replace (lo ++ (m1 ++ p :: m2) ++ hi) with ((lo ++ m1) ++ p :: m2 ++ hi) by (rewrite <- !app_assoc; reflexivity).
    rewrite firstn_app, firstn_all, Nat.sub_diag, app_nil_r. f_equal.
    rewrite skipn_app. rewrite skipn_all2 by lia. replace (S (List.length (lo ++ m1)) - List.length (lo ++ m1))%nat with 1%nat by lia. reflexivity.
Qed.
Lemma delete_new ps p : in_date_order date ps -> ~ In p ps -> delete_posting date ps p = ps.
Proof.
  intros H N. destruct (order_split (date p) ps H) as (lo & mid & hi & -> & L & M & U).
  destruct (find_split p lo mid hi L M U) as [_ F]. unfold delete_posting.
  rewrite F by (intros F'; apply N; rewrite !in_app_iff; auto). reflexivity.
Qed.

Lemma add_order ps p : in_date_order date ps -> in_date_order date (add_posting date ps p).
Proof.
  intros H. destruct (in_dec Nat.eq_dec p ps) as [I|I]; [rewrite add_old; auto|].
  destruct (add_new ps p H I) as (lo & hi & -> & L & U & ->). apply order_app in H as (H1 & H2 & H3).
  apply order_app. split; [auto|]. split.
  - apply order_cons. split; [auto|]. apply Forall_forall. intros q Hq. specialize (U q Hq). lia.
  - intros a b Ha [<-|Hb]; auto.
Qed.
Lemma add_of_day ps p d : in_date_order date ps -> ~ In p ps ->
  of_day date d (add_posting date ps p) = of_day date d (ps ++ [p]).
Proof.
  intros H I. destruct (add_new ps p H I) as (lo & hi & -> & L & U & ->). unfold of_day.
  rewrite !filter_app. cbn [filter]. destruct (Z.eqb_spec (date p) d) as [E|E].
  - rewrite (filter_none _ hi); [rewrite app_nil_r; reflexivity|]. intros q Hq. specialize (U q Hq). lia.
  - rewrite app_nil_r. reflexivity.
Qed.
Lemma add_in_iff ps p q : in_date_order date ps -> (In q (add_posting date ps p) <-> q = p \/ In q ps).
Proof.
  intros H. destruct (in_dec Nat.eq_dec p ps) as [I|I].
  - rewrite add_old by auto. split; [auto|]. intros [->|?]; auto.
  - destruct (add_new ps p H I) as (lo & hi & -> & L & U & ->). rewrite !in_app_iff. cbn. intuition.
Qed.
Lemma add_nodup ps p : in_date_order date ps -> NoDup ps -> NoDup (add_posting date ps p).
Proof.
  intros H N. destruct (in_dec Nat.eq_dec p ps) as [I|I]; [rewrite add_old; auto|].
  destruct (add_new ps p H I) as (lo & hi & -> & L & U & ->). apply NoDup_Add with (a := p) (l := lo ++ hi); auto.
  apply Add_app.
Qed.
Lemma delete_order ps p : in_date_order date ps -> in_date_order date (delete_posting date ps p).
Proof.
  intros H. destruct (in_dec Nat.eq_dec p ps) as [I|I]; [|rewrite delete_new; auto].
  destruct (delete_old ps p H I) as (l1 & l2 & -> & N & ->). apply order_app in H as (H1 & H2 & H3).
  apply order_cons in H2 as [H2 H4]. apply order_app. repeat split; auto. intros; apply H3; cbn; auto.
Qed.
Lemma delete_remove ps p : in_date_order date ps -> NoDup ps ->
  delete_posting date ps p = filter (fun q => negb (q =? p)%nat) ps.
Proof.
  intros H N. destruct (in_dec Nat.eq_dec p ps) as [I|I].
  - destruct (delete_old ps p H I) as (l1 & l2 & -> & N1 & ->). apply NoDup_remove in N as [N2 N3].
    rewrite filter_app. cbn [filter]. rewrite Nat.eqb_refl. cbn [negb].
    rewrite !filter_all; auto; intros x Hx; destruct (Nat.eqb_spec x p) as [->|]; auto; exfalso; apply N3, in_or_app; auto.
  - rewrite delete_new by auto. symmetry. apply filter_all. intros x Hx. destruct (Nat.eqb_spec x p) as [->|]; auto.
Qed.
Lemma delete_add ps p : in_date_order date ps -> ~ In p ps -> delete_posting date (add_posting date ps p) p = ps.
Proof.
  intros H I. assert (H' := add_order ps p H).
  assert (Ip : In p (add_posting date ps p)) by (apply add_in_iff; auto).
  destruct (delete_old _ p H' Ip) as (l1 & l2 & E & N & ->).
  destruct (add_new ps p H I) as (lo & hi & -> & L & U & E2). rewrite E2 in E.
  assert (lo = l1 /\ hi = l2) as [-> ->]; [|reflexivity].
  clear - E N I. assert (Nl : ~ In p lo) by (intros F; apply I, in_or_app; auto). clear I.
  revert l1 E N. induction lo as [|x lo IH]; intros [|y l1] E N; cbn in *.
  - injection E as E2; auto.
  - injection E as E1 E2. subst. exfalso; apply N; auto.
  - injection E as E1 E2. subst. exfalso; apply Nl; auto.
  - injection E as E1 E2. subst. destruct (IH (fun F => Nl (or_intror F)) l1 E2 (fun F => N (or_intror F))) as [-> ->]. auto.
Qed.

(** a date-ordered list is determined by its days *)
Lemma days_unique : forall l l', in_date_order date l -> in_date_order date l' ->
  (forall d, of_day date d l = of_day date d l') -> l = l'.
Proof.
  induction l as [|x l IH]; intros [|y l'] H H' E.
  - reflexivity.
  - specialize (E (date y)). unfold of_day in E. cbn [filter] in E. rewrite Z.eqb_refl in E. discriminate.
  - specialize (E (date x)). unfold of_day in E. cbn [filter] in E. rewrite Z.eqb_refl in E. discriminate.
  - assert (Exy : date x = date y).
    { apply order_cons in H as [_ H], H' as [_ H']. rewrite Forall_forall in H, H'.
      assert (A : In x (y :: l')).
      { assert (I : In x (of_day date (date x) (x :: l))) by (unfold of_day; cbn [filter]; rewrite Z.eqb_refl; left; auto).
        rewrite E in I. apply filter_In in I. tauto. }
      assert (A' : In y (x :: l)).
      { assert (I : In y (of_day date (date y) (y :: l'))) by (unfold of_day; cbn [filter]; rewrite Z.eqb_refl; left; auto).
        rewrite <- E in I. apply filter_In in I. tauto. }
      destruct A as [->|A]; [reflexivity|]. destruct A' as [->|A']; [reflexivity|]. specialize (H y A'). specialize (H' x A). lia. }
    assert (x = y) as ->.
    { specialize (E (date x)). unfold of_day in E. cbn [filter] in E. rewrite <- Exy, Z.eqb_refl in E. congruence. }
    f_equal. apply order_cons in H as [H _], H' as [H' _]. apply IH; auto. intros d. specialize (E d). unfold of_day in *.
    cbn [filter] in E. destruct (date y =? d); [congruence|exact E].
Qed.
Lemma dated_unique made l l' : dated_version date made l -> dated_version date made l' -> l = l'.
Proof. intros [H1 H2] [H3 H4]. apply days_unique; auto. intros d. rewrite H2, H4. reflexivity. Qed.
Lemma sort_dated l : dated_version date l (stable_sort (fun p q => date p <? date q) l).
Proof.
  split.
  - assert (W : weak_order (fun p q => date p <? date q)) by (split; intros; lia).
    pose proof (stable_sort_sorted (fun p q => date p <? date q) l W) as S. unfold sorted_by in S. unfold in_date_order.
    revert S. generalize (stable_sort (fun p q => date p <? date q) l). intros l'. induction 1; constructor; auto.
    eapply Forall_impl; [|eassumption]. cbn. intros; lia.
  - intros d. apply stable_sort_stable. intros; lia.
Qed.
Lemma sort_ordered l : in_date_order date l -> stable_sort (fun p q => date p <? date q) l = l.
Proof. intros H. eapply dated_unique; [apply sort_dated|]. split; auto. Qed.
End Reg.
