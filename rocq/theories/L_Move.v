(** Lemmas: sequences of register operations, MoveTo, Post. *)
From Coq Require Import Sorted Permutation.
From Verif Require Import Base M_Amount M_Regex M_Parser M_Names M_Ledger S_Amount S_Books L_Dec L_Sort L_Amount L_Registers L_Resolve L_Resolve2 L_Check L_Load.

Lemma add_inserted date ps p : in_date_order date ps -> ~ In p ps -> inserted date p ps (add_posting date ps p).
Proof. intros H N. destruct (add_new date ps p H N) as (lo & hi & E & L & U & F). exists lo, hi. auto. Qed.
Lemma delete_removed date ps p : in_date_order date ps -> NoDup ps -> In p ps -> removed p ps (delete_posting date ps p).
Proof.
  intros H N I. destruct (delete_old date ps p H I) as (l1 & l2 & E & K & F). exists l1, l2. split; [exact E|]. split; [exact F|].
  rewrite F. rewrite E in N. apply NoDup_remove in N. tauto.
Qed.
Lemma ops_spec date : forall ops ps, in_date_order date ps -> NoDup ps ->
  let ps' := fold_left (do_op date) ops ps in
  in_date_order date ps' /\ NoDup ps' /\
  forall q, In q ps' <-> present q ops (existsb (Nat.eqb q) ps) = true.
Proof.
  induction ops as [|o ops IH]; intros ps H N; cbn [fold_left present].
  - split; [exact H|]. split; [exact N|]. intros q. rewrite existsb_exists. split.
    + intros I. exists q. split; [exact I|apply Nat.eqb_refl].
    + intros (y & I & E). apply Nat.eqb_eq in E. subst. exact I.
  - assert (HN : in_date_order date (do_op date ps o) /\ NoDup (do_op date ps o)).
    { destruct o; cbn [do_op]; split.
      - apply add_order, H. - apply add_nodup; auto. - apply delete_order, H.
      - rewrite delete_remove by auto. apply NoDup_filter, N. }
    destruct HN as [H1 N1]. destruct (IH _ H1 N1) as (A & B & C). split; [exact A|]. split; [exact B|]. intros q. rewrite C.
    assert (X : forall l, existsb (Nat.eqb q) l = true <-> In q l).
    { intros l. rewrite existsb_exists. split; [intros (y & I & E); apply Nat.eqb_eq in E; subst; exact I|].
      intros I. exists q. split; [exact I|apply Nat.eqb_refl]. }
    assert (Y : forall l l', (In q l <-> In q l') -> existsb (Nat.eqb q) l = existsb (Nat.eqb q) l').
    { intros l l' E. apply eq_true_iff_eq. rewrite !X. exact E. }
    destruct o as [p|p]; cbn [do_op].
    + replace (existsb (Nat.eqb q) (add_posting date ps p)) with (if (p =? q)%nat then true else existsb (Nat.eqb q) ps); [reflexivity|].
      destruct (Nat.eqb_spec p q) as [->|E].
      * symmetry. apply X, add_in_iff; auto.
      * apply Y. rewrite add_in_iff by exact H. intuition congruence.
    + replace (existsb (Nat.eqb q) (delete_posting date ps p)) with (if (p =? q)%nat then false else existsb (Nat.eqb q) ps); [reflexivity|].
      rewrite delete_remove by auto. destruct (Nat.eqb_spec p q) as [->|E].
      * symmetry. apply not_true_iff_false. rewrite X, filter_In, Nat.eqb_refl. cbn. intuition discriminate.
      * apply Y. rewrite filter_In. destruct (Nat.eqb_spec q p); [congruence|]. cbn. tauto.
Qed.

Lemma move_spec L p a : ledger_ok L -> (p < nxt L)%nat -> In p (reg L (rp_acc (heap L p))) -> a <> rp_acc (heap L p) ->
  let L' := move_to L p a in
  heap L' p = with_acc (heap L p) a /\ (forall q, q <> p -> heap L' q = heap L q) /\ nxt L' = nxt L /\
  (forall b, bal L' b = bal L b) /\
  removed p (reg L (rp_acc (heap L p))) (reg L' (rp_acc (heap L p))) /\
  inserted (dates L) p (reg L a) (reg L' a) /\
  (forall b, b <> a -> b <> rp_acc (heap L p) -> reg L' b = reg L b) /\ ledger_ok L'.
Proof.
  intros Hok Hp I Na L'. unfold L', move_to. rewrite eqb_bytes_neq by (intros E; apply Na; symmetry; exact E).
  set (o := rp_acc (heap L p)) in *.
  assert (Nap : ~ In p (reg L a)).
  { intros F. destruct (Hok a) as (_ & _ & K). destruct (K p F) as [_ K2]. apply Na. symmetry. exact K2. }
  assert (Ra : reg (add_to (delete_from L o p) a p) a = add_posting (dates L) (reg L a) p).
  { cbn. rewrite updb_same. rewrite updb_other by exact Na. reflexivity. }
  assert (Ro : reg (add_to (delete_from L o p) a p) o = delete_posting (dates L) (reg L o) p).
  { cbn. rewrite updb_other by (intros E; apply Na; symmetry; exact E). apply updb_same. }
  assert (Rb : forall b, b <> a -> b <> o -> reg (add_to (delete_from L o p) a p) b = reg L b).
  { intros b B1 B2. cbn. rewrite !updb_other by assumption. reflexivity. }
  destruct (Hok a) as (A1 & A2 & A3). destruct (Hok o) as (O1 & O2 & O3).
  cbn zeta. cbn [heap nxt bal reg set_post].
  split; [apply updn_same|]. split; [intros q Hq; apply updn_other, Hq|]. split; [reflexivity|]. split; [reflexivity|].
  split; [rewrite Ro; apply delete_removed; auto|]. split; [rewrite Ra; apply add_inserted; auto|]. split; [exact Rb|].
  assert (D : forall q, dates (set_post (add_to (delete_from L o p) a p) p (with_acc (heap L p) a)) q = dates L q).
  { intros q. unfold dates. cbn. unfold updn. destruct (Nat.eqb_spec q p) as [->|]; reflexivity. }
  assert (Ext : forall l, in_date_order (dates L) l -> in_date_order (dates (set_post (add_to (delete_from L o p) a p) p (with_acc (heap L p) a))) l).
  { intros l. apply order_ext. intros; symmetry; apply D. }
  intros b. cbn [reg set_post nxt heap].
  destruct (eqb_bytes b a) eqn:Ea; [apply eqb_bytes_eq in Ea; subst b|].
  - rewrite Ra. split; [apply Ext, add_order, A1|]. split; [apply add_nodup; auto|].
    intros q Hq. rewrite add_in_iff in Hq by exact A1. destruct Hq as [->|Hq]; [rewrite updn_same; split; [exact Hp|reflexivity]|].
    rewrite updn_other by (intros ->; tauto). exact (A3 q Hq).
  - destruct (eqb_bytes b o) eqn:Eo; [apply eqb_bytes_eq in Eo; subst b|].
    + rewrite Ro. split; [apply Ext, delete_order, O1|]. rewrite delete_remove by auto. split; [apply NoDup_filter, O2|].
      intros q Hq. apply filter_In in Hq as [Hq Hn]. destruct (Nat.eqb_spec q p); [discriminate|]. rewrite updn_other by assumption. exact (O3 q Hq).
    + assert (b <> a) by (intros ->; rewrite eqb_bytes_refl in Ea; discriminate).
      assert (b <> o) by (intros ->; rewrite eqb_bytes_refl in Eo; discriminate).
      rewrite Rb by assumption. destruct (Hok b) as (B1 & B2 & B3). split; [apply Ext, B1|]. split; [exact B2|].
      intros q Hq. destruct (B3 q Hq) as [K1 K2]. rewrite updn_other; [exact (conj K1 K2)|]. intros ->. unfold o in *. congruence.
Qed.
Lemma move_same L p : move_to L p (rp_acc (heap L p)) = L.
Proof. unfold move_to. rewrite eqb_bytes_refl. reflexivity. Qed.

(** ** Post *)
(** entering one new posting *)
Lemma new_posting L a v : ledger_ok L -> rp_acc v = a ->
  let n := nxt L in
  let L1 := mkLedger (updn (heap L) n v) (S n) (reg L) (bal L) in
  let L' := add_to L1 a n in
  ledger_ok L' /\ nxt L' = S n /\ heap L' n = v /\ (forall p, p <> n -> heap L' p = heap L p) /\
  (forall b, b <> a -> reg L' b = reg L b) /\ (forall b, bal L' b = bal L b) /\ inserted (dates L') n (reg L a) (reg L' a).
Proof.
  intros Hok Hv n L1 L'.
  assert (Old : forall b p, In p (reg L b) -> (p < n)%nat) by (intros b p Hp; destruct (Hok b) as (_ & _ & K); apply K, Hp).
  assert (Dt : forall p, p <> n -> dates L' p = dates L p) by (intros p Hp; unfold dates; cbn; rewrite updn_other by exact Hp; reflexivity).
  assert (Od : forall b, in_date_order (dates L') (reg L b)).
  { intros b. destruct (Hok b) as (K & _). eapply order_ext; [|exact K]. intros p Hp. symmetry. apply Dt. apply Old in Hp. lia. }
  assert (Ra : reg L' a = add_posting (dates L') (reg L a) n) by (cbn; apply updb_same).
  assert (Rb : forall b, b <> a -> reg L' b = reg L b) by (intros b Hb; cbn; apply updb_other, Hb).
  assert (Nn : ~ In n (reg L a)) by (intros F; apply Old in F; lia).
  split; [|split; [reflexivity|split; [apply updn_same|split; [intros p Hp; apply updn_other, Hp|split; [exact Rb|split; [reflexivity|]]]]]].
  - intros b. destruct (eqb_bytes b a) eqn:E.
    + apply eqb_bytes_eq in E. subst b. rewrite Ra. destruct (Hok a) as (_ & K2 & K3).
      split; [apply add_order, Od|]. split; [apply add_nodup; auto|]. intros p Hp. rewrite add_in_iff in Hp by apply Od.
      destruct Hp as [->|Hp].
      * split; [cbn; lia|]. cbn. rewrite updn_same. exact Hv.
      * destruct (K3 p Hp) as [G1 G2]. split; [cbn; lia|]. cbn. rewrite updn_other by lia. exact G2.
    + rewrite Rb by (intros ->; rewrite eqb_bytes_refl in E; discriminate). destruct (Hok b) as (_ & K2 & K3).
      split; [apply Od|]. split; [exact K2|]. intros p Hp. destruct (K3 p Hp) as [G1 G2]. split; [cbn; lia|]. cbn. rewrite updn_other by lia. exact G2.
  - rewrite Ra. apply add_inserted; [apply Od|exact Nn].
Qed.
Definition new_rp (d : Z) (a : bytes) (q : amount) (b : option amount) : rposting :=
  mkRP d [] a (Some q) b (match b with Some _ => true | None => false end) [].
Lemma post_spec L x from fa fb to ta tb : ledger_ok L ->
  let r := post_conversion L x from fa fb to ta tb in let L' := fst r in let x' := snd r in
  let sF := nxt L in let sT := S (nxt L) in
  ledger_ok L' /\ nxt L' = S (S (nxt L)) /\
  x_posts x' = x_posts x ++ (if a_int fa <? 0 then [sT; sF] else [sF; sT]) /\
  x_posted x' = x_posted x /\ x_code x' = x_code x /\ x_desc x' = x_desc x /\ x_notes x' = x_notes x /\
  heap L' sF = new_rp (x_posted x) from fa fb /\ heap L' sT = new_rp (x_posted x) to ta tb /\
  (forall p, (p < nxt L)%nat -> heap L' p = heap L p) /\
  (forall a, dated_version (dates L') (reg L a ++ (if eqb_bytes a from then [sF] else []) ++ (if eqb_bytes a to then [sT] else [])) (reg L' a)).
Proof.
  intros Hok r L' x' sF sT.
  destruct (new_posting L from (new_rp (x_posted x) from fa fb) Hok eq_refl) as (A1 & A2 & A3 & A4 & A5 & A6 & A7).
  set (L1 := add_to _ from _) in A1, A2, A3, A4, A5, A6, A7.
  destruct (new_posting L1 to (new_rp (x_posted x) to ta tb) A1 eq_refl) as (B1 & B2 & B3 & B4 & B5 & B6 & B7).
  set (L2 := add_to _ to _) in B1, B2, B3, B4, B5, B6, B7.
  assert (E : L' = L2) by reflexivity. rewrite E.
  split; [exact B1|]. split; [rewrite B2, A2; reflexivity|]. repeat (split; [reflexivity|]).
  rewrite A2 in B2, B3, B4, B7. fold sF sT in B2, B3, B4, B7. fold sF in A3, A4, A7.
  split; [rewrite B4 by (unfold sF, sT; lia); exact A3|]. split; [exact B3|]. split.
  { intros p Hp. rewrite B4, A4; [reflexivity|unfold sF; lia|unfold sT; lia]. }
  intros a. destruct (B1 a) as (O & _ & _).
  assert (Dt : forall p, p <> sT -> dates L2 p = dates L1 p) by (intros p Hp; unfold dates; rewrite B4 by exact Hp; reflexivity).
  split; [exact O|]. intros d.
  assert (Ins : forall date n l l' d, inserted date n l l' -> of_day date d l' = of_day date d (l ++ [n])).
  { clear. intros date n l l' d (bf & af & -> & -> & H1 & H2). unfold of_day. rewrite !filter_app. cbn [filter].
    destruct (Z.eqb_spec (date n) d) as [E|E]; [|rewrite app_nil_r; reflexivity].
    rewrite (filter_none _ af); [rewrite app_nil_r; reflexivity|]. intros q Hq. specialize (H2 q Hq). lia. }
  assert (S1 : of_day (dates L2) d (reg L1 a) = of_day (dates L2) d (reg L a ++ (if eqb_bytes a from then [sF] else []))).
  { destruct (eqb_bytes a from) eqn:Ef.
    - apply eqb_bytes_eq in Ef. subst a.
      assert (Lt : forall p, In p (reg L from ++ [sF]) -> p <> sT).
      { intros p Hp. apply in_app_or in Hp as [Hp|[<-|[]]]; [|unfold sF, sT; lia].
        destruct (Hok from) as (_ & _ & K). apply K in Hp as [Hp _]. unfold sT. lia. }
      assert (Lt1 : forall p, In p (reg L1 from) -> p <> sT).
      { intros p Hp. destruct (A1 from) as (_ & _ & K). apply K in Hp as [Hp _]. unfold sT. lia. }
      rewrite (of_day_ext _ (dates L1)) by (intros; apply Dt, Lt1; assumption).
      rewrite (of_day_ext _ (dates L1) _ (reg L from ++ [sF])) by (intros; apply Dt, Lt; assumption).
      apply Ins, A7.
    - rewrite A5 by (intros ->; rewrite eqb_bytes_refl in Ef; discriminate). rewrite app_nil_r. reflexivity. }
  rewrite app_assoc. destruct (eqb_bytes a to) eqn:Et.
  - apply eqb_bytes_eq in Et. subst a. rewrite (Ins _ _ _ _ d B7). unfold of_day in *. rewrite filter_app, S1.
    rewrite (filter_app _ _ [sT]). reflexivity.
  - rewrite app_nil_r, <- S1. rewrite B5; [reflexivity|]. intros ->. rewrite eqb_bytes_refl in Et. discriminate.
Qed.
