From Coq Require Import Sorted Permutation.
From Verif Require Import Base M_Amount M_Convert M_Regex M_Parser M_Names M_Tags M_Date M_Ledger M_Report M_Listing S_Names S_Listing L_Dec L_Amount L_Sort L_Rules L_Listing L_Resolve L_Entries.

(** ** stats *)
Lemma posting_equal_iff L p q : posting_equal L p q = Ok true <-> same_posting L p q.
Proof.
  unfold posting_equal, same_posting. destruct (eqb_bytes (rp_acc (heap L p)) (rp_acc (heap L q))) eqn:E.
  - apply eqb_bytes_eq in E. destruct (rp_qty (heap L p)) as [a|], (rp_qty (heap L q)) as [b|].
    + split; [intros H; split; [exact E|]; exists a, b; auto|intros (_ & a' & b' & Ea & Eb & H); congruence].
    + split; [discriminate|intros (_ & a' & b' & Ea & Eb & H); discriminate].
    + split; [discriminate|intros (_ & a' & b' & Ea & Eb & H); discriminate].
    + split; [discriminate|intros (_ & a' & b' & Ea & Eb & H); discriminate].
  - split; [discriminate|]. intros (H & _). apply eqb_bytes_eq in H. congruence.
Qed.
Lemma postings_equal_iff L ps : forall qs, List.length ps = List.length qs ->
  postings_equal L ps qs = Ok true <-> Forall2 (fun p q => same_posting L q p) ps qs.
Proof.
  induction ps as [|p ps IH]; intros [|q qs] Hl; try discriminate Hl; cbn [postings_equal]; [split; [constructor|reflexivity]|].
  injection Hl as Hl. split.
  - intros H. apply bind_ok in H as ([|] & Hx & H); [|discriminate H]. constructor; [apply posting_equal_iff; assumption|apply IH; assumption].
  - intros F. inversion F; subst. match goal with H : same_posting _ _ _ |- _ => apply posting_equal_iff in H; rewrite H end. cbn [bind]. apply IH; assumption.
Qed.
Lemma tx_equal_iff L x y : tx_equal L x y = Ok true <-> same_tx L x y.
Proof.
  unfold tx_equal, same_tx. destruct (x_posted x =? x_posted y) eqn:E1; cbn [negb].
  2: { split; [discriminate|]. intros (H & _). apply Z.eqb_neq in E1. contradiction. }
  apply Z.eqb_eq in E1. destruct (eqb_bytes (x_code x) (x_code y)) eqn:E2; cbn [negb].
  2: { split; [discriminate|]. intros (_ & H & _). apply eqb_bytes_eq in H. congruence. }
  apply eqb_bytes_eq in E2. destruct (List.length (x_posts x) =? List.length (x_posts y))%nat eqn:E3; cbn [negb].
  2: { split; [discriminate|]. intros (_ & _ & H). apply Nat.eqb_neq in E3. exfalso. apply E3. clear - H. induction H; cbn; congruence. }
  apply Nat.eqb_eq in E3. rewrite (postings_equal_iff L _ _ E3). tauto.
Qed.
Definition alike (L : ledger) (t t2 : rtx) : bool := match tx_equal L t t2 with Ok true => true | _ => false end.
Lemma alike_iff L t t2 : alike L t t2 = true <-> same_tx L t t2.
Proof. rewrite <- tx_equal_iff. unfold alike. destruct (tx_equal L t t2) as [[|]| |]; split; congruence. Qed.
Lemma dupes_of_spec L t day d : dupes_of L t day = Ok d -> d = map (fun t2 => Duplicate t2 t) (filter (alike L t) day).
Proof.
  revert d. induction day as [|t2 day IH]; intros d H; cbn [dupes_of] in H; [injection H as <-; reflexivity|].
  apply bind_ok in H as (b & E & H). apply bind_ok in H as (d' & E' & H). injection H as <-. cbn [filter]. unfold alike at 1. rewrite E. rewrite (IH _ E'). destruct b; reflexivity.
Qed.
Lemma other_day L t t2 : x_posted t <> x_posted t2 -> alike L t t2 = false.
Proof. intros N. destruct (alike L t t2) eqn:E; [|reflexivity]. apply alike_iff in E as (E & _). contradiction. Qed.
Lemma filter_nil {A} (f : A -> bool) l : (forall x, In x l -> f x = false) -> filter f l = [].
Proof. intros H. induction l as [|x l IH]; cbn [filter]; [reflexivity|]. rewrite (H x (or_introl eq_refl)). apply IH. intros y I. apply H. right; exact I. Qed.

(** every transaction against all before it *)
Fixpoint dups_from (L : ledger) (pre rest : list rtx) : list stat_item :=
  match rest with [] => [] | t :: r => map (fun t2 => Duplicate t2 t) (filter (alike L t) pre) ++ dups_from L (pre ++ [t]) r end.
Lemma dupes_loop_spec L rest : forall old day items,
  dupes_loop L rest day = Ok items ->
  (day = [] -> old = []) -> (forall d d', In d day -> In d' day -> x_posted d = x_posted d') ->
  StronglySorted (fun x y => x_posted x <= x_posted y) (day ++ rest) ->
  (forall o t, In o old -> In t (day ++ rest) -> x_posted o < x_posted t) ->
  items = dups_from L (old ++ day) rest.
Proof.
  induction rest as [|t r IH]; intros old day items H Hd Hs Hsort Ho; cbn [dupes_loop] in H; [injection H as <-; reflexivity|].
  cbn [dups_from]. destruct day as [|d0 day].
  - rewrite (Hd eq_refl) in *. cbn [app filter map]. apply (IH [] [t]); [exact H|discriminate|cbn; intuition; subst; reflexivity|exact Hsort|intros o t' []].
  - destruct (x_posted t =? x_posted d0) eqn:E; cbn [negb] in H.
    + apply Z.eqb_eq in E. apply bind_ok in H as (b & E0 & H). apply bind_ok in H as (ds & E1 & H). injection H as <-. rewrite (dupes_of_spec _ _ _ _ E0). rewrite <- app_assoc.
      rewrite filter_app, (filter_nil _ old). 2: { intros o I. apply other_day. specialize (Ho o t I). rewrite in_app_iff in Ho. cbn in Ho.
        assert (x_posted o < x_posted t) by (apply Ho; right; left; reflexivity). lia. }
      cbn [app]. f_equal. apply (IH old ((d0 :: day) ++ [t])); [exact E1|discriminate| | |].
      * assert (G : forall d, In d ((d0 :: day) ++ [t]) -> x_posted d = x_posted d0).
        { intros d I. apply in_app_iff in I as [I|[<-|[]]]; [apply Hs; [exact I|left; reflexivity]|exact E]. }
        intros d d' I I'. rewrite (G _ I), (G _ I'). reflexivity.
      * rewrite <- app_assoc. exact Hsort.
      * rewrite <- app_assoc. exact Ho.
    + apply Z.eqb_neq in E. assert (Lt : forall o, In o (old ++ d0 :: day) -> x_posted o < x_posted t).
      { assert (Dt : x_posted d0 <= x_posted t). { cbn [app] in Hsort. inversion Hsort as [|? ? _ F]; subst. apply (proj1 (Forall_forall _ _) F). apply in_app_iff. right; left; reflexivity. }
        intros o I. apply in_app_iff in I as [I|I]; [apply Ho; [exact I|apply in_app_iff; right; left; reflexivity]|].
        rewrite (Hs o d0 I (or_introl eq_refl)). lia. }
      rewrite (filter_nil _ (old ++ d0 :: day)). 2: { intros o I. apply other_day. specialize (Lt o I). lia. }
      cbn [map app]. assert (S2 : StronglySorted (fun x y => x_posted x <= x_posted y) (t :: r)).
      { clear - Hsort. revert Hsort. generalize (d0 :: day). intros l. induction l as [|x l IH]; cbn [app]; [auto|]. intros S. inversion S; subst. auto. }
      apply (IH (old ++ d0 :: day) [t]); [exact H|discriminate|cbn; intuition; subst; reflexivity|exact S2|].
      intros o t' I I'. specialize (Lt o I). cbn [app] in I'. destruct I' as [<-|I']; [exact Lt|].
      inversion S2 as [|? ? _ F]; subst. pose proof (proj1 (Forall_forall _ _) F t' I') as G. cbv beta in G. lia.
Qed.
Lemma filter_map_nth {A} (f : A -> bool) (d : A) pre rest :
  filter f pre = map (fun i => nth i (pre ++ rest) d) (filter (fun i => f (nth i (pre ++ rest) d)) (seq 0 (List.length pre))).
Proof.
  induction pre as [|x pre IH] using rev_ind; [reflexivity|]. rewrite app_length. cbn [List.length]. rewrite Nat.add_1_r, seq_S, !filter_app, map_app. cbn [Nat.add].
  rewrite <- app_assoc. cbn [app]. f_equal.
  - rewrite IH. clear IH. assert (G : forall i, In i (seq 0 (List.length pre)) -> nth i (pre ++ rest) d = nth i (pre ++ x :: rest) d).
    { intros i I. apply in_seq in I. rewrite !app_nth1 by lia. reflexivity. }
    revert G. generalize (seq 0 (List.length pre)). intros l. induction l as [|i l IHl]; intros G; [reflexivity|]. cbn [filter].
    rewrite (G i (or_introl eq_refl)). destruct (f (nth i (pre ++ x :: rest) d)); cbn [map]; [rewrite (G i (or_introl eq_refl)); f_equal|]; apply IHl; intros j I; apply G; right; exact I.
  - cbn [filter]. rewrite app_nth2, Nat.sub_diag by lia. cbn [nth]. destruct (f x); [|reflexivity]. cbn [map]. rewrite app_nth2, Nat.sub_diag by lia. reflexivity.
Qed.
Lemma dups_from_pos L xs rest : forall pre, pre ++ rest = xs ->
  dups_from L pre rest =
    flat_map (fun j => map (fun i => Duplicate (nth i xs no_tx) (nth j xs no_tx)) (filter (fun i => alike L (nth j xs no_tx) (nth i xs no_tx)) (seq 0 j)))
             (seq (List.length pre) (List.length rest)).
Proof.
  induction rest as [|t r IH]; intros pre E; [reflexivity|]. cbn [dups_from List.length seq flat_map]. f_equal.
  - assert (Et : nth (List.length pre) xs no_tx = t) by (rewrite <- E, app_nth2, Nat.sub_diag by lia; reflexivity). rewrite Et.
    rewrite (filter_map_nth (alike L t) no_tx pre (t :: r)), map_map, E. reflexivity.
  - rewrite (IH (pre ++ [t])) by (rewrite <- app_assoc; exact E). rewrite app_length. cbn [List.length]. rewrite Nat.add_1_r. reflexivity.
Qed.
Lemma flat_map_pairs {A} (f : nat * nat -> A) (P : nat * nat -> bool) l :
  flat_map (fun j => map (fun i => f (i, j)) (filter (fun i => P (i, j)) (seq 0 j))) l =
  map f (filter P (flat_map (fun j => map (fun i => (i, j)) (seq 0 j)) l)).
Proof.
  induction l as [|j l IH]; [reflexivity|]. cbn [flat_map]. rewrite filter_app, map_app, IH. f_equal.
  induction (seq 0 j) as [|i s IHs]; [reflexivity|]. cbn [map filter]. destruct (P (i, j)); cbn [map]; rewrite IHs; reflexivity.
Qed.
Lemma in_pairs n i j : In (i, j) (pairs_before n) <-> (i < j < n)%nat.
Proof.
  unfold pairs_before. rewrite in_flat_map. split.
  - intros (j' & I1 & I2). apply in_map_iff in I2 as (i' & E & I2). injection E as -> ->. apply in_seq in I1, I2. lia.
  - intros H. exists j. split; [apply in_seq; lia|]. apply in_map_iff. exists i. split; [reflexivity|]. apply in_seq. lia.
Qed.

(** no panics *)
Definition countable (L : ledger) (xs : list rtx) : Prop :=
  forall x p, In x xs -> In p (x_posts x) -> exists q, rp_qty (heap L p) = Some q /\ (c_dec (a_com q) <= 50)%nat.
Lemma is_equal_total a b : (c_dec (a_com a) <= 50)%nat -> (c_dec (a_com b) <= 50)%nat -> exists e, is_equal a b = Ok e.
Proof.
  intros Ha Hb. unfold is_equal, cmp, adjusted_to, a_dec.
  assert (P : forall n, (n <= 50)%nat -> exists z, big_pow10 n = Ok z). { intros n Hn. destruct (big_pow10_cases n) as [(_ & ->)|(H & _)]; [eauto|lia]. }
  destruct (c_dec (a_com b) <? c_dec (a_com a))%nat; [destruct (P (c_dec (a_com a) - c_dec (a_com b))%nat) as (z & ->); [lia|cbn; eauto]|].
  destruct (c_dec (a_com a) <? c_dec (a_com b))%nat; [destruct (P (c_dec (a_com b) - c_dec (a_com a))%nat) as (z & ->); [lia|cbn; eauto]|]. cbn. eauto.
Qed.
Lemma tx_equal_total L xs x y : countable L xs -> In x xs -> In y xs -> exists e, tx_equal L x y = Ok e.
Proof.
  intros C Ix Iy. unfold tx_equal. destruct (negb _); [eauto|]. destruct (negb _); [eauto|]. destruct (negb _); [eauto|].
  assert (G : forall ps qs, (forall p, In p ps -> In p (x_posts x)) -> (forall q, In q qs -> In q (x_posts y)) -> exists e, postings_equal L ps qs = Ok e).
  { induction ps as [|p ps IH]; intros [|q qs] Hp Hq; cbn [postings_equal]; eauto.
    assert (E : exists e, posting_equal L q p = Ok e).
    { unfold posting_equal. destruct (eqb_bytes _ _); [|eauto]. destruct (C y q Iy (Hq q (or_introl eq_refl))) as (a & -> & Ha).
      destruct (C x p Ix (Hp p (or_introl eq_refl))) as (b & -> & Hb). apply is_equal_total; assumption. }
    destruct E as ([|] & ->); cbn [bind]; [|eauto]. apply IH; intros z I; [apply Hp|apply Hq]; right; exact I. }
  apply G; auto.
Qed.
Lemma dupes_total L xs : countable L xs -> forall rest day, (forall x, In x rest -> In x xs) -> (forall x, In x day -> In x xs) -> exists items, dupes_loop L rest day = Ok items.
Proof.
  intros C. assert (G : forall t, In t xs -> forall day, (forall x, In x day -> In x xs) -> exists d, dupes_of L t day = Ok d).
  { intros t It. induction day as [|t2 day IH]; intros H; cbn [dupes_of]; [eauto|].
    destruct (tx_equal_total L xs t t2 C It (H t2 (or_introl eq_refl))) as (e & ->). cbn [bind].
    destruct IH as (d & ->); [intros x I; apply H; right; exact I|]. cbn [bind]. eauto. }
  induction rest as [|t r IH]; intros day Hr Hd; cbn [dupes_loop]; [eauto|].
  assert (Hr' : forall x, In x r -> In x xs) by (intros x I; apply Hr; right; exact I).
  assert (It : In t xs) by (apply Hr; left; reflexivity).
  assert (Ht : forall x, In x [t] -> In x xs) by (intros x [<-|[]]; exact It).
  destruct day as [|d0 day]; [apply IH; assumption|]. destruct (negb _); [apply IH; assumption|].
  destruct (G t It (d0 :: day) Hd) as (d & ->). cbn [bind].
  destruct (IH ((d0 :: day) ++ [t])) as (e & ->); [exact Hr'|intros x I; apply in_app_iff in I as [I|I]; auto|]. cbn [bind]. eauto.
Qed.

(** -u and -c *)
Definition mis (L : ledger) (t : rtx) : bool := match mismatch L t with Ok true => true | _ => false end.
Lemma mis_iff L t : mis L t = true <-> bad_conversion L t.
Proof.
  unfold mis, mismatch, bad_conversion. destruct (x_posts t) as [|p1 [|p2 [|]]] eqn:E.
  1, 2, 4: split; [discriminate|intros (? & ? & ? & ? & H & _); discriminate H].
  destruct (rp_qty (heap L p1)) as [q1|] eqn:E1.
  2: { split; [discriminate|intros (? & ? & ? & ? & H & H' & _); injection H as <- <-; congruence]. }
  destruct (rp_qty (heap L p2)) as [q2|] eqn:E2.
  2: { split; [discriminate|intros (? & ? & ? & ? & H & _ & H' & _); injection H as <- <-; congruence]. }
  split.
  - intros H. destruct (is_equal q1 (negated q2)) as [e| |] eqn:Eq; cbn [bind] in H; try discriminate H.
    destruct e; cbn [andb] in H; [|discriminate H]. destruct (eq_commodity (a_com q1) (a_com q2)) eqn:Ec; cbn [negb] in H; [discriminate H|].
    exists p1, p2, q1, q2. repeat (split; [auto|]). apply eq_commodity_neq, Ec.
  - intros (p1' & p2' & q1' & q2' & H & H1 & H2 & H3 & H4). injection H as <- <-. rewrite E1 in H1. rewrite E2 in H2. injection H1 as <-. injection H2 as <-.
    rewrite H3. cbn [bind andb]. apply eq_commodity_neq in H4. rewrite H4. reflexivity.
Qed.
Lemma checks_spec L fu fc xs items : checks_loop L fu fc xs = Ok items ->
  items = flat_map (fun t => (if fc && mis L t then [BadConversion t] else []) ++
    flat_map (fun p => if fu && eqb_bytes (rp_acc (heap L p)) unbalanced then [UnbalancedTx t] else []) (x_posts t)) xs.
Proof.
  revert items. induction xs as [|t xs IH]; intros items H; cbn [checks_loop] in H; [injection H as <-; reflexivity|].
  apply bind_ok in H as (b & E & H). apply bind_ok in H as (d' & E' & H). injection H as <-. cbn [flat_map]. rewrite (IH _ E'), <- app_assoc. f_equal.
  destruct fc; [|injection E as <-; reflexivity]. unfold mis. rewrite E. destruct b; reflexivity.
Qed.
Lemma checks_total L fu fc xs : countable L xs -> exists items, checks_loop L fu fc xs = Ok items.
Proof.
  intros C. induction xs as [|t xs IH]; cbn [checks_loop]; [eauto|].
  assert (M : exists m, mismatch L t = Ok m).
  { unfold mismatch. destruct (x_posts t) as [|p1 [|p2 [|]]] eqn:E; eauto.
    destruct (C t p1 (or_introl eq_refl)) as (q1 & -> & H1); [rewrite E; left; reflexivity|].
    destruct (C t p2 (or_introl eq_refl)) as (q2 & -> & H2); [rewrite E; right; left; reflexivity|].
    destruct (is_equal_total q1 (negated q2)) as (e & ->); [exact H1|exact H2|]. cbn. eauto. }
  destruct M as (m & M). destruct IH as (r & IH). { intros x p I. apply C. right; exact I. }
  destruct fc; rewrite ?M; cbn [bind]; rewrite IH; cbn [bind]; eauto.
Qed.
