(** Lemmas: loading, order of transactions, Day, dropping. *)
From Coq Require Import Sorted Permutation.
From Verif Require Import Base M_Amount M_Regex M_Parser M_Names M_Ledger S_Amount S_Books L_Dec L_Sort L_Amount L_Registers L_Resolve L_Resolve2 L_Check.

Lemma in_of_day date l p : In p l <-> In p (of_day date (date p) l).
Proof. unfold of_day. rewrite filter_In, Z.eqb_refl. tauto. Qed.

Lemma NoDup_app_intro {A} (l l' : list A) : NoDup l -> NoDup l' -> (forall x, In x l -> ~ In x l') -> NoDup (l ++ l').
Proof.
  induction l as [|x l IH]; intros N N' H; [exact N'|]. inversion N; subst. cbn. constructor.
  - rewrite in_app_iff. intros [F|F]; [tauto|]. apply (H x); [left|]; auto.
  - apply IH; auto. intros y Hy. apply H. right; auto.
Qed.
Lemma resolve_txs_bal find comm conv : forall xs L L', resolve_txs find comm conv L xs = Ok L' -> NoDup (flat_map x_posts xs) ->
  forall p, rp_bal (heap L' p) = rp_bal (heap L p) /\ rp_asserted (heap L' p) = rp_asserted (heap L p).
Proof.
  induction xs as [|x xs IH]; intros L L' H N p; cbn [resolve_txs] in H; [injection H as <-; auto|].
  unb H. rename a into L1. cbn [flat_map] in N. apply NoDup_app_inv in N as (N1 & N2 & N3). destruct (IH _ _ H N2 p) as [-> ->].
  destruct (resolve_tx_spec find comm conv _ _ _ E N1) as (L0 & A1 & A2 & A3 & A4 & A5 & A6 & _).
  destruct (enter_spec find _ _ _ A1 N1) as (_ & _ & B3 & B4 & _).
  destruct (in_dec Nat.eq_dec p (x_posts x)) as [I|I].
  - destruct (A6 p I) as (q & -> & _). destruct (B4 p I) as (a & _ & ->). auto.
  - rewrite A5, B3 by exact I. auto.
Qed.

Lemma load_inv find comm conv accounts chk L ts L' ws sorted : ledger_ok L -> NoDup accounts ->
  load_transactions find comm conv accounts chk L ts = Ok (L', ws, sorted) ->
  exists L1 xs n, alloc_txs L ts = (L1, xs) /\ sorted = stable_sort (tx_less L') xs /\
    flat_map x_posts xs = seq (nxt L) n /\ nxt L' = (nxt L + n)%nat /\
    Forall2 (resolved find comm conv L') ts xs /\
    (forall a, dated_version (dates L') (reg L a ++ made_to L' a xs) (reg L' a)) /\
    (forall p, (p < nxt L)%nat -> keeps (heap L p) (heap L' p)) /\
    ledger_ok L' /\
    exists L2, resolve_txs find comm conv L1 xs = Ok L2 /\ finish_accounts comm conv chk L2 accounts = Ok (L', ws) /\
      ledger_ok L2 /\ (forall a, reg L2 a = reg L' a) /\ (forall p, keeps (heap L2 p) (heap L' p)) /\
      (forall a, bal L2 a = bal L a) /\ (forall p, (p < nxt L)%nat -> heap L2 p = heap L p) /\
      (forall p, rp_bal (heap L2 p) = rp_bal (heap L1 p) /\ rp_asserted (heap L2 p) = rp_asserted (heap L1 p)).
Proof.
  intros Hok Na H. unfold load_transactions in H. destruct (alloc_txs L ts) as [L1 xs] eqn:Ea.
  destruct (alloc_txs_spec _ _ _ _ Ea) as ((n & A1 & A2) & A3 & A4 & A5 & A6).
  unfold resolve_transactions in H. unb H. rename a into L2. unb H. destruct a as [L3 w3]. cbn [fst snd] in H.
  injection H as -> -> <-. exists L1, xs, n.
  assert (Nd : NoDup (flat_map x_posts xs)) by (rewrite A2; apply seq_NoDup).
  destruct (resolve_txs_spec find comm conv _ _ _ E Nd) as (B1 & B2 & B3 & B4 & B5 & B6).
  assert (Old : forall a p, In p (reg L a) -> (p < nxt L)%nat) by (intros a p Hp; destruct (Hok a) as (_ & _ & K); apply K, Hp).
  assert (D1 : forall a p, In p (reg L a) -> dates L1 p = dates L p).
  { intros a p Hp. unfold dates. rewrite A5; [reflexivity|]. eapply Old; eauto. }
  assert (O1 : forall a, in_date_order (dates L1) (reg L1 a)).
  { intros a. rewrite A3. destruct (Hok a) as (K & _). eapply order_ext; [|exact K]. intros; symmetry; eapply D1; eauto. }
  assert (F1 : forall a p, In p (flat_map x_posts xs) -> ~ In p (reg L1 a)).
  { intros a p Hp Hr. rewrite A3 in Hr. apply Old in Hr. rewrite A2 in Hp. apply in_seq in Hp. lia. }
  assert (R2 := B5 O1 F1).
  assert (Acc2 : forall p, (p < nxt L)%nat -> heap L2 p = heap L p).
  { intros p Hp. rewrite B3, A5; auto. rewrite A2. intros F. apply in_seq in F. lia. }
  assert (D2 : forall a, dated_version (dates L2) (reg L a ++ made_to L2 a xs) (reg L2 a)).
  { intros a. eapply dated_ext; [intros; symmetry; apply B4|]. rewrite <- A3. apply R2. }
  assert (Ok2 : ledger_ok L2).
  { intros a. destruct (D2 a) as [K1 _]. split; [exact K1|]. pose proof (dated_perm _ _ _ (D2 a)) as P. destruct (Hok a) as (_ & K2 & K3). split.
    - eapply Permutation_NoDup; [exact P|]. apply NoDup_app_intro; [exact K2|apply NoDup_filter, Nd|].
      intros p Hp Hp2. apply filter_In in Hp2 as [Hp2 _]. apply (F1 a p Hp2). rewrite A3. exact Hp.
    - intros p Hp. apply (Permutation_in _ (Permutation_sym P)) in Hp. apply in_app_or in Hp as [Hp|Hp].
      + destruct (K3 p Hp) as [G1 G2]. rewrite Acc2 by exact G1. split; [lia|exact G2].
      + apply filter_In in Hp as [Hp G]. apply eqb_bytes_eq in G. rewrite A2 in Hp. apply in_seq in Hp. split; [lia|exact G]. }
  assert (Fin : (forall a, in_date_order (dates L2) (reg L2 a) /\ NoDup (reg L2 a))) by (intros a; destruct (Ok2 a) as (K1 & K2 & _); auto).
  assert (Ow : owned L2) by (intros a p Hp; destruct (Ok2 a) as (_ & _ & K); apply K, Hp).
  destruct (finish_spec comm conv chk _ _ _ _ E0 Fin Ow Na) as (C1 & C2 & C3 & C4 & C5 & C6 & C7 & C8).
  assert (D3 : forall p, dates L' p = dates L2 p) by (apply keeps_dates, C3).
  assert (Mt : forall a, made_to L' a xs = made_to L2 a xs).
  { intros a. apply made_ids_ext. intros p _. destruct (C3 p) as (_ & _ & K & _). exact K. }
  split; [reflexivity|]. split; [reflexivity|]. split; [exact A2|]. split; [congruence|]. split.
  { eapply Forall2_impl_in; [apply B6, A6|]. intros t x _ K. eapply resolved_keeps; [|exact K]. intros; apply C3. }
  split. { intros a. rewrite Mt, C2. eapply dated_ext; [intros; symmetry; apply D3|]. apply D2. }
  split. { intros p Hp. rewrite <- Acc2 by exact Hp. apply C3. }
  split.
  { intros a. rewrite C2. destruct (Ok2 a) as (K1 & K2 & K3). split; [eapply order_ext; [|exact K1]; intros; symmetry; apply D3|].
    split; [exact K2|]. intros p Hp. destruct (K3 p Hp) as [G1 G2]. rewrite C1. split; [exact G1|]. destruct (C3 p) as (_ & _ & -> & _). exact G2. }
  exists L2. split; [exact E|]. split; [exact E0|]. split; [exact Ok2|]. split; [intros; symmetry; apply C2|]. split; [exact C3|].
  split; [intros a; rewrite B2; apply A4|]. split; [exact Acc2|].
  apply (resolve_txs_bal find comm conv _ _ _ E Nd).
Qed.

(** ** Order of transactions *)
Lemma has_assertions_iff L x : has_assertions L x = true <-> asserts L x.
Proof. unfold has_assertions, asserts. apply existsb_exists. Qed.
Lemma tx_less_weak L : weak_order (tx_less L).
Proof.
  unfold weak_order, tx_less. split.
  - intros a b H. destruct (has_assertions L a), (has_assertions L b); lia.
  - intros a b c H1 H2. destruct (has_assertions L a), (has_assertions L b), (has_assertions L c); lia.
Qed.
Lemma sorted_ledger_order L xs : in_ledger_order L (stable_sort (tx_less L) xs).
Proof.
  pose proof (stable_sort_sorted (tx_less L) xs (tx_less_weak L)) as S. unfold sorted_by in S. unfold in_ledger_order.
  induction S as [|x l S IH F]; constructor; [exact IH|]. eapply Forall_impl; [|exact F]. cbn. intros y Hy.
  rewrite <- !has_assertions_iff. unfold tx_less in Hy. destruct (has_assertions L x), (has_assertions L y);
    (destruct (Z.eq_dec (x_posted x) (x_posted y)); [right; split; [assumption|]; intros G; auto; try discriminate; lia|left; lia]).
Qed.
Lemma sorted_stable L xs d (b : bool) :
  filter (fun x => (x_posted x =? d) && Bool.eqb (has_assertions L x) b) (stable_sort (tx_less L) xs) =
  filter (fun x => (x_posted x =? d) && Bool.eqb (has_assertions L x) b) xs.
Proof.
  apply stable_sort_stable. intros x y _ _ H1 H2. unfold tx_less. apply andb_true_iff in H1 as [H1 K1], H2 as [H2 K2].
  apply Bool.eqb_prop in K1, K2. rewrite K1, K2. destruct b; lia.
Qed.

(** ** lists sorted by a date *)
Section Key.
Context {A : Type} (key : A -> Z) (dflt : A).
Definition key_order (l : list A) : Prop := StronglySorted (fun x y => key x <= key y) l.
Lemma key_split d l : key_order l -> exists lo hi, l = lo ++ hi /\ (forall x, In x lo -> key x < d) /\ (forall x, In x hi -> d <= key x)
  /\ key_order hi.
Proof.
  induction 1 as [|x l H IH F].
  - exists [], []. repeat split; cbn; try tauto. constructor.
  - destruct (Z.lt_ge_cases (key x) d) as [E|E].
    + destruct IH as (lo & hi & -> & L & U & O). exists (x :: lo), hi. repeat split; auto. intros y [<-|Hy]; auto.
    + exists [], (x :: l). repeat split; cbn [In]; try tauto.
      * intros y [<-|Hy]; [lia|]. rewrite Forall_forall in F. specialize (F y Hy). lia.
      * constructor; auto.
Qed.
End Key.
Lemma search_loop_ext (f g : nat -> bool) : (forall i, f i = g i) -> forall fuel i j, search_loop fuel i j f = search_loop fuel i j g.
Proof.
  intros H. induction fuel as [|fu IH]; intros i j; cbn [search_loop]; [reflexivity|]. rewrite H, !IH. reflexivity.
Qed.
Lemma search_ext n (f g : nat -> bool) : (forall i, f i = g i) -> search n f = search n g.
Proof. intros H. apply search_loop_ext, H. Qed.
Lemma filter_filter {A} (P Q : A -> bool) l : filter P (filter Q l) = filter (fun x => Q x && P x) l.
Proof.
  induction l as [|x l IH]; cbn [filter]; [reflexivity|]. destruct (Q x); cbn [andb filter]; rewrite IH; reflexivity.
Qed.
Lemma day_filter xs d : key_order x_posted xs -> day xs d = filter (fun x => x_posted x =? d) xs.
Proof.
  intros H. unfold day. destruct (key_split x_posted d xs H) as (lo & hi & -> & L & U & O).
  set (dflt := mkTx 0 [] [] [] [] 0). cbv zeta.
  assert (S1 : search (List.length (lo ++ hi)) (fun i => negb (x_posted (nth i (lo ++ hi) dflt) <? d)) = List.length lo).
  { apply (search_split (fun x => negb (x_posted x <? d))); intros x Hx; [specialize (L x Hx)|specialize (U x Hx)]; lia. }
  rewrite S1. rewrite filter_app. rewrite (filter_none _ lo) by (intros x Hx; specialize (L x Hx); lia). cbn [app].
  rewrite app_length. destruct (Nat.eqb_spec (List.length lo) (List.length lo + List.length hi)) as [E|E].
  - destruct hi; [reflexivity|cbn in E; lia].
  - replace (List.length lo + List.length hi - List.length lo)%nat with (List.length hi) by lia.
    rewrite skipn_app, skipn_all, Nat.sub_diag. cbn [skipn app].
    destruct (key_split x_posted (d + 1) hi O) as (mid & hi2 & -> & L2 & U2 & O2).
    assert (S2 : search (List.length (mid ++ hi2)) (fun i => d <? x_posted (nth i (mid ++ hi2) dflt)) = List.length mid).
    { apply (search_split (fun x => d <? x_posted x)); intros x Hx; [specialize (L2 x Hx)|specialize (U2 x Hx)]; lia. }
    assert (S3 : search (List.length (mid ++ hi2)) (fun i => d <? x_posted (nth (List.length lo + i) (lo ++ mid ++ hi2) dflt)) = List.length mid).
    { rewrite <- S2. apply search_ext. intros i. rewrite app_nth2_plus. reflexivity. }
    rewrite S3. rewrite firstn_app, firstn_all, Nat.sub_diag, filter_app. cbn [firstn].
    rewrite (filter_none _ hi2) by (intros x Hx; specialize (U2 x Hx); lia).
    rewrite filter_all; [reflexivity|]. intros x Hx. specialize (L2 x Hx). specialize (U x (in_or_app _ _ _ (or_introl Hx))). lia.
Qed.

(** ** Dropping *)
Definition regs_ok (L : ledger) : Prop :=
  forall a, in_date_order (dates L) (reg L a) /\ NoDup (reg L a) /\ forall p, In p (reg L a) -> rp_acc (heap L p) = a.
Lemma drop_one L p : regs_ok L -> let L' := drop_posting L p in
  heap L' = heap L /\ nxt L' = nxt L /\ bal L' = bal L /\ regs_ok L' /\
  forall a, reg L' a = filter (fun q => negb (q =? p)%nat) (reg L a).
Proof.
  intros H L'. assert (R : forall a, reg L' a = filter (fun q => negb (q =? p)%nat) (reg L a)).
  { intros a. unfold L', drop_posting, delete_from, set_reg. cbn [reg]. unfold updb. destruct (eqb_bytes a (rp_acc (heap L p))) eqn:E.
    - apply eqb_bytes_eq in E. subst a. destruct (H (rp_acc (heap L p))) as (K1 & K2 & _). apply delete_remove; auto.
    - symmetry. apply filter_all. intros q Hq. destruct (Nat.eqb_spec q p) as [->|]; [|reflexivity]. exfalso.
      destruct (H a) as (_ & _ & K). specialize (K p Hq). subst a. rewrite eqb_bytes_refl in E. discriminate. }
  split; [reflexivity|]. split; [reflexivity|]. split; [reflexivity|]. split; [|exact R].
  intros a. rewrite R. destruct (H a) as (K1 & K2 & K3). split; [apply (order_filter (dates L)); exact K1|].
  split; [apply NoDup_filter; exact K2|]. intros q Hq. apply filter_In in Hq as [Hq _]. apply K3, Hq.
Qed.
Lemma drop_list : forall ps L, regs_ok L -> let L' := fold_left drop_posting ps L in
  heap L' = heap L /\ nxt L' = nxt L /\ bal L' = bal L /\ regs_ok L' /\
  forall a, reg L' a = filter (fun q => negb (existsb (Nat.eqb q) ps)) (reg L a).
Proof.
  induction ps as [|p ps IH]; intros L H; cbn [fold_left existsb].
  - split; [reflexivity|]. split; [reflexivity|]. split; [reflexivity|]. split; [exact H|]. intros a. symmetry. apply filter_all. auto.
  - destruct (drop_one L p H) as (A1 & A2 & A3 & A4 & A5). destruct (IH _ A4) as (B1 & B2 & B3 & B4 & B5).
    split; [congruence|]. split; [congruence|]. split; [congruence|]. split; [exact B4|].
    intros a. rewrite B5, A5. rewrite filter_filter. apply filter_ext. intros q. rewrite negb_orb. reflexivity.
Qed.
Lemma drop_transactions_flat : forall xs L, drop_transactions L xs = fold_left drop_posting (flat_map x_posts xs) L.
Proof.
  unfold drop_transactions. induction xs as [|x xs IH]; intros L; cbn [fold_left flat_map]; [reflexivity|].
  rewrite fold_left_app. apply IH.
Qed.

Lemma drop_load find comm conv accounts chk L ts L' ws sorted : ledger_ok L -> NoDup accounts ->
  load_transactions find comm conv accounts chk L ts = Ok (L', ws, sorted) ->
  forall a, reg (drop_transactions L' sorted) a = reg L a.
Proof.
  intros Hok Na H a. destruct (load_inv _ _ _ _ _ _ _ _ _ _ Hok Na H) as (L1 & xs & n & _ & Es & A1 & A2 & _ & A4 & A5 & A6 & _).
  rewrite drop_transactions_flat.
  assert (R : regs_ok L') by (intros b; destruct (A6 b) as (K1 & K2 & K3); split; [exact K1|]; split; [exact K2|]; intros p Hp; apply K3, Hp).
  destruct (drop_list (flat_map x_posts sorted) L' R) as (_ & _ & _ & _ & D). rewrite D.
  assert (M : forall q, existsb (Nat.eqb q) (flat_map x_posts sorted) = true <-> (nxt L <= q < nxt L + n)%nat).
  { intros q. rewrite existsb_exists.
    assert (P : Permutation (flat_map x_posts sorted) (seq (nxt L) n)).
    { rewrite <- A1. apply Permutation_flat_map. rewrite Es. symmetry. apply stable_sort_perm. }
    split.
    - intros (y & Hy & E). apply Nat.eqb_eq in E. subst y. apply (Permutation_in _ P) in Hy. apply in_seq in Hy. lia.
    - intros K. exists q. split; [|apply Nat.eqb_refl]. apply (Permutation_in _ (Permutation_sym P)). apply in_seq. lia. }
  destruct (A4 a) as [O1 O2]. destruct (Hok a) as (K1 & K2 & K3).
  assert (Kd : forall p, In p (reg L a) -> dates L' p = dates L p).
  { intros p Hp. destruct (A5 p) as (E & _); [apply K3, Hp|]. exact E. }
  apply (days_unique (dates L')).
  - apply order_filter, O1.
  - eapply order_ext; [|exact K1]. intros p Hp. symmetry. apply Kd, Hp.
  - intros d. specialize (O2 d). unfold of_day in *. rewrite filter_filter.
    rewrite (filter_ext _ (fun x => (dates L' x =? d) && negb (existsb (Nat.eqb x) (flat_map x_posts sorted)))) by (intros; apply andb_comm).
    rewrite <- filter_filter, O2, filter_app, filter_app.
    rewrite (filter_all _ (filter _ (reg L a))), (filter_none _ (filter _ (made_to _ _ _))).
    + apply app_nil_r.
    + intros x Hx. apply filter_In in Hx as [Hx _]. apply filter_In in Hx as [Hx _]. rewrite A1 in Hx. apply in_seq in Hx.
      apply negb_false_iff, M. lia.
    + intros x Hx. apply filter_In in Hx as [Hx _]. apply K3 in Hx as [Hx _]. apply negb_true_iff.
      destruct (existsb (Nat.eqb x) (flat_map x_posts sorted)) eqn:E; [|reflexivity]. apply M in E. lia.
Qed.

Lemma empty_ok : ledger_ok empty_ledger.
Proof. intros a. cbn. split; [constructor|]. split; [constructor|]. intros p []. Qed.

Lemma load_checked find comm conv accounts ts L' ws sorted : NoDup accounts ->
  load_transactions find comm conv accounts true empty_ledger ts = Ok (L', ws, sorted) ->
  (forall a, In a accounts ->
     add_all conv (zero_amount (comm a)) (quantities L' (reg L' a)) = Ok (balance_of comm L' a) /\
     forall l1 p l2, reg L' a = l1 ++ p :: l2 -> exists b,
       add_all conv (zero_amount (comm a)) (quantities L' (l1 ++ [p])) = Ok b /\
       (rp_asserted (heap L' p) = false -> rp_bal (heap L' p) = Some b /\ ~ In p ws) /\
       (rp_asserted (heap L' p) = true -> exists b' e, rp_bal (heap L' p) = Some b' /\ is_equal b b' = Ok e /\ (In p ws <-> e = false))) /\
  (forall p, In p ws -> exists a, In a accounts /\ In p (reg L' a)).
Proof.
  intros Na H. destruct (load_inv _ _ _ _ _ _ _ _ _ _ empty_ok Na H)
    as (L1 & xs & n & Ea & Es & A1 & A2 & _ & A4 & A5 & A6 & L2 & B1 & B2 & B3 & B4 & B5 & B6 & B7 & B8).
  assert (Fin : (forall a, in_date_order (dates L2) (reg L2 a) /\ NoDup (reg L2 a))) by (intros a; destruct (B3 a) as (K1 & K2 & _); auto).
  assert (Ow : owned L2) by (intros a p Hp; destruct (B3 a) as (_ & _ & K); apply K, Hp).
  destruct (finish_spec comm conv true _ _ _ _ B2 Fin Ow Na) as (C1 & C2 & C3 & C4 & C5 & C6 & C7 & C8).
  assert (Z0 : forall a, balance_of comm L2 a = zero_amount (comm a)) by (intros a; unfold balance_of; rewrite B6; reflexivity).
  assert (Q : forall l, quantities L' l = quantities L2 l) by (intros; apply quantities_keeps, C3).
  split.
  - intros a Ha. destruct (C6 eq_refl a Ha) as (K1 & K2 & K3). rewrite Z0 in *. rewrite <- B4, Q. split; [exact K2|].
    intros l1 p l2 El. destruct (K3 _ _ _ El) as (b & J1 & J2). exists b. rewrite Q. split; [exact J1|].
    assert (Hp : In p (flat_map x_posts xs)).
    { assert (I : In p (reg L' a)) by (rewrite <- B4, El; apply in_elt).
      apply (Permutation_in _ (Permutation_sym (dated_perm _ _ _ (A4 a)))) in I. cbn in I. apply filter_In in I. tauto. }
    assert (As : rp_asserted (heap L2 p) = match rp_bal (heap L2 p) with Some _ => true | None => false end).
    { destruct (B8 p) as [-> ->]. destruct (alloc_txs_spec _ _ _ _ Ea) as (_ & _ & _ & _ & F).
      clear - F Hp. induction F as [|t x ts xs E F IH]; cbn [flat_map] in Hp; [destruct Hp|].
      apply in_app_or in Hp as [Hp|Hp]; [|apply IH, Hp]. destruct E as (_ & _ & _ & _ & E). clear - E Hp.
      induction E as [|s q ss qs Hs E IH]; [destruct Hp|]. destruct Hp as [<-|Hp]; [rewrite Hs; reflexivity|apply IH, Hp]. }
    destruct (C3 p) as (_ & _ & _ & _ & -> & _). rewrite As. unfold checked_posting in J2.
    destruct (rp_bal (heap L2 p)) as [b'|] eqn:Eb; (split; [|]); intros G; try discriminate.
    + destruct J2 as (-> & e & J3 & J4). exists b', e. rewrite Eb. auto.
    + destruct J2 as (-> & J3). cbn. auto.
  - intros p Hp. destruct (C7 p Hp) as (a & K1 & K2). exists a. rewrite <- B4. auto.
Qed.
