(** Lemmas about M_Gnucash: transactions and registers. *)
From Coq Require Import Permutation Sorted.
From Verif Require Import Base M_Amount M_Regex M_Date M_Parser M_Writer M_Names M_Ledger S_Books S_Decimal S_Amount S_Date S_DateText L_Dec L_Amount L_Date L_Sort L_Names
  L_Report L_Entries L_Resolve L_Resolve2 L_Check M_Gnucash S_Gnucash L_Gnucash L_Gnucash2.

Section T.
Variable junk : bytes -> Z.
Variable acs : list caccount.

Lemma account_of_sound g a : account_of acs g = Some a -> In a acs /\ ca_guid a = g.
Proof. intros H. apply find_some in H as [I E]. apply eqb_bytes_eq in E. auto. Qed.
Lemma account_of_complete g : (exists a, In a acs /\ ca_guid a = g) -> exists a, account_of acs g = Some a.
Proof.
  intros (a & I & E). destruct (account_of acs g) as [b|] eqn:F; [eauto|]. pose proof (find_none _ _ F a I) as X. cbn in X.
  rewrite (proj2 (eqb_bytes_eq _ _) E) in X. discriminate.
Qed.

Definition fresh (L : ledger) (p : nat) : Prop :=
  rp_bal (heap L p) = None /\ rp_asserted (heap L p) = false /\
  exists q, rp_qty (heap L p) = Some q /\ a_com q = commodity_of acs (rp_acc (heap L p)).
Lemma fresh_ext L L' p : heap L' p = heap L p -> fresh L p -> fresh L' p.
Proof. intros E. unfold fresh. rewrite E. auto. Qed.
Lemma posting_from_keeps L L' t s p : keeps (heap L p) (heap L' p) -> posting_from acs L t s p -> posting_from acs L' t s p.
Proof.
  intros (K1 & K2 & K3 & K4 & K5 & K6 & K7) (H1 & H2 & H3 & H4 & a & q & H5). unfold posting_from. rewrite K1, K3, K4, K5, K6.
  split; [exact H1|]. split; [exact H2|]. split; [exact H3|]. split; [exact H4|]. exists a, q. exact H5.
Qed.
Lemma memo_notes_opt m : memo_notes m (opt_note m).
Proof. unfold memo_notes. destruct m; [left; auto|right; split; [discriminate|reflexivity]]. Qed.
Definition on (L : ledger) (g : bytes) : nat -> bool := fun p => eqb_bytes (rp_acc (heap L p)) g.

Lemma resolve_splits_spec t : forall ss L L' ids, resolve_splits junk acs t L ss = Ok (L', ids) ->
  ids = seq (nxt L) (List.length ss) /\ nxt L' = (nxt L + List.length ss)%nat /\ bal L' = bal L /\
  (forall p, (p < nxt L)%nat -> heap L' p = heap L p) /\
  (forall g, reg L' g = reg L g ++ filter (on L' g) ids) /\
  Forall2 (posting_from acs L' t) ss ids /\ Forall (fresh L') ids.
Proof.
  induction ss as [|s ss IH]; intros L L' ids H; cbn [resolve_splits] in H.
  - injection H as <- <-. cbn. rewrite Nat.add_0_r. repeat (split; [solve [auto]|]). split; [intros g; rewrite app_nil_r; reflexivity|]. split; constructor.
  - destruct (account_of acs (gs_account s)) as [a|] eqn:A; [|discriminate]. apply bind_ok in H as (q & Hq & H). cbn zeta in H. apply bind_ok in H as ([L2 ids2] & Hr & H). cbn [fst snd] in H. injection H as <- <-.
    match type of Hr with resolve_splits _ _ _ ?X _ = _ => set (L1 := X) in * end.
    destruct (IH _ _ _ Hr) as (I1 & I2 & I3 & I4 & I5 & I6 & I7).
    destruct (account_of_sound _ _ A) as [Ia Ea].
    assert (Hp : heap L2 (nxt L) = mkRP t [] (ca_guid a) (Some q) None false (opt_note (gs_memo s))).
    { rewrite I4 by (cbn; lia). cbn. apply updn_same. }
    destruct (gnc_amount_com _ _ _ _ Hq) as [Cq Fq].
    split; [cbn [List.length seq]; f_equal; exact I1|]. split; [rewrite I2; cbn; lia|]. split; [rewrite I3; reflexivity|].
    split; [intros p Hlt; rewrite I4 by (cbn; lia); cbn; apply updn_other; lia|].
    split.
    { intros g. rewrite I5. cbn [reg L1 filter]. unfold on at 2. rewrite Hp. cbn [rp_acc]. unfold updb.
      destruct (eqb_bytes g (ca_guid a)) eqn:E1.
      - apply eqb_bytes_eq in E1. subst g. rewrite (proj2 (eqb_bytes_eq _ _) eq_refl). rewrite <- app_assoc. reflexivity.
      - destruct (eqb_bytes (ca_guid a) g) eqn:E2; [apply eqb_bytes_eq in E2; subst g; rewrite (proj2 (eqb_bytes_eq _ _) eq_refl) in E1; discriminate|]. reflexivity. }
    split; constructor; auto.
    + unfold posting_from. rewrite Hp. cbn [rp_date rp_acc rp_notes rp_asserted rp_qty]. split; [reflexivity|]. split; [exact Ea|].
      split; [apply memo_notes_opt|]. split; [reflexivity|]. exists a, q. auto.
    + unfold fresh. rewrite Hp. cbn [rp_bal rp_asserted rp_qty rp_acc]. split; [reflexivity|]. split; [reflexivity|]. exists q. split; [reflexivity|].
      unfold commodity_of. rewrite Ea, A. exact Cq.
Qed.
Lemma resolve_splits_total t : forall ss L, (forall s, In s ss -> (exists a, In a acs /\ ca_guid a = gs_account s) /\ exists n d, fraction (gs_quantity s) n d /\ 0 < d) ->
  (forall a, In a acs -> (c_dec (ca_commodity a) <= 50)%nat) -> exists r, resolve_splits junk acs t L ss = Ok r.
Proof.
  induction ss as [|s ss IH]; intros L H D; cbn [resolve_splits]; [eauto|].
  destruct (H s (or_introl eq_refl)) as (Ha & n & d & F & P). destruct (account_of_complete _ Ha) as (a & E). rewrite E.
  destruct (gnc_amount_total junk _ _ _ (ca_commodity a) F P) as (q & ->); [apply D; eapply account_of_sound; eassumption|]. cbn [bind].
  match goal with |- context [resolve_splits _ _ _ ?X ss] => destruct (IH X) as (r & ->) end; [intros; apply H; right; assumption|exact D|]. cbn. eauto.
Qed.

(** ** descriptions *)
Lemma has_prefix_dash s : has_prefix (B " - ") s = true <-> exists y, s = B " - " ++ y.
Proof.
  split.
  - intros H. destruct s as [|a [|b [|c s]]]; cbn in H; rewrite ?andb_false_r in H; try discriminate. rewrite !andb_true_iff in H. destruct H as (H1 & H2 & H3 & _).
    apply eqc_eq in H1, H2, H3. subst. exists s. reflexivity.
  - intros (y & ->). reflexivity.
Qed.
Lemma split_dash_spec s : forall d o, split_dash s = (d, o) ->
  match o with
  | Some n => s = d ++ B " - " ++ n /\ (forall x y, d ++ B " -" <> x ++ B " - " ++ y)
  | None => (forall x y, s <> x ++ B " - " ++ y) /\ d = s
  end.
Proof.
  induction s as [|c s IH]; intros d o H; cbn [split_dash] in H.
  - injection H as <- <-. split; [|reflexivity]. intros x y E. destruct x; discriminate E.
  - destruct (has_prefix (B " - ") (c :: s)) eqn:P.
    + apply has_prefix_dash in P as (y & P). rewrite P in H. injection H as <- <-. rewrite P. split; [reflexivity|].
      intros x y' E. destruct x as [|a [|b [|]]]; discriminate E.
    + destruct (split_dash s) as [d' o'] eqn:E. injection H as <- <-. specialize (IH _ _ eq_refl).
      assert (N : forall y, c :: s <> B " - " ++ y) by (intros y Q; rewrite (proj2 (has_prefix_dash _)) in P; [discriminate|eauto]).
      destruct o' as [n|].
      * destruct IH as [-> IH]. split; [reflexivity|]. intros x y Q. destruct x as [|a x].
        -- destruct d' as [|e d']; [|destruct d' as [|f d']].
           ++ cbn in Q. injection Q as ->. discriminate.
           ++ cbn in Q. injection Q as -> -> . discriminate.
           ++ cbn in Q. injection Q as -> -> -> _. apply (N (d' ++ B " - " ++ n)). reflexivity.
        -- injection Q as _ Q. exact (IH _ _ Q).
      * destruct IH as [IH ->]. split; [|reflexivity]. intros x y Q. destruct x as [|a x]; [exact (N _ Q)|]. injection Q as _ Q. exact (IH _ _ Q).
Qed.
Lemma described_split s : described s (fst (split_dash s)) (match snd (split_dash s) with Some n => opt_note n | None => [] end).
Proof.
  destruct (split_dash s) as [d [n|]] eqn:E; apply split_dash_spec in E; cbn [fst snd].
  - left. exists n. destruct E as [E1 E2]. split; [exact E1|]. split; [exact E2|]. destruct n; reflexivity.
  - right. destruct E as [E1 E2]. auto.
Qed.

(** ** all transactions *)
Definition raw (L : ledger) (xs : list gtx) : Prop :=
  flat_map g_posts xs = seq 0 (nxt L) /\ (forall g, bal L g = None) /\ (forall p, (p < nxt L)%nat -> fresh L p) /\
  (forall g, reg L g = filter (on L g) (flat_map g_posts xs)).
Lemma filter_on_ext L L' g l : (forall p, In p l -> heap L' p = heap L p) -> filter (on L' g) l = filter (on L g) l.
Proof. intros H. apply filter_ext_in. intros p I. unfold on. rewrite H by exact I. reflexivity. Qed.
Lemma transaction_from_keeps L L' t x : (forall p, In p (g_posts x) -> keeps (heap L p) (heap L' p)) -> transaction_from acs L t x -> transaction_from acs L' t x.
Proof.
  intros K (H1 & H2 & H3 & H4). split; [exact H1|]. split; [exact H2|]. split; [exact H3|].
  clear -K H4. induction H4; constructor; [eapply posting_from_keeps; [apply K; left; reflexivity|eassumption]|]. apply IHForall2. intros p I. apply K. right. exact I.
Qed.
Lemma resolve_all_spec : forall ts L L' xs pre, resolve_all_trans junk acs L ts = Ok (L', xs) -> raw L pre ->
  raw L' (pre ++ xs) /\ (forall p, (p < nxt L)%nat -> heap L' p = heap L p) /\ (nxt L <= nxt L')%nat /\ Forall2 (transaction_from acs L') ts xs.
Proof.
  induction ts as [|t ts IH]; intros L L' xs pre H R; cbn [resolve_all_trans] in H.
  - injection H as <- <-. rewrite app_nil_r. split; [exact R|]. split; [reflexivity|]. split; [lia|constructor].
  - apply bind_ok in H as ([L1 x] & Ht & H). apply bind_ok in H as ([L2 ys] & Hr & H). cbn [fst snd] in *. injection H as <- <-.
    unfold resolve_trans in Ht. cbn zeta in Ht. apply bind_ok in Ht as (st & Hs & Ht). apply bind_ok in Ht as ([L1' ids] & Hp & Ht). cbn [fst snd] in Ht. injection Ht as E1 E2. subst L1'.
    destruct (resolve_splits_spec _ _ _ _ _ Hp) as (I1 & I2 & I3 & I4 & I5 & I6 & I7).
    destruct R as (R1 & R2 & R3 & R4).
    assert (Xp : g_posts x = ids) by (subst x; reflexivity).
    assert (R' : raw L1 (pre ++ [x])).
    { assert (Fm : flat_map g_posts (pre ++ [x]) = seq 0 (nxt L) ++ ids) by (rewrite flat_map_app, R1; cbn; rewrite app_nil_r, Xp; reflexivity).
      split; [|split; [|split]].
      - rewrite Fm, I2, I1, seq_app. reflexivity.
      - intros g. rewrite I3. apply R2.
      - intros p Lt. destruct (Nat.lt_ge_cases p (nxt L)) as [C|C]; [apply (fresh_ext L); [apply I4, C|apply R3, C]|].
        rewrite Forall_forall in I7. apply I7. rewrite I1. apply in_seq. lia.
      - intros g. rewrite I5, Fm, filter_app, R4, R1. f_equal. symmetry. apply filter_on_ext. intros p I. apply in_seq in I. apply I4. lia. }
    destruct (IH _ _ _ _ Hr R') as (Q1 & Q2 & Q3 & Q4). rewrite <- app_assoc in Q1. split; [exact Q1|].
    split; [intros p Lt; rewrite Q2 by lia; apply I4, Lt|]. split; [lia|].
    constructor; [|exact Q4]. apply (transaction_from_keeps L1).
    + intros p I. rewrite Xp, I1 in I. apply in_seq in I. rewrite Q2 by lia. apply keeps_refl.
    + subst x. split; [apply stamp_sound, Hs|]. split; [reflexivity|]. split; [apply described_split|exact I6].
Qed.
Lemma resolve_all_total : forall ts L,
  (forall t, In t ts -> (exists m, moment_ok m /\ gt_posted t = moment_text m) /\
     forall s, In s (gt_splits t) -> (exists a, In a acs /\ ca_guid a = gs_account s) /\ exists n d, fraction (gs_quantity s) n d /\ 0 < d) ->
  (forall a, In a acs -> (c_dec (ca_commodity a) <= 50)%nat) -> exists r, resolve_all_trans junk acs L ts = Ok r.
Proof.
  induction ts as [|t ts IH]; intros L H D; cbn [resolve_all_trans]; [eauto|].
  destruct (H t (or_introl eq_refl)) as ((m & M & E) & S). unfold resolve_trans. cbn zeta. rewrite E. destruct (stamp_complete m M) as (st & ->). cbn [bind].
  destruct (resolve_splits_total (instant st) (gt_splits t) L S D) as ([L1 ids] & ->). cbn [bind fst snd].
  destruct (IH L1) as (r & ->); [intros; apply H; right; assumption|exact D|]. cbn. eauto.
Qed.

(** ** registers and balances *)
Variable ssort : forall A, (A -> A -> bool) -> list A -> list A.
Hypothesis SS : sorts ssort.
Variable conv : conversion.
Lemma ltb_weak {A} (f : A -> Z) : weak_order (fun x y => f x <? f y).
Proof. split; intros; lia. Qed.

(** a register in order with running balances *)
Definition sum_to (L : ledger) (ps : list nat) : Z := zsum (map a_int (quantities L ps)).
Definition running (L : ledger) (g : bytes) : Prop :=
  forall l1 p l2, reg L g = l1 ++ p :: l2 -> rp_bal (heap L p) = Some (mkAmount (sum_to L (l1 ++ [p])) (commodity_of acs g)).

(** during the loop: [done] are the guids handled *)
Record state (L0 L : ledger) (done_ : list bytes) : Prop := {
  s_nxt : nxt L = nxt L0;
  s_keeps : forall p, keeps (heap L0 p) (heap L p);
  s_new : forall p, ~ In (rp_acc (heap L0 p)) done_ -> heap L p = heap L0 p;
  s_reg : forall g, ~ In g done_ -> reg L g = reg L0 g /\ bal L g = bal L0 g;
  s_done : forall g, In g done_ -> Permutation (reg L0 g) (reg L g) /\ in_date_order (dates L0) (reg L g) /\ running L g }.

Lemma quantities_com L g ps : (forall p, In p ps -> fresh L p /\ rp_acc (heap L p) = g) -> Forall (fun q => a_com q = commodity_of acs g) (quantities L ps).
Proof.
  intros H. apply Forall_forall. intros q I. unfold quantities in I. apply in_flat_map in I as (p & Ip & I). destruct (H p Ip) as ((_ & _ & q' & E & C) & A).
  rewrite E in I. destruct I as [<-|[]]. rewrite C, A. reflexivity.
Qed.
Lemma check_total L g : forall ps, (forall p, In p ps -> exists q, rp_qty (heap L p) = Some q /\ a_com q = commodity_of acs g /\ rp_bal (heap L p) = None) -> NoDup ps ->
  (forall b, bal L g = Some b -> a_com b = commodity_of acs g) ->
  exists r, check_loop (commodity_of acs) conv L g ps = Ok r.
Proof.
  intros ps. revert L. induction ps as [|p ps IH]; intros L H N Hb; cbn [check_loop]; [eauto|]. destruct (H p (or_introl eq_refl)) as (q & E & C & Bn). rewrite E.
  assert (Bc : a_com (balance_of (commodity_of acs) L g) = commodity_of acs g) by (unfold balance_of; destruct (bal L g); [apply Hb; reflexivity|reflexivity]).
  rewrite add_in_same by congruence. cbn [bind]. cbn zeta. cbn [heap set_bal]. rewrite Bn. inversion N as [|? ? Np Nr]; subst. apply IH; [| exact Nr|].
  - intros p' I. cbn. rewrite updn_other by (intros ->; exact (Np I)). apply H. right. exact I.
  - intros b. cbn. rewrite updb_same. intros [= <-]. cbn. exact Bc.
Qed.

Lemma finish_step L0 L done_ g L1 Lw :
  (forall p, (p < nxt L0)%nat -> fresh L0 p) -> (forall g, bal L0 g = None) ->
  (forall g, NoDup (reg L0 g) /\ forall p, In p (reg L0 g) -> (p < nxt L0)%nat /\ rp_acc (heap L0 p) = g) ->
  state L0 L done_ -> ~ In g done_ ->
  L1 = set_reg L g (ssort nat (fun p q => dates L p <? dates L q) (reg L g)) ->
  check_postings (commodity_of acs) conv L1 g = Ok Lw -> state L0 (fst Lw) (g :: done_).
Proof.
  intros F0 B0 O0 S Nd -> H. destruct Lw as [L2 ws]. cbn [fst]. destruct S as [S1 S2 S3 S4 S5]. destruct (S4 g Nd) as [Rg Bg].
  destruct (SS nat (fun p q => dates L p <? dates L q) (reg L g)) as [Pm Sd]. specialize (Sd (ltb_weak (dates L))).
  unfold check_postings in H. cbn [reg set_reg] in H. rewrite updb_same in H. set (ps := ssort nat _ (reg L g)) in *. rewrite Rg in Pm.
  destruct (O0 g) as [Ng Og].
  assert (Np : NoDup ps) by (eapply Permutation_NoDup; eassumption).
  assert (In0 : forall p, In p ps -> (p < nxt L0)%nat /\ rp_acc (heap L0 p) = g) by (intros p I; apply Og, (Permutation_in _ (Permutation_sym Pm)), I).
  assert (Hh : forall p, In p ps -> heap L p = heap L0 p) by (intros p I; apply S3; destruct (In0 p I) as [_ ->]; exact Nd).
  destruct (check_loop_spec _ conv g _ _ _ _ H Np) as (C1 & C2 & C3 & C4 & C5 & C6 & C7 & C8 & C9 & _).
  pose proof (check_keeps _ conv g _ _ _ _ H Np) as Ck. cbn [heap set_reg nxt bal] in *.
  assert (D0 : forall p, dates L p = dates L0 p) by (intros p; unfold dates; destruct (S2 p) as (E & _); exact E).
  assert (Bz : balance_of (commodity_of acs) (set_reg L g ps) g = zero_amount (commodity_of acs g)) by (unfold balance_of; cbn; rewrite Bg, B0; reflexivity).
  assert (Qk : forall l, quantities L2 l = quantities L0 l).
  { intros l. apply quantities_ext. intros p _. destruct (Ck p) as (_ & _ & _ & E & _). destruct (S2 p) as (_ & _ & _ & E' & _). congruence. }
  assert (Cq : forall l, incl l ps -> Forall (fun q => a_com q = commodity_of acs g) (quantities L0 l)).
  { intros l I. apply quantities_com. intros p Ip. destruct (In0 p (I p Ip)) as [Lt A]. split; [apply F0, Lt|exact A]. }
  constructor.
  - congruence.
  - intros p. eapply keeps_trans; [apply S2|apply Ck].
  - intros p Ni. rewrite C4; [apply S3; intros I; apply Ni; right; exact I|]. intros I. apply Ni. left. symmetry. apply In0, I.
  - intros g' Ni. assert (Ne : g' <> g) by (intros ->; apply Ni; left; reflexivity). rewrite C2, C3 by exact Ne. cbn. rewrite updb_other by exact Ne.
    apply S4. intros I. apply Ni. right. exact I.
  - intros g' [<-|I].
    + rewrite C2. cbn. rewrite updb_same. split; [exact Pm|]. split.
      * unfold sorted_by in Sd. unfold in_date_order. clear -Sd D0. induction Sd as [|p l Hs IH Hf]; constructor; [exact IH|].
        eapply Forall_impl; [|exact Hf]. cbn. intros q E. rewrite <- !D0. lia.
      * unfold running. rewrite C2. cbn. rewrite updb_same. intros l1 p l2 E. destruct (C9 _ _ _ E) as (b & Eb & Ck2).
        assert (Ip : In p ps) by (rewrite E; apply in_or_app; right; left; reflexivity).
        assert (Bn : rp_bal (heap L p) = None) by (rewrite (Hh p Ip); apply F0, In0, Ip).
        unfold checked_posting in Ck2. rewrite Bn in Ck2. destruct Ck2 as [-> _]. cbn [rp_bal with_bal]. f_equal.
        rewrite Bz in Eb. rewrite add_all_same in Eb.
        -- unfold sum_to. rewrite Qk. injection Eb as <-. cbn [zero_amount a_int a_com]. f_equal. f_equal. f_equal.
           apply quantities_ext. intros p' _. cbn. destruct (S2 p') as (_ & _ & _ & E' & _). congruence.
        -- replace (quantities (set_reg L g ps) (l1 ++ [p])) with (quantities L0 (l1 ++ [p])).
           2:{ symmetry. apply quantities_ext. intros p' _. cbn. destruct (S2 p') as (_ & _ & _ & E' & _). congruence. }
           apply Cq. rewrite E. intros x Ix. rewrite in_app_iff in *. destruct Ix as [Ix|[<-|[]]]; [left; exact Ix|right; left; reflexivity].
    + assert (Ne : g' <> g) by (intros ->; exact (Nd I)). rewrite C2. cbn. rewrite updb_other by exact Ne. destruct (S5 g' I) as (P1 & P2 & P3).
      split; [exact P1|]. split; [exact P2|]. unfold running in *. rewrite C2. cbn. rewrite updb_other by exact Ne. intros l1 p l2 E.
      assert (Ip : In p (reg L g')) by (rewrite E; apply in_or_app; right; left; reflexivity).
      assert (Ap : rp_acc (heap L0 p) = g') by (destruct (O0 g') as [_ X]; apply X, (Permutation_in _ (Permutation_sym P1)), Ip).
      rewrite C4 by (intros J; apply Ne; rewrite <- Ap; apply In0, J). rewrite (P3 _ _ _ E). f_equal. f_equal. unfold sum_to. f_equal. f_equal.
      apply quantities_ext. intros p' _. destruct (Ck p') as (_ & _ & _ & E' & _). congruence.
Qed.
Lemma finish_guids_spec L0 : (forall p, (p < nxt L0)%nat -> fresh L0 p) -> (forall g, bal L0 g = None) ->
  (forall g, NoDup (reg L0 g) /\ forall p, In p (reg L0 g) -> (p < nxt L0)%nat /\ rp_acc (heap L0 p) = g) ->
  forall order L done_, state L0 L done_ -> NoDup order -> (forall g, In g order -> ~ In g done_) ->
  exists L', finish_guids ssort (commodity_of acs) conv L order = Ok L' /\ state L0 L' (rev order ++ done_).
Proof.
  intros F0 B0 O0. induction order as [|g order IH]; intros L done_ S N D; cbn [finish_guids]; [eauto|].
  inversion N as [|? ? Ng Nr]; subst. set (L1 := set_reg L g _).
  assert (Dg : ~ In g done_) by (apply D; left; reflexivity).
  assert (T : exists r, check_postings (commodity_of acs) conv L1 g = Ok r).
  { destruct S as [S1 S2 S3 S4 S5]. destruct (S4 g Dg) as [Rg Bg]. unfold check_postings. apply check_total.
    - intros p I. unfold L1 in I. cbn in I. rewrite updb_same, Rg in I. destruct (SS nat (fun p q => dates L p <? dates L q) (reg L0 g)) as [Pm _].
      apply (Permutation_in _ (Permutation_sym Pm)) in I. destruct (O0 g) as [_ X]. destruct (X p I) as [Lt A]. cbn. rewrite S3 by (rewrite A; exact Dg).
      destruct (F0 p Lt) as (b1 & _ & q & Eq & C). exists q. rewrite A in C. auto.
    - unfold L1. cbn. rewrite updb_same, Rg. destruct (SS nat (fun p q => dates L p <? dates L q) (reg L0 g)) as [Pm _]. eapply Permutation_NoDup; [exact Pm|apply O0].
    - intros b. unfold L1. cbn. rewrite Bg, B0. discriminate. }
  destruct T as (Lw & T). rewrite T. cbn [bind].
  pose proof (finish_step L0 L done_ g L1 Lw F0 B0 O0 S Dg eq_refl T) as S'.
  destruct (IH (fst Lw) (g :: done_) S' Nr) as (L' & E & S2).
  - intros g' I [<-|J]; [exact (Ng I)|]. apply (D g'); [right; exact I|exact J].
  - exists L'. split; [exact E|]. cbn [rev]. rewrite <- app_assoc. exact S2.
Qed.
Lemma state_refl L : state L L [].
Proof. constructor; auto using keeps_refl. intros g []. Qed.

Lemma raw_registers L xs : raw L xs -> forall g, NoDup (reg L g) /\ forall p, In p (reg L g) -> (p < nxt L)%nat /\ rp_acc (heap L p) = g.
Proof.
  intros (R1 & R2 & R3 & R4) g. rewrite R4, R1. split; [apply NoDup_filter, seq_NoDup|]. intros p I. apply filter_In in I as [I E].
  apply in_seq in I. apply eqb_bytes_eq in E. split; [lia|exact E].
Qed.
Lemma raw_empty : raw no_ledger [].
Proof. split; [reflexivity|]. split; [reflexivity|]. split; [cbn; lia|reflexivity]. Qed.

Theorem resolve_spec order ts L xs : NoDup order -> resolve_transactions_of junk ssort acs conv order ts = Ok (L, xs) ->
  exists ys, Permutation ys xs /\ Forall2 (transaction_from acs L) ts ys /\ by_time xs /\
    (forall g, In g order -> Permutation (postings_to L g ys) (reg L g) /\ in_date_order (dates L) (reg L g) /\ running L g).
Proof.
  intros N H. unfold resolve_transactions_of in H. apply bind_ok in H as ([L0 ys] & Hr & H). cbn [fst snd] in H.
  destruct (resolve_all_spec _ _ _ _ [] Hr raw_empty) as (R & _ & _ & F). cbn [app] in R.
  pose proof (raw_registers _ _ R) as O0. destruct R as (R1 & R2 & R3 & R4).
  destruct (finish_guids_spec L0 R3 R2 O0 order L0 [] (state_refl L0) N) as (L' & E & S); [easy|]. rewrite E in H. cbn [bind] in H. injection H as <- <-.
  destruct S as [S1 S2 S3 S4 S5].
  exists ys. destruct (SS gtx (fun x y => instant (g_time x) <? instant (g_time y)) ys) as [Pm Sd]. specialize (Sd (ltb_weak _)).
  split; [exact Pm|]. split; [|split].
  - clear -F S2. induction F; constructor; auto. eapply transaction_from_keeps; [|eassumption]. auto.
  - unfold sorted_by in Sd. unfold by_time. clear -Sd. induction Sd as [|p l Hs IH Hf]; constructor; [exact IH|]. eapply Forall_impl; [|exact Hf]. cbn. intros. lia.
  - intros g I. assert (I' : In g (rev order ++ [])) by (rewrite app_nil_r; apply in_rev in I; exact I).
    destruct (S5 g I') as (P1 & P2 & P3). split; [|split; [|exact P3]].
    + rewrite R4 in P1. replace (postings_to L' g ys) with (filter (on L0 g) (flat_map g_posts ys)); [exact P1|].
      apply filter_ext. intros p. unfold on. destruct (S2 p) as (_ & _ & -> & _). reflexivity.
    + unfold in_date_order in *. clear -P2 S2. induction P2 as [|p l Hs IH Hf]; constructor; [exact IH|]. eapply Forall_impl; [|exact Hf]. cbn.
      intros q. unfold dates. destruct (S2 p) as (-> & _), (S2 q) as (-> & _). auto.
Qed.
(** what is written of the transactions does not depend on the order of the loop *)
Lemma resolve_keeps order ts L xs : NoDup order -> resolve_transactions_of junk ssort acs conv order ts = Ok (L, xs) ->
  exists L0 ys, resolve_all_trans junk acs no_ledger ts = Ok (L0, ys) /\ (forall p, keeps (heap L0 p) (heap L p)) /\ xs = ssort gtx (fun x y => instant (g_time x) <? instant (g_time y)) ys.
Proof.
  intros N H. unfold resolve_transactions_of in H. apply bind_ok in H as ([L0 ys] & Hr & H). cbn [fst snd] in H.
  destruct (resolve_all_spec _ _ _ _ [] Hr raw_empty) as (R & _ & _ & F). cbn [app] in R.
  pose proof (raw_registers _ _ R) as O0. destruct R as (R1 & R2 & R3 & R4).
  destruct (finish_guids_spec L0 R3 R2 O0 order L0 [] (state_refl L0) N) as (L' & E & S); [easy|]. rewrite E in H. cbn [bind] in H. injection H as <- <-.
  destruct S as [S1 S2 S3 S4 S5]. exists L0, ys. auto.
Qed.
Theorem resolve_total order ts : NoDup order ->
  (forall t, In t ts -> (exists m, moment_ok m /\ gt_posted t = moment_text m) /\
     forall s, In s (gt_splits t) -> (exists a, In a acs /\ ca_guid a = gs_account s) /\ exists n d, fraction (gs_quantity s) n d /\ 0 < d) ->
  (forall a, In a acs -> (c_dec (ca_commodity a) <= 50)%nat) ->
  exists L xs, resolve_transactions_of junk ssort acs conv order ts = Ok (L, xs).
Proof.
  intros N H D. unfold resolve_transactions_of. destruct (resolve_all_total ts no_ledger H D) as ([L0 ys] & E). rewrite E. cbn [bind fst snd].
  destruct (resolve_all_spec _ _ _ _ [] E raw_empty) as (R & _ & _ & F). cbn [app] in R.
  pose proof (raw_registers _ _ R) as O0. destruct R as (R1 & R2 & R3 & R4).
  destruct (finish_guids_spec L0 R3 R2 O0 order L0 [] (state_refl L0) N) as (L' & E' & S); [easy|]. rewrite E'. cbn. eauto.
Qed.
End T.
