(** The registers of the page are those of the ledger, for files whose assertions come last in the day. *)
From Coq Require Import Permutation Sorted.
From Verif Require Import Base M_Amount S_Amount L_Amount M_Parser M_Date M_Names M_Tags M_Ledger S_Books L_Sort L_Registers L_Resolve L_Load Properties_Ledger M_Web M_Page M_Views S_Page S_Views L_Views.
Local Open Scope Z_scope.

Lemma bool_sorted {A} (b : A -> bool) l : StronglySorted (fun x y => b x = true -> b y = true) l ->
  l = filter (fun x => Bool.eqb (b x) false) l ++ filter (fun x => Bool.eqb (b x) true) l.
Proof.
  induction 1 as [|x l S IH F]; [reflexivity|]. cbn [filter]. destruct (b x) eqn:E; cbn [Bool.eqb].
  - rewrite (filter_none (fun x => Bool.eqb (b x) false)); [|intros y I; rewrite Forall_forall in F; rewrite (F y I eq_refl); reflexivity].
    cbn [app]. f_equal. symmetry. apply filter_all. intros y I. rewrite Forall_forall in F. rewrite (F y I eq_refl). reflexivity.
  - cbn [app]. f_equal. exact IH.
Qed.
Lemma asserting_resolved find comm conv L t x : resolved find comm conv L t x -> (asserting t <-> has_assertions L x = true).
Proof.
  intros (_ & _ & _ & _ & F & _). unfold asserting, has_assertions. rewrite existsb_exists. induction F as [|s p l l' R F IH].
  - split; intros (y & [] & _).
  - destruct R as (_ & _ & _ & _ & _ & _ & R). split.
    + intros (y & [<-|I] & H); [exists p; split; [left; reflexivity|]; rewrite R; destruct (ps_balance s); congruence|].
      destruct IH as [IH _]. destruct IH as (q & I' & H'); [exists y; auto|]. exists q. split; [right; exact I'|exact H'].
    + intros (q & [<-|I] & H); [exists s; split; [left; reflexivity|]; rewrite R in H; destruct (ps_balance s); congruence|].
      destruct IH as [_ IH]. destruct IH as (y & I' & H'); [exists q; auto|]. exists y. split; [right; exact I'|exact H'].
Qed.
Lemma forall2_sorted {A C} (R : A -> C -> Prop) (P : A -> A -> Prop) (Q : C -> C -> Prop) l l' : Forall2 R l l' ->
  (forall x y x' y', R x x' -> R y y' -> P x y -> Q x' y') -> StronglySorted P l -> StronglySorted Q l'.
Proof.
  intros F H. induction F as [|x x' l l' R1 F IH]; intros S; [constructor|]. inversion_clear S as [|? ? S1 S2]. constructor; [apply IH, S1|].
  clear IH S1. induction F as [|y y' l l' R2 F IH]; [constructor|]. inversion_clear S2. constructor; [eapply H; eassumption|]. apply IH; assumption.
Qed.
Lemma filter_weaken {A} (P Q : A -> A -> Prop) f l : (forall x y, f x = true -> f y = true -> P x y -> Q x y) -> StronglySorted P l -> StronglySorted Q (filter f l).
Proof.
  intros H. induction 1 as [|x l S IH F]; [constructor|]. cbn [filter]. destruct (f x) eqn:E; [|exact IH]. constructor; [exact IH|].
  rewrite Forall_forall in *. intros y I. apply filter_In in I as [I1 I2]. apply H; auto.
Qed.
Lemma filter_twice {A} (f g : A -> bool) l : filter f (filter g l) = filter (fun x => g x && f x) l.
Proof. induction l as [|x l IH]; [reflexivity|]. cbn [filter]. destruct (g x); cbn [filter andb]; [destruct (f x)|]; rewrite IH; reflexivity. Qed.
Lemma day_of_made L a d xs : (forall x p, In x xs -> In p (x_posts x) -> rp_date (heap L p) = x_posted x) ->
  of_day (dates L) d (made_to L a xs) = made_to L a (filter (fun x => x_posted x =? d) xs).
Proof.
  unfold of_day, made_to. intros H. rewrite filter_twice. induction xs as [|x xs IH]; [reflexivity|]. cbn [flat_map filter].
  rewrite filter_app. rewrite IH by (intros; apply H; [right; assumption|assumption]).
  assert (K : forall b : bool, (x_posted x =? d) = b -> filter (fun p => eqb_bytes (rp_acc (heap L p)) a && (dates L p =? d)) (x_posts x) = if b then filter (fun p => eqb_bytes (rp_acc (heap L p)) a) (x_posts x) else []).
  { intros b E. destruct b; [apply filter_ext_in|apply filter_none]; intros p I; unfold dates; rewrite (H x p (or_introl eq_refl) I), E; [apply andb_true_r|apply andb_false_r]. }
  rewrite (K _ eq_refl). destruct (x_posted x =? d); [cbn [flat_map]; rewrite filter_app; reflexivity|reflexivity].
Qed.
Lemma register_made find comm conv accounts chk ts L ws xs : NoDup accounts -> load_transactions find comm conv accounts chk empty_ledger ts = Ok (L, ws, xs) ->
  (forall a, in_date_order (dates L) (made_to L a xs)) /\ (assertions_last ts -> forall a, reg L a = made_to L a xs).
Proof.
  intros Na Hl. destruct (load_inv _ _ _ _ _ _ _ _ _ _ empty_ok Na Hl) as (_ & xs0 & n & _ & Es & Ef & _ & R & D & _ & K & _).
  pose proof (stable_sort_perm (tx_less L) xs0) as P. rewrite <- Es in P.
  assert (DX : forall x p, In x xs -> In p (x_posts x) -> rp_date (heap L p) = x_posted x).
  { intros x p Ix Ip. assert (Ix0 : In x xs0) by (eapply Permutation_in; [symmetry; exact P|exact Ix]).
    assert (G : exists t, In t ts /\ resolved find comm conv L t x).
    { clear - R Ix0. induction R as [|t y ts ys H R IH]; [destruct Ix0|]. destruct Ix0 as [->|I]; [exists t; split; [left; reflexivity|exact H]|]. destruct (IH I) as (t' & I' & H'). exists t'. split; [right; exact I'|exact H']. }
    destruct G as (t & It & (E1 & _ & _ & _ & F & _)).
    assert (Rp : exists s, resolves find L (t_posted t) s p) by (clear - F Ip; induction F as [|s q l1 l2 H F IH]; [destruct Ip|]; destruct Ip as [->|I]; eauto).
    destruct Rp as (s & R1 & _). congruence. }
  destruct (C39_transaction_order _ _ _ _ _ _ _ _ _ _ empty_ok Na Hl) as (_ & _ & _ & O & _).
  assert (DO : forall a, in_date_order (dates L) (made_to L a xs)).
  { intros a. unfold made_to. apply filter_ssorted. clear -DX O. unfold in_ledger_order in O. induction O as [|x l O IH F]; [constructor|]. cbn [flat_map].
    assert (Fx : forall p, In p (x_posts x) -> dates L p = x_posted x) by (intros p I; apply DX; [left; reflexivity|exact I]).
    assert (Fl : forall q, In q (flat_map x_posts l) -> x_posted x <= dates L q).
    { intros q I. apply in_flat_map in I as (y & Iy & Iq). unfold dates. rewrite (DX y q (or_intror Iy) Iq). rewrite Forall_forall in F. specialize (F y Iy). destruct F as [F|[F _]]; lia. }
    specialize (IH (fun y p I J => DX y p (or_intror I) J)). clear -IH Fx Fl. induction (x_posts x) as [|p ps IHp]; [exact IH|]. cbn [app]. constructor; [apply IHp; intros; apply Fx; right; assumption|].
    rewrite Forall_forall. intros q I. rewrite (Fx p (or_introl eq_refl)). apply in_app_or in I as [I|I]; [rewrite (Fx q (or_intror I)); lia|apply Fl, I]. }
  split; [exact DO|]. intros AL a. specialize (D a). cbn [reg empty_ledger app] in D.
  apply (dated_unique (dates L) (made_to L a xs0)); [exact D|]. split; [apply DO|]. intros d.
  rewrite (day_of_made L a d xs DX), (day_of_made L a d xs0).
  2: { intros x p Ix Ip. apply DX; [eapply Permutation_in; [exact P|exact Ix]|exact Ip]. }
  f_equal.
  assert (S0 : StronglySorted (fun x y => x_posted x = x_posted y -> has_assertions L x = true -> has_assertions L y = true) xs0).
  { eapply (forall2_sorted _ _ _ ts xs0 R); [|exact AL]. intros t u x y Rt Ru H Ed Hx. apply (asserting_resolved _ _ _ _ _ _ Ru). apply H; [|apply (asserting_resolved _ _ _ _ _ _ Rt), Hx].
    destruct Rt as (E1 & _), Ru as (E2 & _). congruence. }
  assert (S1 : StronglySorted (fun x y => x_posted x = x_posted y -> has_assertions L x = true -> has_assertions L y = true) xs).
  { clear -O. unfold in_ledger_order in O. induction O as [|x l O IH F]; constructor; [exact IH|]. rewrite Forall_forall in *. intros y I E H. apply has_assertions_iff. destruct (F y I) as [F1|[_ F1]]; [lia|]. apply F1, has_assertions_iff, H. }
  pose proof (sorted_stable L xs0 d) as Efd. rewrite <- Es in Efd.
  rewrite (bool_sorted (has_assertions L) (filter (fun x => x_posted x =? d) xs)), (bool_sorted (has_assertions L) (filter (fun x => x_posted x =? d) xs0)).
  - rewrite !filter_twice. f_equal; apply Efd.
  - apply (filter_weaken _ _ _ _) with (2 := S0). intros x y H1 H2 H. apply H. lia.
  - apply (filter_weaken _ _ _ _) with (2 := S1). intros x y H1 H2 H. apply H. lia.
Qed.
