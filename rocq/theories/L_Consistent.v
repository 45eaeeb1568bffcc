(** Lemmas for C134. *)
From Coq Require Import Permutation Sorted.
From Verif Require Import Base M_Amount M_Date M_Names M_Parser M_Convert M_Ledger M_Database S_Amount S_Names S_Books S_Database S_Consistent
  L_Amount L_Dec L_Sort L_Resolve L_Resolve2 L_Check L_Load L_Entries L_Database L_Database2.

(** ** checking balances cannot fail when everything is in the commodity of the account *)
Section F.
Variable comm : bytes -> commodity.
Variable conv : conversion.
Definition fits (v : rposting) : Prop :=
  (exists q, rp_qty v = Some q /\ a_com q = comm (rp_acc v)) /\ (forall b, rp_bal v = Some b -> a_com b = comm (rp_acc v)).
Definition fit (L : ledger) : Prop :=
  (forall a p, In p (reg L a) -> rp_acc (heap L p) = a /\ fits (heap L p)) /\ (forall a, a_com (balance_of comm L a) = comm a).
Lemma is_equal_same a b : a_com a = a_com b -> exists e, is_equal a b = Ok e.
Proof.
  intros H. unfold is_equal, cmp. rewrite adjusted_same by (unfold a_dec; congruence). cbn [bind]. eauto.
Qed.
Lemma check_loop_total a : forall ps L, fit L -> (forall p, In p ps -> rp_acc (heap L p) = a /\ fits (heap L p)) ->
  exists L' ws, check_loop comm conv L a ps = Ok (L', ws) /\ fit L'.
Proof.
  induction ps as [|p ps IH]; intros L Hf Hp; cbn [check_loop]; [eauto|].
  destruct (Hp p (or_introl eq_refl)) as (Ea & (q & Eq & Cq) & Hb). rewrite Eq. rewrite Ea in Cq.
  rewrite add_in_same by (rewrite (proj2 Hf a); exact Cq). cbn [bind].
  set (b := mkAmount (a_int (balance_of comm L a) + a_int q) (a_com (balance_of comm L a))).
  assert (Cb : a_com b = comm a) by apply (proj2 Hf a).
  assert (F1 : fit (set_bal L a b)).
  { split; [exact (proj1 Hf)|]. intros a'. unfold balance_of. cbn [set_bal bal]. unfold updb. destruct (eqb_bytes a' a) eqn:E.
    - apply eqb_bytes_eq in E. subst a'. exact Cb.
    - apply (proj2 Hf a'). }
  change (rp_bal (heap (set_bal L a b) p)) with (rp_bal (heap L p)). destruct (rp_bal (heap L p)) as [b'|] eqn:Eb.
  - destruct (is_equal_same b b') as (e & ->); [rewrite Cb, (Hb b' eq_refl), Ea; reflexivity|]. cbn [bind].
    destruct (IH (set_bal L a b) F1) as (L' & ws & -> & F2); [intros p' I'; apply Hp; right; exact I'|]. cbn [bind fst snd]. eauto.
  - set (v := with_bal (heap (set_bal L a b) p) (Some b) (rp_asserted (heap (set_bal L a b) p))).
    assert (Fv : rp_acc v = a /\ fits v).
    { unfold v. cbn. split; [exact Ea|]. split; cbn; [exists q; rewrite Ea; auto|]. intros b0 E0. injection E0 as <-. rewrite Ea. exact Cb. }
    assert (Hv : forall p' a', rp_acc (heap (set_bal L a b) p') = a' /\ fits (heap (set_bal L a b) p') -> rp_acc (heap (set_post (set_bal L a b) p v) p') = a' /\ fits (heap (set_post (set_bal L a b) p v) p')).
    { intros p' a' K. cbn [set_post heap]. unfold updn. destruct (Nat.eqb_spec p' p) as [->|]; [|exact K]. cbn in K. split; [|apply Fv]. destruct K as [<- _]. rewrite (proj1 Fv). congruence. }
    apply IH.
    + split; [|exact (proj2 F1)]. intros a' p' I'. apply Hv. apply (proj1 F1 a' p' I').
    + intros p' I'. apply Hv. apply Hp. right; exact I'.
Qed.
Lemma finish_total : forall accs L, fit L -> exists L' ws, finish_accounts comm conv true L accs = Ok (L', ws).
Proof.
  induction accs as [|a accs IH]; intros L Hf; cbn [finish_accounts]; [eauto|].
  assert (F1 : fit (sort_postings L a)).
  { split; [|exact (proj2 Hf)]. intros a' p I. change (heap (sort_postings L a)) with (heap L). apply (proj1 Hf). cbn in I. unfold updb in I.
    destruct (eqb_bytes a' a) eqn:E; [|exact I]. apply eqb_bytes_eq in E. subst a'. eapply Permutation_in; [symmetry; apply stable_sort_perm|exact I]. }
  destruct (check_loop_total a (reg (sort_postings L a) a) _ F1) as (L1 & ws & E & F2); [intros p I; apply (proj1 F1 a p I)|].
  unfold check_postings. rewrite E. cbn [bind fst snd]. destruct (IH L1 F2) as (L2 & ws2 & ->). cbn [bind]. eauto.
Qed.
Lemma finish_unchecked : forall accs L, exists L' ws, finish_accounts comm conv false L accs = Ok (L', ws).
Proof.
  induction accs as [|a accs IH]; intros L; cbn [finish_accounts bind fst snd]; [eauto|]. destruct (IH (sort_postings L a)) as (L' & ws & ->). cbn [bind]. eauto.
Qed.
End F.

(** ** transactions among several commodities *)
Lemma resolve_tx_mixed find comm conv x L : NoDup (x_posts x) ->
  (forall p, In p (x_posts x) -> exists a, find (rp_name (heap L p)) = Ok a) ->
  (forall p, In p (x_posts x) -> rp_qty (heap L p) <> None) ->
  (exists p q a b, In p (x_posts x) /\ In q (x_posts x) /\ find (rp_name (heap L p)) = Ok a /\ find (rp_name (heap L q)) = Ok b /\ comm a <> comm b) ->
  exists L', resolve_tx find comm conv L x = Ok L'.
Proof.
  intros N Hf Hq (p & q & a & b & Ip & Iq & Fa & Fb & D). unfold resolve_tx. destruct (enter_total find (x_posts x) L N Hf) as (L1 & E).
  rewrite E. cbn [bind]. destruct (enter_spec find _ _ _ E N) as (_ & _ & A3 & A4 & _).
  destruct (Nat.ltb_spec 1 (List.length (distinct (map (fun p => comm (rp_acc (heap L1 p))) (x_posts x))))) as [_|F].
  - match goal with |- exists _, (if ?f then _ else _) = _ => assert (Ef : f = true) end.
    { apply forallb_forall. intros p' I'. destruct (A4 p' I') as (a' & _ & ->). cbn. specialize (Hq p' I'). destruct (rp_qty (heap L p')); [reflexivity|tauto]. }
    rewrite Ef. eauto.
  - exfalso. apply D. destruct (A4 p Ip) as (a1 & Fa1 & E1). destruct (A4 q Iq) as (b1 & Fb1 & E2). assert (a1 = a) by congruence. assert (b1 = b) by congruence. subst.
    set (f := fun p => comm (rp_acc (heap L1 p))) in *.
    replace (comm a) with (f p) by (unfold f; rewrite E1; reflexivity). replace (comm b) with (f q) by (unfold f; rewrite E2; reflexivity).
    apply (distinct_many (map f (x_posts x))); [intros Em; apply map_eq_nil in Em; rewrite Em in Ip; destruct Ip|exact F| |]; apply in_map; assumption.
Qed.

(** ** all transactions *)
Section T.
Variable find : bytes -> res bytes.
Variable comm : bytes -> commodity.
Variable conv : conversion.
(** the condition of S_Consistent.v with functions for accounts and commodities *)
Definition tx_fits (t : transaction) : Prop :=
  (forall s, In s (t_postings t) -> exists a, find (ps_account s) = Ok a /\ (forall q, ps_quantity s = Some q -> a_com q = comm a) /\ (forall b, ps_balance s = Some b -> a_com b = comm a)) /\
  (((exists c, forall s a, In s (t_postings t) -> find (ps_account s) = Ok a -> comm a = c) /\
    (missing (t_postings t) = 1%nat \/ missing (t_postings t) = 0%nat /\ zsum (map a_int (written (t_postings t))) = 0)) \/
   ((exists s s' a a', In s (t_postings t) /\ In s' (t_postings t) /\ find (ps_account s) = Ok a /\ find (ps_account s') = Ok a' /\ comm a <> comm a') /\ missing (t_postings t) = 0%nat)).
Lemma missing_ids L d : forall ps ids, Forall2 (fun s p => heap L p = parsed d s) ps ids ->
  List.length (filter (fun p => match rp_qty (heap L p) with None => true | _ => false end) ids) = missing ps.
Proof.
  induction 1 as [|s p ps ids E _ IH]; [reflexivity|]. unfold missing in *. cbn [filter]. rewrite E. cbn. destruct (ps_quantity s); cbn [List.length]; congruence.
Qed.
Lemma in_ids L d ps ids p : Forall2 (fun s p => heap L p = parsed d s) ps ids -> In p ids -> exists s, In s ps /\ heap L p = parsed d s.
Proof. induction 1 as [|s q ps ids E _ IH]; intros []; [subst; exists s; split; [left; reflexivity|exact E]|]. destruct IH as (s' & I & K); [assumption|]. exists s'. split; [right; exact I|exact K]. Qed.
Lemma ids_in L d ps ids s : Forall2 (fun s p => heap L p = parsed d s) ps ids -> In s ps -> exists p, In p ids /\ heap L p = parsed d s.
Proof. induction 1 as [|s' q ps ids E _ IH]; intros []; [subst; exists q; split; [left; reflexivity|exact E]|]. destruct IH as (p & I & K); [assumption|]. exists p. split; [right; exact I|exact K]. Qed.
Lemma missing_zero L d ps ids : Forall2 (fun s p => heap L p = parsed d s) ps ids -> missing ps = 0%nat -> forall p, In p ids -> rp_qty (heap L p) <> None.
Proof.
  intros F M p I E. rewrite <- (missing_ids L d ps ids F) in M. apply length_zero_iff_nil in M.
  assert (K : In p (filter (fun p => match rp_qty (heap L p) with None => true | _ => false end) ids)) by (apply filter_In; rewrite E; auto).
  rewrite M in K. destruct K.
Qed.
Lemma resolve_txs_total : forall ts xs L, NoDup (flat_map x_posts xs) -> Forall2 (entered L) ts xs -> Forall tx_fits ts ->
  exists L', resolve_txs find comm conv L xs = Ok L'.
Proof.
  induction ts as [|t ts IH]; intros xs L N He Hf; inversion He as [|? x ? xs' Hx He']; subst; cbn [resolve_txs]; [eauto|].
  cbn [flat_map] in N. apply NoDup_app_inv in N as (N1 & N2 & N3). inversion Hf as [|? ? Ht Hts]; subst. destruct Hx as (_ & _ & _ & _ & F).
  destruct Ht as (H1 & H2).
  assert (T : exists L1, resolve_tx find comm conv L x = Ok L1).
  { destruct H2 as [((c & Hc) & H2)|((s & s' & a & a' & Is & Is' & Fa & Fa' & D) & M)].
    - apply resolve_tx_total with c; [exact N1| | |].
      + intros p I. destruct (in_ids _ _ _ _ _ F I) as (s & Is & ->). destruct (H1 s Is) as (a & Fa & _). exists a. split; [exact Fa|eapply Hc; eassumption].
      + intros p q I. destruct (in_ids _ _ _ _ _ F I) as (s & Is & ->). destruct (H1 s Is) as (a & Fa & Hq & _). intros E. rewrite (Hq q E). eapply Hc; eassumption.
      + rewrite (missing_ids _ _ _ _ F), (quantities_parsed _ _ _ _ F). destruct H2 as [M|[M Z0]]; [left; exact M|right; split; [eapply missing_zero; eassumption|exact Z0]].
    - destruct (ids_in _ _ _ _ _ F Is) as (p & Ip & Ep). destruct (ids_in _ _ _ _ _ F Is') as (p' & Ip' & Ep').
      apply resolve_tx_mixed; [exact N1| |eapply missing_zero; eassumption|].
      + intros q I. destruct (in_ids _ _ _ _ _ F I) as (u & Iu & ->). destruct (H1 u Iu) as (b & Fb & _). eauto.
      + exists p, p', a, a'. rewrite Ep, Ep'. auto. }
  destruct T as (L1 & T). rewrite T. cbn [bind]. destruct (resolve_tx_reg find comm conv _ _ _ T N1) as (_ & _ & K & _).
  apply IH; [exact N2| |exact Hts]. clear - He' K N3. revert N3. induction He' as [|t2 x2 ts2 xs2 (A1 & A2 & A3 & A4 & A5) H IH]; intros N3; constructor.
  - repeat (split; [assumption|]). cbn [flat_map] in N3. assert (N3' : forall p, In p (x_posts x2) -> heap L1 p = heap L p) by (intros p I; apply K; intros J; apply (N3 p J), in_or_app; auto).
    clear - A5 N3'. induction A5 as [|s p ss ps E _ IH]; constructor; [rewrite N3' by (left; auto); exact E|apply IH; intros; apply N3'; right; auto].
  - apply IH. intros p I J. apply (N3 p I). cbn [flat_map]. apply in_or_app. auto.
Qed.

Lemma flat_seq_nodup xs m n : flat_map x_posts xs = seq m n -> NoDup (flat_map x_posts xs).
Proof. intros ->. apply seq_NoDup. Qed.
Lemma load_total accounts ts : NoDup accounts -> Forall tx_fits ts ->
  exists L ws xs, load_transactions find comm conv accounts true empty_ledger ts = Ok (L, ws, xs).
Proof.
  intros Na Hf. unfold load_transactions. destruct (alloc_txs empty_ledger ts) as [L1 xs] eqn:Ea.
  destruct (alloc_txs_spec _ _ _ _ Ea) as ((n & A1 & A2) & A3 & A4 & A5 & A6).
  destruct (resolve_txs_total ts xs L1 (flat_seq_nodup _ _ _ A2) A6 Hf) as (L2 & E2).
  (* without checks it loads; this gives what the registers hold *)
  destruct (finish_unchecked comm conv accounts L2) as (L3 & ws3 & E3).
  assert (H : load_transactions find comm conv accounts false empty_ledger ts = Ok (L3, ws3, stable_sort (tx_less L3) xs)).
  { unfold load_transactions. rewrite Ea. unfold resolve_transactions. rewrite E2. cbn [bind]. rewrite E3. reflexivity. }
  destruct (load_inv _ _ _ _ _ _ _ _ _ _ empty_ok Na H) as (L1' & xs' & n' & Ea' & _ & B1 & B2 & R & D & _ & K & L2' & C1 & _ & C3 & C4 & C5 & C6 & _ & C8).
  assert (Ee : (L1', xs') = (L1, xs)) by congruence. injection Ee as -> ->. assert (L2' = L2) by congruence. subst L2'.
  destruct (finish_total comm conv accounts L2) as (L4 & ws4 & E4).
  - split.
    + intros a p I. destruct (C3 a) as (_ & _ & G). destruct (G p I) as [G1 G2]. split; [exact G2|].
      rewrite C4 in I. pose proof (D a) as Da. apply dated_perm in Da. cbn [empty_ledger reg app] in Da.
      apply (Permutation_in _ (Permutation_sym Da)) in I. unfold made_to in I. apply filter_In in I as [I _].
      apply in_flat_map in I as (x & Ix & Ip).
      assert (Q : exists t, In t ts /\ entered L1 t x /\ resolved find comm conv L3 t x).
      { clear - A6 R Ix. revert R. induction A6 as [|t y ts ys Hy H IH]; intros R; [destruct Ix|]. inversion R; subst. destruct Ix as [<-|Ix].
        - exists t. split; [left; reflexivity|auto].
        - destruct (IH Ix) as (t' & I' & J); [assumption|]. exists t'. split; [right; exact I'|exact J]. }
      destruct Q as (t & It & (_ & _ & _ & _ & F1) & (_ & _ & _ & _ & F2 & F3 & F4)).
      rewrite Forall_forall in Hf. destruct (Hf t It) as (H1 & H2).
      (* the written posting *)
      apply in_split in Ip as (p1 & p2 & Ex). assert (F1' := F1). assert (F2' := F2). rewrite Ex in F1', F2'.
      apply Forall2_app_inv_r in F1' as (s1 & s2' & G3 & G4 & Es). inversion G4 as [|s ? s2 ? Gs Gr]; subst s2' .
      subst. assert (Ls : List.length s1 = List.length p1) by (eapply Forall2_length; exact G3). rewrite Es in F2'.
      apply Forall2_app_inv_l in F2' as (q1 & q2' & J1 & J2 & Eq). inversion J2 as [|? q0 ? q2 Js Jr Eq1 Eq2]; subst q2'.
      assert (Lq : List.length p1 = List.length q1) by (rewrite <- Ls; eapply Forall2_length; exact J1).
      destruct (app_len_inj p1 (p :: p2) q1 (q0 :: q2) Eq Lq) as (<- & Ee). injection Ee as <- <-.
      assert (Is : In s (t_postings t)) by (rewrite Es; apply in_elt).
      destruct Js as (_ & _ & Fa & _ & (q & Q1 & Q2) & _).
      destruct (C5 p) as (_ & _ & Ka & Kq & _). rewrite Ka in Fa. rewrite Kq in Q1.
      destruct (H1 s Is) as (a0 & Fa0 & Hq & Hb). assert (a0 = rp_acc (heap L2 p)) by congruence. subst a0.
      split.
      * exists q. split; [exact Q1|]. destruct (ps_quantity s) as [q'|] eqn:Eqs; [rewrite (Q2 q' eq_refl); apply Hq; reflexivity|].
        destruct H2 as [((c & Hc) & _)|(_ & M)].
        -- assert (One : one_commodity comm L3 (x_posts x) c).
           { split; [rewrite Ex; destruct p1; discriminate|]. intros p' I'. destruct (C5 p') as (_ & _ & Ka' & _). 
             clear - F2 I' Hc. revert Hc. induction F2 as [|u v us vs Hu Hus IH]; intros Hc; [destruct I'|]. destruct I' as [<-|I'].
             - destruct Hu as (_ & _ & Fu & _). apply (Hc u); [left; reflexivity|exact Fu].
             - apply IH; [exact I'|]. intros; eapply Hc; [right|]; eassumption. }
           destruct (F3 c One) as (_ & _ & Fill). destruct (Fill s1 s s2 p1 p p2 Es Ex Ls Eqs) as (sum & S1 & S2).
           rewrite Kq in S2. rewrite S2 in Q1. injection Q1 as <-. cbn [negated a_com].
           rewrite (add_all_same conv _ (zero_amount c)) in S1.
           ++ injection S1 as <-. cbn. symmetry. apply (Hc s); assumption.
           ++ apply Forall_forall. intros v Iv. unfold written in Iv. apply in_flat_map in Iv as (u & Iu & Ev). destruct (ps_quantity u) as [qu|] eqn:Eu; [|destruct Ev]. destruct Ev as [<-|[]].
              assert (Iu' : In u (t_postings t)) by (rewrite Es; apply in_app_iff in Iu; apply in_app_iff; destruct Iu; [left|right; right]; assumption).
              destruct (H1 u Iu') as (au & Fu & Hqu & _). rewrite (Hqu qu Eu). cbn. apply (Hc u); assumption.
        -- exfalso. apply (missing_zero _ _ _ _ F1 M p); [rewrite Ex; apply in_elt|]. rewrite Gs. cbn. exact Eqs.
      * intros b Eb. destruct (C8 p) as [C8' _]. rewrite C8', Gs in Eb. cbn in Eb. apply Hb, Eb.
    + intros a. unfold balance_of. rewrite C6. reflexivity.
  - unfold resolve_transactions. rewrite E2. cbn [bind]. rewrite E4. cbn [bind fst snd]. eauto.
Qed.
End T.
