(** Lemmas: what the format command writes. *)
From Coq Require Import Sorted Permutation.
From Verif Require Import Base M_Amount M_Regex M_Date M_Parser M_Writer M_Names M_Ledger M_Tags M_Commands S_Amount S_Ledger S_Books S_Commands
  L_Dec L_Sort L_Amount L_Registers L_Resolve L_Resolve2 L_Check L_Load L_RoundTrip L_Entries.

Section F.
Variable find : bytes -> res bytes.
Variable comm : bytes -> commodity.
Variable conv : conversion.

Definition wposting (v : rposting) : posting :=
  mkPosting (rp_acc v) (rp_qty v) (if rp_asserted v then rp_bal v else None) (rp_notes v).
Lemma as_written_postings L x : t_postings (as_written L x) = map (fun p => wposting (heap L p)) (x_posts x).
Proof. reflexivity. Qed.
Lemma written_posts L ids : written (map (fun p => wposting (heap L p)) ids) = quantities L ids.
Proof. unfold written, quantities. induction ids as [|p ids IH]; [reflexivity|]. cbn [map flat_map]. rewrite IH. reflexivity. Qed.
Lemma common_iff L ids c : common_commodity comm (map (fun p => wposting (heap L p)) ids) c <-> one_commodity comm L ids c.
Proof.
  unfold common_commodity, one_commodity. split; intros [H1 H2]; split.
  - intros ->. apply H1. reflexivity.
  - intros p Hp. apply (H2 (wposting (heap L p))). apply in_map_iff. eauto.
  - intros F. apply H1. eapply map_eq_nil, F.
  - intros s Hs. apply in_map_iff in Hs as (p & <- & Hp). apply (H2 p Hp).
Qed.
Lemma resolves_wposting L d s p : resolves find L d s p -> completed_posting find s (wposting (heap L p)).
Proof.
  intros (A1 & A2 & A3 & A4 & A5 & A6 & A7). unfold completed_posting, wposting. cbn. split; [exact A3|]. split; [exact A4|]. split; [|exact A5].
  rewrite A7. destruct (ps_balance s) as [b|]; [|reflexivity]. apply A6. reflexivity.
Qed.
Lemma resolved_completed L t x : resolved find comm conv L t x -> completed find comm conv t (as_written L x).
Proof.
  intros (A1 & A2 & A3 & A4 & A5 & A6 & A7). unfold completed. cbn [as_written t_posted t_code t_desc t_notes]. repeat (split; [assumption|]).
  change (t_postings (as_written L x)) with (map (fun p => wposting (heap L p)) (x_posts x)).
  split; [|split].
  - clear - A5. induction A5; constructor; [eapply resolves_wposting; eassumption|assumption].
  - intros c Hc. apply common_iff in Hc. destruct (A6 c Hc) as (B1 & B2 & B3). split; [exact B1|]. split; [rewrite written_posts; exact B2|].
    intros s1 s s2 s1' s' s2' E1 E2 E3 E4. apply map_eq_app in E2 as (p1 & p2 & E2 & F1 & F2). destruct p2 as [|p p2]; [discriminate|].
    cbn [map] in F2. injection F2 as F2 F3. destruct (B3 s1 s s2 p1 p p2 E1 E2) as (sum & G1 & G2); [rewrite E3, <- F1, map_length; reflexivity|exact E4|].
    exists sum. split; [exact G1|]. rewrite <- F2. exact G2.
  - intros H. apply A7. intros c Hc. apply (H c), common_iff, Hc.
Qed.

(** completion does not look at lines *)
Lemma completed_same t t' u u' : same_transaction t u -> same_transaction t' u' -> completed find comm conv t t' -> completed find comm conv u u'.
Proof.
  unfold same_transaction, at_line, completed. intros H H'. injection H as H1 H2 H3 H4 H5. injection H' as K1 K2 K3 K4 K5.
  rewrite H1, H2, H3, H4, H5, K1, K2, K3, K4, K5. auto.
Qed.
Lemma same_refl t : same_transaction t t. Proof. reflexivity. Qed.
Lemma same_sym t u : same_transaction t u -> same_transaction u t. Proof. unfold same_transaction. congruence. Qed.
Lemma same_trans t u v : same_transaction t u -> same_transaction u v -> same_transaction t v. Proof. unfold same_transaction. congruence. Qed.

Lemma common_dec ps : (exists c, common_commodity comm ps c) \/ (forall c, ~ common_commodity comm ps c).
Proof.
  destruct ps as [|s ps]; [right; intros c [H _]; apply H; reflexivity|].
  destruct (forallb (fun s' => eq_commodity (comm (ps_account s')) (comm (ps_account s))) ps) eqn:E.
  - left. exists (comm (ps_account s)). split; [discriminate|]. intros s' [<-|H]; [reflexivity|]. rewrite forallb_forall in E.
    apply eq_commodity_eq, E, H.
  - right. intros c [_ H]. assert (forallb (fun s' => eq_commodity (comm (ps_account s')) (comm (ps_account s))) ps = true); [|congruence].
    apply forallb_forall. intros s' Hs. apply eq_commodity_eq. rewrite (H s'), (H s); [reflexivity|left; reflexivity|right; exact Hs].
Qed.
Lemma missing_pos l1 s l2 : ps_quantity s = None -> (1 <= missing (l1 ++ s :: l2))%nat.
Proof. intros H. rewrite missing_app. change (s :: l2) with ([s] ++ l2). rewrite missing_app. unfold missing at 2. cbn. rewrite H. cbn. lia. Qed.
Lemma completed_accounts ps ps1 ps2 : Forall2 (completed_posting find) ps ps1 -> Forall2 (completed_posting find) ps ps2 ->
  map ps_account ps1 = map ps_account ps2.
Proof.
  intros H. revert ps2. induction H as [|s s1 ps ps1 H _ IH]; intros ps2 K; inversion K as [|? s2 ? ps2' K1 K2]; subst; [reflexivity|].
  cbn. f_equal; [|apply IH, K2]. destruct H as (H & _), K1 as (K1 & _). congruence.
Qed.
Lemma common_accounts ps1 ps2 c : map ps_account ps1 = map ps_account ps2 -> common_commodity comm ps1 c -> common_commodity comm ps2 c.
Proof.
  intros E [H1 H2]. split.
  - intros ->. destruct ps1; [apply H1; reflexivity|discriminate].
  - intros s Hs. assert (I : In (ps_account s) (map ps_account ps1)) by (rewrite E; apply in_map, Hs).
    apply in_map_iff in I as (s' & I1 & I2). rewrite <- I1. apply H2, I2.
Qed.
(** a transaction has one completion *)
Lemma completed_unique t t1 t2 : completed find comm conv t t1 -> completed find comm conv t t2 -> same_transaction t1 t2.
Proof.
  intros (A1 & A2 & A3 & A4 & A5 & A6 & A7) (B1 & B2 & B3 & B4 & B5 & B6 & B7).
  unfold same_transaction, at_line. rewrite A1, A2, A3, A4, B1, B2, B3, B4. f_equal.
  assert (Em := completed_accounts _ _ _ A5 B5).
  assert (K : forall s1 s s2 s1' s' s2' s1'' s'' s2'', t_postings t = s1 ++ s :: s2 -> t_postings t1 = s1' ++ s' :: s2' ->
    t_postings t2 = s1'' ++ s'' :: s2'' -> List.length s1 = List.length s1' -> List.length s1 = List.length s1'' ->
    ps_quantity s = None -> ps_quantity s' = ps_quantity s'').
  { intros s1 s s2 s1' s' s2' s1'' s'' s2'' E1 E2 E3 E4 E5 E6. destruct (common_dec (t_postings t1)) as [[c Hc]|N].
    - destruct (A6 c Hc) as (_ & _ & C1). destruct (B6 c (common_accounts _ _ _ Em Hc)) as (_ & _ & C2).
      destruct (C1 _ _ _ _ _ _ E1 E2 E4 E6) as (u & F1 & F2). destruct (C2 _ _ _ _ _ _ E1 E3 E5 E6) as (w & G1 & G2). congruence.
    - specialize (A7 N). rewrite E1 in A7. pose proof (missing_pos s1 s s2 E6). lia. }
  clear - A5 B5 K. revert A5 B5 K. generalize (t_postings t) as ps, (t_postings t1) as ps1, (t_postings t2) as ps2.
  intros ps ps1 ps2 H. revert ps2. induction H as [|s s1 ps ps1 H _ IH]; intros ps2 G K; inversion G as [|? s2 ? ps2' G1 G2]; subst; [reflexivity|].
  f_equal.
  - specialize (K [] s ps [] s1 ps1 [] s2 ps2' eq_refl eq_refl eq_refl eq_refl eq_refl).
    destruct H as (H1 & H2 & H3 & q & H4 & H5), G1 as (J1 & J2 & J3 & q' & J4 & J5). 
    assert (Q : ps_quantity s1 = ps_quantity s2).
    { destruct (ps_quantity s) as [q0|] eqn:E; [|auto]. rewrite H4, J4, (H5 q0 eq_refl), (J5 q0 eq_refl). reflexivity. }
    destruct s1, s2. cbn in *. congruence.
  - apply IH; [exact G2|]. intros a b c a' b' c' a'' b'' c'' E1 E2 E3 E4 E5. apply (K (s :: a) b c (s1 :: a') b' c' (s2 :: a'') b'' c''); cbn; congruence.
Qed.

(** a completed transaction is its own completion, if full account names stand for themselves *)
Lemma completed_missing t t' : completed find comm conv t t' -> missing (t_postings t') = O.
Proof.
  intros (_ & _ & _ & _ & H & _). induction H as [|s s' l l' (_ & _ & _ & q & Q & _) _ IH]; [reflexivity|].
  unfold missing in *. cbn [filter]. rewrite Q. exact IH.
Qed.
Lemma no_missing ps : missing ps = O -> forall s, In s ps -> ps_quantity s <> None.
Proof.
  intros H s Hs E. apply in_split in Hs as (a & b & ->). pose proof (missing_pos a s b E). lia.
Qed.
Lemma completed_self t t' : (forall n a, find n = Ok a -> find a = Ok a) -> completed find comm conv t t' -> completed find comm conv t' t'.
Proof.
  intros Hf H. pose proof (completed_missing _ _ H) as M. destruct H as (A1 & A2 & A3 & A4 & A5 & A6 & A7).
  unfold completed. repeat (split; [reflexivity|]). split; [|split].
  - clear - A5 Hf. induction A5 as [|s s' l l' H _ IH]; constructor; [|exact IH]. destruct H as (H1 & H2 & H3 & q & H4 & H5).
    split; [eapply Hf, H1|]. split; [reflexivity|]. split; [reflexivity|]. exists q. split; [exact H4|]. intros q' E. congruence.
  - intros c Hc. destruct (A6 c Hc) as (_ & B & _). split; [lia|]. split; [exact B|].
    intros s1 s s2 s1' s' s2' E1 _ _ E4. rewrite E1 in M. pose proof (missing_pos s1 s s2 E4). lia.
  - intros _. exact M.
Qed.

(** such transactions are accepted *)
Lemma total_loop_full L : forall ids t r, (forall p, In p ids -> rp_qty (heap L p) <> None) -> add_all conv t (quantities L ids) = Ok r ->
  total_loop conv L ids None t = Ok (None, r).
Proof.
  induction ids as [|p ids IH]; intros t r H K; cbn [total_loop].
  - cbn in K. congruence.
  - rewrite quantities_cons in K. pose proof (H p (or_introl eq_refl)) as Hp. destruct (rp_qty (heap L p)) as [q|]; [|tauto].
    cbn [app add_all] in K. destruct (add_in conv t q); cbn [bind] in *; try discriminate. apply IH; [|exact K]. intros; apply H; right; assumption.
Qed.
Lemma total_loop_some_full L : forall ids e t r, (forall p, In p ids -> rp_qty (heap L p) <> None) -> add_all conv t (quantities L ids) = Ok r ->
  total_loop conv L ids (Some e) t = Ok (Some e, r).
Proof.
  induction ids as [|p ids IH]; intros e t r H K; cbn [total_loop].
  - cbn in K. congruence.
  - rewrite quantities_cons in K. pose proof (H p (or_introl eq_refl)) as Hp. destruct (rp_qty (heap L p)) as [q|]; [|tauto].
    cbn [app add_all] in K. destruct (add_in conv t q); cbn [bind] in *; try discriminate. apply IH; [|exact K]. intros; apply H; right; assumption.
Qed.
Lemma total_loop_one L p i2 : forall i1 t r, rp_qty (heap L p) = None -> (forall q, In q (i1 ++ i2) -> rp_qty (heap L q) <> None) ->
  add_all conv t (quantities L (i1 ++ i2)) = Ok r -> total_loop conv L (i1 ++ p :: i2) None t = Ok (Some p, r).
Proof.
  induction i1 as [|q ids IH]; intros t r Hp H K; cbn [app total_loop].
  - rewrite Hp. apply total_loop_some_full; assumption.
  - cbn [app] in K. rewrite quantities_cons in K. pose proof (H q (or_introl eq_refl)) as Hq. destruct (rp_qty (heap L q)) as [v|]; [|tauto].
    cbn [app add_all] in K. destruct (add_in conv t v); cbn [bind] in *; try discriminate. apply IH; [exact Hp| |exact K]. intros; apply H; right; assumption.
Qed.
Lemma missing_one ps : missing ps = 1%nat -> exists s1 s s2, ps = s1 ++ s :: s2 /\ ps_quantity s = None /\ missing (s1 ++ s2) = O.
Proof.
  induction ps as [|s ps IH]; intros H; [discriminate|]. change (s :: ps) with ([s] ++ ps) in H. rewrite missing_app in H.
  destruct (ps_quantity s) as [q|] eqn:E.
  - unfold missing at 1 in H. cbn in H. rewrite E in H. cbn in H. destruct (IH H) as (s1 & s0 & s2 & -> & E1 & E2).
    exists (s :: s1), s0, s2. split; [reflexivity|]. split; [exact E1|]. cbn [app]. change (s :: s1 ++ s2) with ([s] ++ s1 ++ s2). rewrite missing_app, E2.
    unfold missing. cbn. rewrite E. reflexivity.
  - exists [], s, ps. split; [reflexivity|]. split; [exact E|]. unfold missing at 1 in H. cbn in H. rewrite E in H. cbn in H. cbn [app]. lia.
Qed.
Lemma completed_written ps ps' : Forall2 (completed_posting find) ps ps' -> missing ps = O -> written ps = written ps'.
Proof.
  intros H M. pose proof (no_missing _ M) as N. clear M. induction H as [|s s' l l' (_ & _ & _ & q & Q & K) _ IH]; [reflexivity|].
  unfold written in *. cbn [flat_map]. rewrite IH by (intros; apply N; right; assumption). rewrite Q.
  specialize (N s (or_introl eq_refl)). destruct (ps_quantity s) as [q0|]; [|tauto]. rewrite (K q0 eq_refl). reflexivity.
Qed.
Lemma accept_one L t t' x : entered L t x -> NoDup (x_posts x) -> completed find comm conv t t' -> exists L', resolve_tx find comm conv L x = Ok L'.
Proof.
  intros (E1 & E2 & E3 & E4 & E5) N (_ & _ & _ & _ & A5 & A6 & A7).
  assert (F : forall p, In p (x_posts x) -> exists s', In s' (t_postings t') /\ find (rp_name (heap L p)) = Ok (ps_account s')).
  { clear - E5 A5. intros p Hp. revert A5. generalize (t_postings t') as ps'. induction E5 as [|s q l l' E _ IH]; intros ps' A5; [destruct Hp|].
    inversion A5 as [|? s' ? ps0 B1 B2]; subst. destruct Hp as [<-|Hp].
    - exists s'. split; [left; reflexivity|]. rewrite E. apply B1.
    - destruct (IH Hp _ B2) as (u & U1 & U2). exists u. split; [right|]; auto. }
  assert (G : forall s', In s' (t_postings t') -> exists p, In p (x_posts x) /\ find (rp_name (heap L p)) = Ok (ps_account s')).
  { clear - E5 A5. intros s' Hs. revert E5. generalize (x_posts x) as ids. induction A5 as [|s u l l' E _ IH]; intros ids E5; [destruct Hs|].
    inversion E5 as [|? p ? ids' B1 B2]; subst. destruct Hs as [<-|Hs].
    - exists p. split; [left; reflexivity|]. rewrite B1. apply E.
    - destruct (IH Hs _ B2) as (q & U1 & U2). exists q. split; [right|]; auto. }
  unfold resolve_tx. destruct (enter_total find (x_posts x) L N) as (L1 & E).
  { intros p Hp. destruct (F p Hp) as (s' & _ & Hf). eauto. }
  rewrite E. cbn [bind]. destruct (enter_spec find _ _ _ E N) as (_ & _ & B3 & B4 & _).
  assert (Qe : forall p, rp_qty (heap L1 p) = rp_qty (heap L p)).
  { intros p. destruct (in_dec Nat.eq_dec p (x_posts x)) as [I|I]; [|rewrite B3; auto]. destruct (B4 p I) as (a & _ & ->). reflexivity. }
  assert (Acc : forall p, In p (x_posts x) -> find (rp_name (heap L p)) = Ok (rp_acc (heap L1 p))).
  { intros p Hp. destruct (B4 p Hp) as (a & J & ->). cbn. exact J. }
  set (cs := map (fun p => comm (rp_acc (heap L1 p))) (x_posts x)).
  assert (Hin : forall y, In y cs <-> exists s', In s' (t_postings t') /\ comm (ps_account s') = y).
  { intros y. unfold cs. rewrite in_map_iff. split.
    - intros (p & <- & Hp). destruct (F p Hp) as (s' & S1 & S2). exists s'. split; [exact S1|]. rewrite (Acc p Hp) in S2. congruence.
    - intros (s' & S1 & <-). destruct (G s' S1) as (p & P1 & P2). exists p. split; [|exact P1]. rewrite (Acc p P1) in P2. congruence. }
  assert (Qp : missing (t_postings t) = O -> forall p, In p (x_posts x) -> rp_qty (heap L1 p) <> None).
  { intros M. pose proof (no_missing _ M) as M'. intros p Hp. rewrite Qe. clear - E5 M' Hp. induction E5 as [|s q l l' E5 _ IH]; [destruct Hp|].
    destruct Hp as [<-|Hp]; [rewrite E5; apply (M' s); left; reflexivity|]. apply IH; [intros; apply M'; right; assumption|exact Hp]. }
  destruct (Nat.ltb_spec 1 (List.length (distinct cs))) as [Hd|Hd].
  - assert (M : missing (t_postings t) = O).
    { apply A7. intros c [_ Hc]. assert (List.length (distinct cs) <= 1)%nat; [|lia]. apply distinct_one with c.
      intros y Hy. apply Hin in Hy as (s' & S1 & <-). apply Hc, S1. }
    assert (Hb : forallb (fun p => match rp_qty (heap L1 p) with Some _ => true | None => false end) (x_posts x) = true); [|rewrite Hb; eauto].
    apply forallb_forall. intros p Hp. specialize (Qp M p Hp). destruct (rp_qty (heap L1 p)); [reflexivity|tauto].
  - destruct cs as [|c0 cs'] eqn:Ec; [eauto|]. fold cs in Ec.
    assert (El : In (last (c0 :: cs') c0) cs) by (rewrite Ec; apply last_in; discriminate).
    set (c := last (c0 :: cs') c0) in *.
    assert (Hall : forall y, In y cs -> y = c) by (apply distinct_many; [rewrite Ec; discriminate|rewrite Ec; exact Hd|exact El]).
    assert (Hc : common_commodity comm (t_postings t') c).
    { split.
      - rewrite <- Ec in Hin. apply Hin in El as (s' & S1 & _). intros Z. rewrite Z in S1. destruct S1.
      - intros s Hs. apply Hall. rewrite <- Ec in Hin. apply Hin. eauto. }
    destruct (A6 c Hc) as (M & (z & Z1 & Z2) & K).
    destruct (Nat.eq_dec (missing (t_postings t)) O) as [M0|M0].
    + rewrite (total_loop_full L1 (x_posts x) (zero_amount c) z).
      * cbn [bind fst snd]. unfold is_zero. rewrite Z2. cbn. eauto.
      * apply Qp, M0.
      * rewrite (quantities_ext L L1) by (intros; apply Qe). rewrite (quantities_parsed L _ _ _ E5), (completed_written _ _ A5 M0). exact Z1.
    + destruct (missing_one (t_postings t)) as (s1 & s & s2 & J1 & J2 & J3); [lia|].
      rewrite J1 in E5. apply Forall2_app_inv_l in E5 as (i1 & i2' & I1 & I2 & Ex). inversion I2 as [|? p ? i2 I3 I4]; subst i2'.
      assert (Ex' : exists s1' s' s2', t_postings t' = s1' ++ s' :: s2' /\ List.length s1 = List.length s1').
      { rewrite J1 in A5. apply Forall2_app_inv_l in A5 as (l1 & l2 & F1 & F2 & ->). inversion F2 as [|? s' ? l3 ? ?]; subst l2. exists l1, s', l3.
        split; [reflexivity|]. eapply Forall2_length, F1. }
      destruct Ex' as (s1' & s' & s2' & Ex1 & Ex2). destruct (K _ _ _ _ _ _ J1 Ex1 Ex2 J2) as (sum & U1 & _).
      assert (Hi : Forall2 (fun s p => heap L p = parsed (t_posted t) s) (s1 ++ s2) (i1 ++ i2)) by (apply Forall2_app; assumption).
      rewrite Ex. rewrite (total_loop_one L1 p i2 i1 (zero_amount c) sum).
      * cbn [bind fst snd]. eauto.
      * rewrite Qe, I3. exact J2.
      * intros q Hq. rewrite Qe. pose proof (no_missing _ J3) as M'. clear - Hi M' Hq. induction Hi as [|u v l l' E5 _ IH]; [destruct Hq|].
        destruct Hq as [<-|Hq]; [rewrite E5; apply (M' u); left; reflexivity|]. apply IH; [exact Hq|intros; apply M'; right; assumption].
      * rewrite (quantities_ext L L1) by (intros; apply Qe). rewrite (quantities_parsed L _ _ _ Hi). exact U1.
Qed.
Lemma accept_all : forall ts xs L, Forall2 (entered L) ts xs -> NoDup (flat_map x_posts xs) -> Forall (fun t => exists t', completed find comm conv t t') ts ->
  exists L', resolve_txs find comm conv L xs = Ok L'.
Proof.
  intros ts xs L H. revert L H. induction xs as [|x xs IH] in ts |- *; intros L H N K; cbn [resolve_txs]; [eauto|].
  inversion H as [|t ? ts' ? H1 H2]; subst. inversion K as [|? ? K1 K2]; subst. cbn [flat_map] in N. apply NoDup_app_inv in N as (N1 & N2 & N3).
  destruct K1 as (t1 & K1). destruct (accept_one L t t1 x H1 N1 K1) as (L1 & E). rewrite E. cbn [bind]. apply (IH ts'); [|exact N2|exact K2].
  destruct (resolve_tx_spec find comm conv _ _ _ E N1) as (Le & A1 & _ & _ & _ & A5 & _).
  destruct (enter_spec find _ _ _ A1 N1) as (_ & _ & B3 & _).
  assert (Same : forall p, In p (flat_map x_posts xs) -> heap L1 p = heap L p).
  { intros p Hp. rewrite A5, B3; [reflexivity| |]; intros F; apply (N3 p F Hp). }
  clear - H2 Same. induction H2 as [|t x ts xs (E1 & E2 & E3 & E4 & E5) H2 IH]; constructor.
  - unfold entered. repeat (split; [assumption|]). eapply Forall2_impl_in; [exact E5|]. intros s p Hp G. rewrite Same; [exact G|].
    cbn [flat_map]. apply in_or_app. auto.
  - apply IH. intros p Hp. apply Same. cbn [flat_map]. apply in_or_app. auto.
Qed.
Lemma finish_unchecked : forall accs L, exists L', finish_accounts comm conv false L accs = Ok (L', []).
Proof.
  induction accs as [|a accs IH]; intros L; cbn [finish_accounts bind fst snd]; [eauto|].
  destruct (IH (sort_postings L a)) as (L' & ->). cbn. eauto.
Qed.
Lemma load_accepts accounts L ts : Forall (fun t => exists t', completed find comm conv t t') ts ->
  exists L' sorted, load_transactions find comm conv accounts false L ts = Ok (L', [], sorted).
Proof.
  intros H. unfold load_transactions, resolve_transactions. destruct (alloc_txs L ts) as [L1 xs] eqn:E.
  destruct (alloc_txs_spec _ _ _ _ E) as ((n & _ & A2) & _ & _ & _ & A5).
  destruct (accept_all ts xs L1 A5) as (L2 & ->); [rewrite A2; apply seq_NoDup|exact H|]. cbn [bind].
  destruct (finish_unchecked accounts L2) as (L3 & ->). cbn. eauto.
Qed.

(** ** order *)
Lemma asserts_written L t x : resolved find comm conv L t x -> tx_asserts (as_written L x) = has_assertions L x.
Proof.
  intros (_ & _ & _ & _ & H & _). unfold tx_asserts, has_assertions. rewrite as_written_postings.
  induction H as [|s p l l' H _ IH]; [reflexivity|]. cbn [map existsb]. rewrite IH. f_equal.
  destruct H as (_ & _ & _ & _ & _ & A6 & A7). cbn. rewrite A7. destruct (ps_balance s) as [b|]; [|reflexivity]. rewrite (A6 b eq_refl). reflexivity.
Qed.
Lemma ordered_map L xs ts : Forall2 (resolved find comm conv L) ts xs ->
  ordered_version (map (as_written L) xs) (map (as_written L) (stable_sort (tx_less L) xs)).
Proof.
  intros R.
  assert (A : forall x, In x xs -> tx_asserts (as_written L x) = has_assertions L x).
  { intros x Hx. clear - R Hx. induction R as [|t y ts xs R1 R IH]; [destruct Hx|]. destruct Hx as [->|Hx]; [eapply asserts_written, R1|apply IH, Hx]. }
  split.
  - unfold file_order. pose proof (sorted_ledger_order L xs) as S. unfold in_ledger_order in S.
    assert (A' : forall x, In x (stable_sort (tx_less L) xs) -> tx_asserts (as_written L x) = has_assertions L x).
    { intros x Hx. apply A. eapply Permutation_in; [symmetry; apply stable_sort_perm|exact Hx]. }
    clear - S A'. induction S as [|x l S IH F]; [constructor|]. cbn [map]. constructor; [apply IH; intros; apply A'; right; assumption|].
    apply Forall_forall. intros t Ht. apply in_map_iff in Ht as (y & <- & Hy). rewrite Forall_forall in F. specialize (F y Hy).
    rewrite A', A' by (cbn; auto). rewrite !has_assertions_iff. exact F.
  - intros d b.
    assert (Fl : forall l, (forall x, In x l -> tx_asserts (as_written L x) = has_assertions L x) ->
       filter (fun t => (t_posted t =? d) && Bool.eqb (tx_asserts t) b) (map (as_written L) l) =
       map (as_written L) (filter (fun x => (x_posted x =? d) && Bool.eqb (has_assertions L x) b) l)).
    { induction l as [|x l IH]; intros Hl; [reflexivity|]. cbn [map filter]. rewrite IH by (intros; apply Hl; right; assumption).
      rewrite (Hl x) by (left; reflexivity). cbn [as_written t_posted]. destruct (_ && _); reflexivity. }
    rewrite !Fl; [|exact A|].
    + rewrite sorted_stable. reflexivity.
    + intros x Hx. apply A. eapply Permutation_in; [symmetry; apply stable_sort_perm|exact Hx].
Qed.
End F.

(** an ordered version is determined by the list *)
Definition file_less (t u : transaction) : bool :=
  (t_posted t <? t_posted u) || ((t_posted t =? t_posted u) && negb (tx_asserts t) && tx_asserts u).
Lemma file_order_sorted ts : file_order ts <-> sorted_by file_less ts.
Proof.
  unfold file_order, sorted_by, file_less. split; intros S; (induction S as [|t l S IH F]; constructor; [exact IH|]; eapply Forall_impl; [|exact F]); cbn; intros u Hu.
  - destruct (tx_asserts t), (tx_asserts u); destruct Hu as [Hu|[Hu1 Hu2]]; try lia; try (specialize (Hu2 eq_refl); discriminate).
  - destruct (tx_asserts t), (tx_asserts u); (destruct (Z.eq_dec (t_posted t) (t_posted u)); [right; split; [assumption|]; auto; intros; lia|left; lia]).
Qed.
Lemma filter_nil_in {A} (P : A -> bool) l x : filter P l = [] -> In x l -> P x = true -> False.
Proof. intros E I H. assert (In x (filter P l)) as K by (apply filter_In; auto). rewrite E in K. destruct K. Qed.
Lemma ordered_unique : forall l1 l2, file_order l1 -> file_order l2 ->
  (forall d (b : bool), filter (fun t => (t_posted t =? d) && Bool.eqb (tx_asserts t) b) l1 = filter (fun t => (t_posted t =? d) && Bool.eqb (tx_asserts t) b) l2) ->
  l1 = l2.
Proof.
  assert (Mem : forall l1 l2, (forall d (b : bool), filter (fun t => (t_posted t =? d) && Bool.eqb (tx_asserts t) b) l1 =
     filter (fun t => (t_posted t =? d) && Bool.eqb (tx_asserts t) b) l2) -> forall t, In t l1 -> In t l2).
  { intros l1 l2 H t Ht. specialize (H (t_posted t) (tx_asserts t)).
    assert (I : In t (filter (fun u => (t_posted u =? t_posted t) && Bool.eqb (tx_asserts u) (tx_asserts t)) l1)).
    { apply filter_In. split; [exact Ht|]. rewrite Z.eqb_refl, Bool.eqb_reflx. reflexivity. }
    rewrite H in I. apply filter_In in I. tauto. }
  induction l1 as [|t l1 IH]; intros l2 O1 O2 H.
  - destruct l2 as [|u l2]; [reflexivity|]. destruct (Mem (u :: l2) [] (fun d b => eq_sym (H d b)) u (or_introl eq_refl)).
  - destruct l2 as [|u l2]; [destruct (Mem (t :: l1) [] H t (or_introl eq_refl))|].
    assert (K : t_posted t = t_posted u /\ tx_asserts t = tx_asserts u).
    { pose proof (Mem _ _ H t (or_introl eq_refl)) as I1. pose proof (Mem _ _ (fun d b => eq_sym (H d b)) u (or_introl eq_refl)) as I2.
      inversion O1 as [|? ? O1' F1]; subst. inversion O2 as [|? ? O2' F2]; subst. rewrite Forall_forall in F1, F2.
      destruct I1 as [->|I1]; [auto|]. destruct I2 as [->|I2]; [auto|]. specialize (F1 u I2). specialize (F2 t I1).
      destruct (tx_asserts t), (tx_asserts u); destruct F1 as [F1|[F1 G1]], F2 as [F2|[F2 G2]]; split; try lia; try reflexivity; try (symmetry; auto; fail); auto. }
    destruct K as [K1 K2]. pose proof (H (t_posted t) (tx_asserts t)) as H0. cbn [filter] in H0.
    rewrite Z.eqb_refl, Bool.eqb_reflx, <- K1, <- K2, Z.eqb_refl, Bool.eqb_reflx in H0. cbn [andb] in H0. injection H0 as H0 _. subst u.
    f_equal. inversion O1; subst. inversion O2; subst. apply IH; try assumption. intros d b. specialize (H d b). cbn [filter] in H.
    destruct (_ && _); [congruence|exact H].
Qed.

Section C.
Variable e : env.
Variable find : bytes -> res bytes.
Variable comm : bytes -> commodity.
Variable conv : conversion.
Variable accounts : list bytes.
Hypothesis Na : NoDup accounts.

Lemma drop_heap : forall xs L, heap (drop_transactions L xs) = heap L /\ nxt (drop_transactions L xs) = nxt L.
Proof.
  intros xs L. rewrite drop_transactions_flat. generalize (flat_map x_posts xs) as ps. intros ps. revert L.
  induction ps as [|p ps IH]; intros L; [auto|]. cbn [fold_left]. destruct (IH (drop_posting L p)) as [-> ->]. auto.
Qed.
Lemma drop_ok chk L ts L' ws sorted : ledger_ok L -> load_transactions find comm conv accounts chk L ts = Ok (L', ws, sorted) ->
  ledger_ok (drop_transactions L' sorted).
Proof.
  intros Hok H a. rewrite (drop_load _ _ _ _ _ _ _ _ _ _ Hok Na H). destruct (Hok a) as (K1 & K2 & K3).
  destruct (load_inv _ _ _ _ _ _ _ _ _ _ Hok Na H) as (L1 & xs & n & _ & _ & _ & A2 & _ & _ & A5 & _).
  destruct (drop_heap sorted L') as [Eh En]. split; [|split; [exact K2|]].
  - eapply order_ext; [|exact K1]. intros p Hp. destruct (A5 p) as (E & _); [apply K3, Hp|]. unfold dates. rewrite Eh. congruence.
  - intros p Hp. destruct (K3 p Hp) as [G1 G2]. rewrite En, Eh. split; [lia|]. destruct (A5 p G1) as (_ & _ & E & _). congruence.
Qed.

Lemma format_inv (trim : bool) L text L' out items : ledger_ok L -> read_text e text = Ok items -> format_file e find comm conv accounts trim L text = Ok (L', out) ->
  exists ts1 ts2, Forall2 (completed find comm conv) (transactions_of items) ts1 /\ ordered_version ts1 ts2 /\ Permutation ts1 ts2 /\
    write_transactions (fun a => c_dec (comm a)) (map (fun t => if trim then trim_tx t else t) ts2) = Ok out /\
    (forall a, reg L' a = reg L a) /\ ledger_ok L'.
Proof.
  intros Hok Hr H. unfold format_file in H. rewrite Hr in H. cbn [bind] in H.
  destruct (alloc_txs L (transactions_of items)) as [L1 xs] eqn:Ea. apply bind_ok in H as (r & E & H). destruct r as [[L2 ws] sorted]. apply bind_ok in H as (o & Eo & H). injection H as <- <-.
  assert (El : load_transactions find comm conv accounts false L (transactions_of items) = Ok (L2, ws, sorted)) by (unfold load_transactions; rewrite Ea; exact E).
  destruct (load_inv _ _ _ _ _ _ _ _ _ _ Hok Na El) as (L1' & xs' & n & Ea' & Es & _ & _ & R & _).
  exists (map (as_written L2) xs'), (map (as_written L2) sorted). split.
  - clear - R. induction R as [|t x ts xs R1 R IH]; constructor; [apply resolved_completed, R1|exact IH].
  - split; [rewrite Es; eapply ordered_map, R|]. split; [apply Permutation_map; rewrite Es; apply stable_sort_perm|]. split.
    + rewrite map_map. exact Eo.
    + split; [intros a; eapply drop_load; eassumption|eapply drop_ok; eassumption].
Qed.
Lemma Forall2_same_eq ts ts' : Forall2 same_transaction ts ts' -> map (at_line 0) ts = map (at_line 0) ts'.
Proof. induction 1; [reflexivity|]. cbn. f_equal; assumption. Qed.
Lemma eq_same_Forall2 ts : forall ts', map (at_line 0) ts = map (at_line 0) ts' -> Forall2 same_transaction ts ts'.
Proof. induction ts as [|t ts IH]; intros [|u us] H; try discriminate; [constructor|]. cbn [map] in H. pose proof (f_equal (@tl _) H) as H2. apply (f_equal (fun l => hd t l)) in H. constructor; [exact H|apply IH, H2]. Qed.
Lemma ordered_lines ts ts' : ordered_version ts ts' -> ordered_version (map (at_line 0) ts) (map (at_line 0) ts').
Proof.
  intros [H1 H2]. split.
  - unfold file_order in *. clear H2. induction H1 as [|t l S IH F]; cbn [map]; constructor; [exact IH|].
    apply Forall_forall. intros u Hu. apply in_map_iff in Hu as (w & <- & Hw). rewrite Forall_forall in F. exact (F w Hw).
  - intros d b.
    assert (Fl : forall l, filter (fun t => (t_posted t =? d) && Bool.eqb (tx_asserts t) b) (map (at_line 0) l) =
       map (at_line 0) (filter (fun t => (t_posted t =? d) && Bool.eqb (tx_asserts t) b) l)).
    { induction l as [|x l IH]; [reflexivity|]. cbn [map filter]. rewrite IH. cbn [at_line t_posted]. change (tx_asserts (at_line 0 x)) with (tx_asserts x).
      destruct (_ && _); reflexivity. }
    rewrite !Fl, H2. reflexivity.
Qed.
(** with the same completions and an order, the same text is written *)
Lemma ordered_same ts1 ts2 us1 us2 : ordered_version ts1 ts2 -> ordered_version us1 us2 -> Forall2 same_transaction ts1 us1 -> Forall2 same_transaction ts2 us2.
Proof.
  intros H K S. apply eq_same_Forall2. apply ordered_lines in H as [H1 H2], K as [K1 K2]. apply ordered_unique; [exact H1|exact K1|].
  intros d b. rewrite H2, K2, (Forall2_same_eq _ _ S). reflexivity.
Qed.
Lemma same_trims (trim : bool) ts us : Forall2 same_transaction ts us ->
  Forall2 same_transaction (map (fun t => if trim then trim_tx t else t) ts) (map (fun t => if trim then trim_tx t else t) us).
Proof.
  induction 1 as [|t u ts us H _ IH]; cbn [map]; constructor; [|exact IH]. destruct trim; [|exact H].
  unfold same_transaction, at_line, trim_tx in *. cbn. injection H as E1 E2 E3 E4 E5. rewrite E1, E2, E3, E4, E5. reflexivity.
Qed.
(** formatting succeeds, with a given text, whatever else is in the ledger *)
Lemma format_from (trim : bool) L text items ts1 ts2 out : ledger_ok L -> read_text e text = Ok items ->
  Forall2 (completed find comm conv) (transactions_of items) ts1 -> ordered_version ts1 ts2 ->
  write_transactions (fun a => c_dec (comm a)) (map (fun t => if trim then trim_tx t else t) ts2) = Ok out ->
  exists L', format_file e find comm conv accounts trim L text = Ok (L', out).
Proof.
  intros Hok Hr Hc Ho Hw.
  destruct (load_accepts find comm conv accounts L (transactions_of items)) as (L2 & sorted & El).
  { clear - Hc. induction Hc; constructor; eauto. }
  destruct (load_inv _ _ _ _ _ _ _ _ _ _ Hok Na El) as (L1' & xs' & n & Ea & Es & _ & _ & R & _).
  unfold format_file. rewrite Hr. cbn [bind]. rewrite Ea. unfold load_transactions in El. rewrite Ea in El. rewrite El. cbn [bind].
  assert (Sm : Forall2 same_transaction ts2 (map (as_written L2) sorted)).
  { rewrite Es. eapply ordered_same; [exact Ho|eapply ordered_map, R|].
    clear - Hc R. revert xs' R. induction Hc as [|t t1 ts ts1 H _ IH]; intros xs R; inversion R as [|? x ? xs' R1 R2]; subst; cbn [map]; constructor; [|apply IH, R2].
    eapply completed_unique; [exact H|apply resolved_completed, R1]. }
  assert (Ew : format_write comm trim L2 sorted = Ok out).
  { unfold format_write. rewrite <- Hw. rewrite <- (map_map (as_written L2) (fun t => if trim then trim_tx t else t)). symmetry. apply same_writes, same_trims, Sm. }
  rewrite Ew. cbn [bind]. eauto.
Qed.
End C.
