(** Lemmas: resolved transactions balance; registers after loading. *)
From Coq Require Import Sorted Permutation.
From Verif Require Import Base M_Amount M_Regex M_Parser M_Names M_Ledger S_Amount S_Books L_Dec L_Sort L_Amount L_Registers L_Resolve.

Section R.
Variable find : bytes -> res bytes.
Variable comm : bytes -> commodity.
Variable conv : conversion.

Definition with_acc_qty (v : rposting) (a : bytes) (q : amount) : rposting :=
  mkRP (rp_date v) (rp_name v) a (Some q) (rp_bal v) (rp_asserted v) (rp_notes v).

Lemma quantities_ext L L' ids : (forall p, In p ids -> rp_qty (heap L' p) = rp_qty (heap L p)) -> quantities L' ids = quantities L ids.
Proof.
  induction ids as [|p ids IH]; intros H; [reflexivity|]. rewrite !quantities_cons, (H p) by (left; auto).
  f_equal. apply IH. intros; apply H; right; auto.
Qed.
Lemma last_in {A} (l : list A) d : l <> [] -> In (last l d) l.
Proof. induction l as [|x [|y l] IH]; intros H; [tauto|left; reflexivity|]. right. apply IH. discriminate. Qed.

Lemma resolve_tx_spec L x L' : resolve_tx find comm conv L x = Ok L' -> NoDup (x_posts x) ->
  exists L1, enter find L (x_posts x) = Ok L1 /\
  (forall a, reg L' a = reg L1 a) /\ nxt L' = nxt L1 /\ (forall a, bal L' a = bal L1 a) /\
  (forall p, ~ In p (x_posts x) -> heap L' p = heap L1 p) /\
  (forall p, In p (x_posts x) -> exists q, heap L' p = with_qty (heap L1 p) q /\ (forall q', rp_qty (heap L p) = Some q' -> q = q')) /\
  (forall c, one_commodity comm L' (x_posts x) c ->
    sums_to_zero conv c (quantities L' (x_posts x)) /\
    ((forall p, In p (x_posts x) -> rp_qty (heap L p) <> None) \/
     exists i1 e i2, x_posts x = i1 ++ e :: i2 /\ rp_qty (heap L e) = None /\
       (forall p, In p (i1 ++ i2) -> rp_qty (heap L p) <> None) /\
       exists sum, add_all conv (zero_amount c) (quantities L (i1 ++ i2)) = Ok sum /\ rp_qty (heap L' e) = Some (negated sum))) /\
  ((forall c, ~ one_commodity comm L' (x_posts x) c) -> forall p, In p (x_posts x) -> rp_qty (heap L p) <> None).
Proof.
  unfold resolve_tx. set (ids := x_posts x). intros H N. unb H. rename a into L1. exists L1. split; [reflexivity|].
  destruct (enter_spec find _ _ _ E N) as (A1 & A2 & A3 & A4 & A5 & A6).
  assert (Qe : forall p, rp_qty (heap L1 p) = rp_qty (heap L p)).
  { intros p. destruct (in_dec Nat.eq_dec p ids) as [I|I]; [|rewrite A3; auto]. destruct (A4 p I) as (a & _ & ->). reflexivity. }
  set (cs := map (fun p => comm (rp_acc (heap L1 p))) ids) in *. cbn zeta in H.
  destruct (1 <? List.length (distinct cs))%nat eqn:Ed.
  - destruct (forallb _ ids) eqn:Ef; [|discriminate]. injection H as <-. apply Nat.ltb_lt in Ed.
    rewrite forallb_forall in Ef.
    assert (Ne : forall p, In p ids -> exists q, rp_qty (heap L p) = Some q).
    { intros p Hp. specialize (Ef p Hp). rewrite Qe in Ef. destruct (rp_qty (heap L p)); [eauto|discriminate]. }
    repeat (split; [solve [auto]|]). split.
    + intros p Hp. destruct (Ne p Hp) as (q & Hq). exists q. split.
      * unfold with_qty. rewrite <- Hq, <- Qe. destruct (heap L1 p); reflexivity.
      * congruence.
    + split.
      * intros c [_ Hc]. exfalso. pose proof (distinct_one cs c) as D. 
        assert (List.length (distinct cs) <= 1)%nat; [|lia]. apply D. intros y Hy. apply in_map_iff in Hy as (p & <- & Hp). auto.
      * intros _ p Hp. destruct (Ne p Hp) as (q & ->). discriminate.
  - apply Nat.ltb_ge in Ed. destruct cs as [|c0 cs'] eqn:Ecs.
    + injection H as <-. assert (Ei : ids = []) by (destruct ids; [reflexivity|discriminate Ecs]). rewrite Ei.
      repeat (split; [solve [auto]|]). split; [cbn; tauto|]. split; [|cbn; tauto]. intros c [F _]. tauto.
    + set (c := last (c0 :: cs') c0) in *.
      assert (Hc : In c (c0 :: cs')) by (apply last_in; discriminate).
      assert (Hall : forall p, In p ids -> comm (rp_acc (heap L1 p)) = c).
      { intros p Hp. apply (distinct_many (c0 :: cs') c); [discriminate|exact Ed|exact Hc|].
        rewrite <- Ecs. unfold cs. apply in_map_iff. exists p. auto. }
      assert (Hne : ids <> []) by (intros F; unfold cs in Ecs; rewrite F in Ecs; discriminate).
      unb H. rename a into et. destruct et as [e T]. cbn [fst snd] in H.
      assert (One : forall L2 c', (forall p, In p ids -> rp_acc (heap L2 p) = rp_acc (heap L1 p)) -> one_commodity comm L2 ids c' -> c' = c).
      { intros L2 c' K [_ K2]. destruct ids as [|p ids']; [tauto|]. rewrite <- (K2 p), K, Hall by (left; auto). reflexivity. }
      apply total_loop_none in E0 as [(B1 & B2 & B3)|(i1 & p & i2 & B1 & B2 & B3 & B4 & B5)]; cbn [fst snd] in *.
      * subst e. destruct (is_zero T) eqn:Z0; [|discriminate]. injection H as <-.
        assert (Ne : forall p, In p ids -> rp_qty (heap L p) <> None) by (intros p Hp; rewrite <- Qe; auto).
        repeat (split; [solve [auto]|]). split.
        -- intros p Hp. destruct (rp_qty (heap L p)) as [q|] eqn:Q; [|exfalso; apply (Ne p Hp), Q]. exists q.
           split; [|congruence]. unfold with_qty. rewrite <- Q, <- Qe. destruct (heap L1 p); reflexivity.
        -- split; [|auto]. intros c' Hc'. rewrite (One L1 c' (fun _ _ => eq_refl) Hc'). split; [|left; exact Ne].
           exists T. split; [exact B3|]. unfold is_zero in Z0. lia.
      * subst e. injection H as <-. assert (Hp : In p ids) by (rewrite B1; apply in_elt).
        assert (Np : ~ In p (i1 ++ i2)) by (rewrite B1 in N; apply NoDup_remove in N; tauto).
        assert (Ne : forall q, In q (i1 ++ i2) -> rp_qty (heap L q) <> None) by (intros q Hq; rewrite <- Qe; auto).
        cbn [reg nxt bal heap set_post]. repeat (split; [solve [auto]|]). split.
        { intros q Hq. apply updn_other. intros ->. tauto. }
        split.
        { intros q Hq. destruct (Nat.eq_dec q p) as [->|Eq].
          - exists (negated T). rewrite updn_same. split; [reflexivity|]. rewrite Qe in B3. congruence.
          - rewrite updn_other by exact Eq. assert (Iq : In q (i1 ++ i2)).
            { rewrite B1 in Hq. apply in_app_or in Hq as [Hq|[Hq|Hq]]; [apply in_or_app; auto|congruence|apply in_or_app; auto]. }
            destruct (rp_qty (heap L q)) as [w|] eqn:Q; [|exfalso; apply (Ne q Iq), Q]. exists w.
            split; [|congruence]. unfold with_qty. rewrite <- Q, <- Qe. destruct (heap L1 q); reflexivity. }
        split.
        -- intros c' Hc'. apply One in Hc'; [|intros q _; cbn [heap set_post]; unfold updn; destruct (Nat.eqb_spec q p) as [->|]; reflexivity].
           subst c'. assert (Qx : quantities L1 (i1 ++ i2) = quantities L (i1 ++ i2)) by (apply quantities_ext; intros; apply Qe).
           split.
           ++ rewrite B1, quantities_app, quantities_cons. cbn [heap set_post]. rewrite updn_same. cbn [rp_qty with_qty].
              set (L2 := set_post L1 p _).
              assert (Q1 : quantities L2 i1 = quantities L1 i1 /\ quantities L2 i2 = quantities L1 i2).
              { split; apply quantities_ext; intros q Hq; cbn [heap L2 set_post]; rewrite updn_other; auto;
                  intros ->; apply Np, in_or_app; auto. }
              destruct Q1 as [-> ->]. rewrite quantities_app, add_all_app in B5. unb B5. rename a into T1.
              destruct (add_all_shift _ _ _ _ E0) as [C1 _]. destruct (add_all_shift _ _ _ _ B5) as [C2 C3]. cbn in C1.
              exists (mkAmount 0 c). split; [|reflexivity].
              rewrite add_all_app, E0. cbn [bind app add_all].
              rewrite add_in_same by (cbn; congruence). cbn [bind]. rewrite C3 by reflexivity. cbn. f_equal. f_equal; [lia|exact C1].
           ++ right. exists i1, p, i2. split; [exact B1|]. split; [rewrite <- Qe; exact B3|]. split; [exact Ne|].
              exists T. rewrite <- Qx. split; [exact B5|]. cbn [heap set_post]. rewrite updn_same. reflexivity.
        -- intros F. exfalso. apply (F c). split; [exact Hne|]. intros q Hq. cbn [heap set_post].
           unfold updn. destruct (Nat.eqb_spec q p) as [->|]; cbn; apply Hall; auto.
Qed.

(** what later steps of loading leave alone *)
Definition keeps (v w : rposting) : Prop :=
  rp_date w = rp_date v /\ rp_name w = rp_name v /\ rp_acc w = rp_acc v /\ rp_qty w = rp_qty v /\
  rp_asserted w = rp_asserted v /\ rp_notes w = rp_notes v /\ (forall b, rp_bal v = Some b -> rp_bal w = Some b).
Lemma keeps_refl v : keeps v v. Proof. repeat split; auto. Qed.
Lemma keeps_trans u v w : keeps u v -> keeps v w -> keeps u w.
Proof.
  intros (A1 & A2 & A3 & A4 & A5 & A6 & A7) (B1 & B2 & B3 & B4 & B5 & B6 & B7). repeat split; try congruence. auto.
Qed.
Lemma Forall2_impl_in {A B} (P Q : A -> B -> Prop) l l' :
  Forall2 P l l' -> (forall a b, In b l' -> P a b -> Q a b) -> Forall2 Q l l'.
Proof. induction 1; intros K; constructor; [apply K; [left|]; auto|]. apply IHForall2. intros; apply K; [right|]; auto. Qed.
Lemma resolved_keeps L L' t x : (forall p, In p (x_posts x) -> keeps (heap L p) (heap L' p)) ->
  resolved find comm conv L t x -> resolved find comm conv L' t x.
Proof.
  intros K (A1 & A2 & A3 & A4 & A5 & A6 & A7). unfold resolved. repeat (split; [assumption|]).
  assert (Oc : forall c, one_commodity comm L' (x_posts x) c <-> one_commodity comm L (x_posts x) c).
  { intros c. unfold one_commodity. split; intros [H1 H2]; (split; [exact H1|]); intros p Hp; destruct (K p Hp) as (_ & _ & E & _);
      [rewrite <- E|rewrite E]; auto. }
  split; [|split].
  - eapply Forall2_impl_in; [exact A5|]. intros s p Hp (B1 & B2 & B3 & B4 & B5 & B6 & B7).
    destruct (K p Hp) as (C1 & C2 & C3 & C4 & C5 & C6 & C7). unfold resolves. rewrite C1, C2, C3, C4, C5, C6.
    repeat (split; [assumption|]). split; [|exact B7]. intros b Hb. auto.
  - intros c Hc. apply Oc in Hc. destruct (A6 c Hc) as (B1 & B2 & B3). split; [exact B1|]. split.
    + rewrite (quantities_ext L L'); [exact B2|]. intros p Hp. destruct (K p Hp) as (_ & _ & _ & E & _). exact E.
    + intros s1 s s2 p1 p p2 E1 E2 E3 E4. destruct (B3 _ _ _ _ _ _ E1 E2 E3 E4) as (sum & F1 & F2). exists sum. split; [exact F1|].
      destruct (K p) as (_ & _ & _ & -> & _); [rewrite E2; apply in_elt|exact F2].
  - intros H. apply A7. intros c Hc. apply (H c), Oc, Hc.
Qed.

(** parsed postings in the store *)
Lemma quantities_parsed L d : forall ps ids, Forall2 (fun s p => heap L p = parsed d s) ps ids -> quantities L ids = written ps.
Proof.
  induction 1 as [|s p ps ids E _ IH]; [reflexivity|]. rewrite quantities_cons, E. cbn. rewrite IH. reflexivity.
Qed.
Lemma missing_none L d : forall ps ids, Forall2 (fun s p => heap L p = parsed d s) ps ids ->
  (forall p, In p ids -> rp_qty (heap L p) <> None) -> missing ps = O.
Proof.
  induction 1 as [|s p ps ids E _ IH]; intros H; [reflexivity|]. unfold missing in *. cbn [filter].
  specialize (H p (or_introl eq_refl)) as Hp. rewrite E in Hp. cbn in Hp. destruct (ps_quantity s); [|tauto].
  apply IH. intros; apply H; right; auto.
Qed.
Lemma missing_app l l' : missing (l ++ l') = (missing l + missing l')%nat.
Proof. unfold missing. rewrite filter_app, app_length. reflexivity. Qed.
Lemma Forall2_length {A B} (P : A -> B -> Prop) l l' : Forall2 P l l' -> List.length l = List.length l'.
Proof. induction 1; cbn; congruence. Qed.
Lemma Forall2_app_r {A B} (P : A -> B -> Prop) l m1 m2 : Forall2 P l (m1 ++ m2) ->
  exists l1 l2, l = l1 ++ l2 /\ Forall2 P l1 m1 /\ Forall2 P l2 m2.
Proof. intros H. apply Forall2_app_inv_r in H as (l1 & l2 & H1 & H2 & ->). eauto. Qed.
Lemma app_elt_unique (i1 i2 p1 p2 : list nat) e : NoDup (i1 ++ e :: i2) -> i1 ++ e :: i2 = p1 ++ e :: p2 -> i1 = p1 /\ i2 = p2.
Proof.
  revert p1. induction i1 as [|x i1 IH]; intros [|y p1] N E; cbn in *.
  - injection E as ->. auto.
  - injection E as -> E. inversion N; subst. exfalso. apply H1. apply in_elt.
  - injection E as -> E. inversion N; subst. exfalso. apply H1. apply in_elt.
  - injection E as -> E. inversion N; subst. destruct (IH p1 H2 E) as [-> ->]. auto.
Qed.
Lemma app_len_inj {A} (a b c d : list A) : a ++ b = c ++ d -> List.length a = List.length c -> a = c /\ b = d.
Proof.
  revert c. induction a as [|x a IH]; intros [|y c] E L; cbn in *; try discriminate; [auto|].
  injection E as -> E. injection L as L. destruct (IH c E L) as [-> ->]. auto.
Qed.

Lemma resolve_tx_resolved L t x L' : entered L t x -> NoDup (x_posts x) ->
  resolve_tx find comm conv L x = Ok L' -> resolved find comm conv L' t x.
Proof.
  intros (E1 & E2 & E3 & E4 & E5) N H.
  destruct (resolve_tx_spec _ _ _ H N) as (L1 & A1 & A2 & A3 & A4 & A5 & A6 & A7 & A8).
  destruct (enter_spec find _ _ _ A1 N) as (_ & _ & _ & B4 & _ & _).
  unfold resolved. repeat (split; [assumption|]). split; [|split].
  - eapply Forall2_impl_in; [exact E5|]. intros s p Hp Hs. destruct (A6 p Hp) as (q & Eh & Hq).
    destruct (B4 p Hp) as (a & F & Ea). unfold resolves. rewrite Eh, Ea, Hs. rewrite Hs in F, Hq. cbn in F, Hq |- *. repeat (split; [solve [auto]|]).
    split; [|auto]. exists q. auto.
  - intros c Hc. destruct (A7 c Hc) as (Z0 & K). split; [|split; [exact Z0|]].
    + destruct K as [K|(i1 & e & i2 & K1 & K2 & K3 & _)].
      * rewrite (missing_none L _ _ _ E5 K). lia.
      * rewrite K1 in E5. apply Forall2_app_r in E5 as (l1 & l2 & -> & F1 & F2). inversion F2 as [|s ? l3 ? G1 G2]; subst.
        rewrite missing_app, (missing_none L _ _ _ F1) by (intros; apply K3, in_or_app; auto).
        change (s :: l3) with ([s] ++ l3). rewrite missing_app, (missing_none L _ _ _ G2) by (intros; apply K3, in_or_app; auto).
        unfold missing. cbn. destruct (ps_quantity s); cbn; lia.
    + intros s1 s s2 p1 p p2 D1 D2 D3 D4.
      assert (F : Forall2 (fun s p => heap L p = parsed (t_posted t) s) s1 p1 /\ heap L p = parsed (t_posted t) s
                  /\ Forall2 (fun s p => heap L p = parsed (t_posted t) s) s2 p2).
      { rewrite D1, D2 in E5. apply Forall2_app_r in E5 as (l1 & l2 & E & F1 & F2).
        destruct (app_len_inj _ _ _ _ E) as [<- <-]; [rewrite D3; symmetry; eapply Forall2_length; exact F1|].
        inversion F2; subst. auto. }
      destruct F as (F1 & F2 & F3).
      assert (Hp : In p (x_posts x)) by (rewrite D2; apply in_elt).
      assert (Qp : rp_qty (heap L p) = None) by (rewrite F2; exact D4).
      destruct K as [K|(i1 & e & i2 & K1 & K2 & K3 & sum & K4 & K5)]; [exfalso; apply (K p Hp Qp)|].
      assert (p = e) as ->.
      { rewrite K1 in Hp. apply in_app_or in Hp as [Hp|[Hp|Hp]]; [exfalso|auto|exfalso]; eapply (K3 p); eauto; apply in_or_app; auto. }
      assert (i1 = p1 /\ i2 = p2) as [-> ->].
      { apply app_elt_unique with e; [rewrite <- K1; exact N|congruence]. }
      exists sum. split; [|exact K5]. rewrite <- (quantities_parsed L (t_posted t) _ (p1 ++ p2)); [exact K4|]. apply Forall2_app; auto.
  - intros F. eapply missing_none; [exact E5|]. apply A8, F.
Qed.

(** registers while entering *)
Definition made_ids (L : ledger) (a : bytes) (ids : list nat) := filter (fun p => eqb_bytes (rp_acc (heap L p)) a) ids.
Lemma made_ids_ext L L' a ids : (forall p, In p ids -> rp_acc (heap L p) = rp_acc (heap L' p)) -> made_ids L a ids = made_ids L' a ids.
Proof.
  unfold made_ids. induction ids as [|p ids IH]; intros H; cbn [filter]; [reflexivity|]. rewrite (H p) by (left; auto).
  rewrite IH; [reflexivity|]. intros; apply H; right; auto.
Qed.
Lemma resolve_tx_reg L x L' : resolve_tx find comm conv L x = Ok L' -> NoDup (x_posts x) ->
  nxt L' = nxt L /\ (forall a, bal L' a = bal L a) /\ (forall p, ~ In p (x_posts x) -> heap L' p = heap L p) /\
  (forall p, dates L' p = dates L p) /\
  ((forall a, in_date_order (dates L) (reg L a)) -> (forall a p, In p (x_posts x) -> ~ In p (reg L a)) ->
   forall a, dated_version (dates L) (reg L a ++ made_ids L' a (x_posts x)) (reg L' a)).
Proof.
  intros H N. destruct (resolve_tx_spec _ _ _ H N) as (L1 & A1 & A2 & A3 & A4 & A5 & A6 & A7 & A8).
  destruct (enter_spec find _ _ _ A1 N) as (B1 & B2 & B3 & B4 & B5 & B6).
  split; [congruence|]. split; [intros; rewrite A4; apply B2|]. split; [intros p Hp; rewrite A5, B3; auto|]. split.
  - intros p. unfold dates in *. destruct (in_dec Nat.eq_dec p (x_posts x)) as [I|I].
    + destruct (A6 p I) as (q & -> & _). rewrite <- B5. reflexivity.
    + rewrite A5 by exact I. apply B5.
  - intros O F a. rewrite A2. replace (made_ids L' a (x_posts x)) with (made_ids L1 a (x_posts x)).
    + apply B6; auto.
    + apply made_ids_ext. intros p Hp. destruct (A6 p Hp) as (q & -> & _). reflexivity.
Qed.

Lemma dated_trans date m1 m2 l1 l : dated_version date m1 l1 -> dated_version date (l1 ++ m2) l -> dated_version date (m1 ++ m2) l.
Proof.
  intros [_ H1] [H2 H3]. split; [exact H2|]. intros d. rewrite H3. unfold of_day in *. rewrite !filter_app, H1. reflexivity.
Qed.
Lemma dated_ext d1 d2 m l : (forall p, d1 p = d2 p) -> dated_version d1 m l -> dated_version d2 m l.
Proof.
  intros E [H1 H2]. split; [eapply order_ext; [|exact H1]; auto|]. intros d.
  rewrite <- (of_day_ext d1 d2), <- (of_day_ext d1 d2 d m); auto.
Qed.

Lemma NoDup_app_inv {A} (l1 l2 : list A) : NoDup (l1 ++ l2) -> NoDup l1 /\ NoDup l2 /\ forall x, In x l1 -> ~ In x l2.
Proof.
  induction l1 as [|x l1 IH]; intros H; cbn in *; [split; [constructor|split; [exact H|tauto]]|].
  inversion H; subst. destruct (IH H3) as (I1 & I2 & I3). split; [constructor; auto; intros F; apply H2, in_or_app; auto|].
  split; [exact I2|]. intros y [<-|Hy]; [intros F; apply H2, in_or_app; auto|auto].
Qed.

Lemma resolve_txs_spec : forall xs L L', resolve_txs find comm conv L xs = Ok L' -> NoDup (flat_map x_posts xs) ->
  nxt L' = nxt L /\ (forall a, bal L' a = bal L a) /\ (forall p, ~ In p (flat_map x_posts xs) -> heap L' p = heap L p) /\
  (forall p, dates L' p = dates L p) /\
  ((forall a, in_date_order (dates L) (reg L a)) -> (forall a p, In p (flat_map x_posts xs) -> ~ In p (reg L a)) ->
   forall a, dated_version (dates L) (reg L a ++ made_to L' a xs) (reg L' a)) /\
  forall ts, Forall2 (entered L) ts xs -> Forall2 (resolved find comm conv L') ts xs.
Proof.
  induction xs as [|x xs IH]; intros L L' H N; cbn [resolve_txs] in H.
  - injection H as <-. repeat (split; [solve [auto]|]). split.
    + intros O _ a. cbn. rewrite app_nil_r. split; auto.
    + intros ts T. inversion T; subst. constructor.
  - unb H. rename a into L1. cbn [flat_map] in N. apply NoDup_app_inv in N as (N1 & N2 & N3).
    destruct (resolve_tx_reg _ _ _ E N1) as (A1 & A2 & A3 & A4 & A5).
    destruct (IH _ _ H N2) as (B1 & B2 & B3 & B4 & B5 & B6). cbn [flat_map].
    split; [congruence|]. split; [intros; rewrite B2; apply A2|]. split.
    { intros p Hp. rewrite in_app_iff in Hp. rewrite B3, A3; tauto. }
    split; [intros; rewrite B4; apply A4|]. split.
    + intros O F a.
      assert (D1 : forall a, dated_version (dates L) (reg L a ++ made_ids L1 a (x_posts x)) (reg L1 a)).
      { apply A5; [exact O|]. intros b p Hp. apply F, in_or_app; auto. }
      assert (O1 : forall a, in_date_order (dates L1) (reg L1 a)).
      { intros b. destruct (D1 b) as [K _]. eapply order_ext; [|exact K]. intros; symmetry; apply A4. }
      assert (F1 : forall b p, In p (flat_map x_posts xs) -> ~ In p (reg L1 b)).
      { intros b p Hp G. apply (Permutation_in _ (Permutation_sym (dated_perm _ _ _ (D1 b)))) in G.
        apply in_app_or in G as [G|G]; [eapply F; [apply in_or_app; right; exact Hp|exact G]|].
        apply filter_In in G as [G _]. eapply N3; eauto. }
      assert (D2 := B5 O1 F1 a). apply (dated_ext _ (dates L) _ _ A4) in D2.
      pose proof (dated_trans _ _ _ _ _ (D1 a) D2) as D3. unfold made_to in *. cbn [flat_map]. rewrite filter_app, app_assoc.
      replace (filter (fun p => eqb_bytes (rp_acc (heap L' p)) a) (x_posts x)) with (made_ids L1 a (x_posts x)); [exact D3|].
      apply made_ids_ext. intros p Hp. rewrite B3; [reflexivity|]. apply N3, Hp.
    + intros ts T. inversion T as [|t ? ts' ? T1 T2]; subst. constructor.
      * eapply resolved_keeps; [|eapply resolve_tx_resolved; eauto]. intros p Hp. rewrite B3 by (apply N3, Hp). apply keeps_refl.
      * apply B6. eapply Forall2_impl_in; [exact T2|]. intros t' x' Hx (K1 & K2 & K3 & K4 & K5). unfold entered. repeat (split; [assumption|]).
        eapply Forall2_impl_in; [exact K5|]. intros s p Hp Hs. rewrite A3; [exact Hs|]. intros G. eapply N3; [exact G|].
        apply in_flat_map. eauto.
Qed.
End R.

Lemma sum_total L conv : forall ids c t, (forall p q, In p ids -> rp_qty (heap L p) = Some q -> a_com q = c) -> a_com t = c ->
  (forall p, In p ids -> rp_qty (heap L p) <> None) ->
  forall e, total_loop conv L ids e t = Ok (e, mkAmount (a_int t + zsum (map a_int (quantities L ids))) c).
Proof.
  induction ids as [|p ids IH]; intros c t H Ht N e; cbn [total_loop].
  - cbn. f_equal. f_equal. destruct t; cbn in *; subst; f_equal; lia.
  - destruct (rp_qty (heap L p)) as [q|] eqn:Q; [|exfalso; apply (N p); [left|]; auto].
    rewrite add_in_same by (rewrite (H p q); [symmetry; exact Ht|left; auto|exact Q]). cbn [bind].
    rewrite (IH c); [|intros p' q' I' E'; eapply H; [right; exact I'|exact E']|cbn; auto|intros p' I'; apply N; right; exact I'].
    rewrite quantities_cons, Q. cbn. f_equal. f_equal. f_equal. unfold zsum. lia.
Qed.
Lemma one_missing_total L conv : forall ids c t, (forall p q, In p ids -> rp_qty (heap L p) = Some q -> a_com q = c) -> a_com t = c ->
  List.length (filter (fun p => match rp_qty (heap L p) with None => true | _ => false end) ids) = 1%nat ->
  exists p r, total_loop conv L ids None t = Ok (Some p, r).
Proof.
  induction ids as [|p ids IH]; intros c t H Ht N; cbn [filter] in N; [discriminate|]. cbn [total_loop].
  destruct (rp_qty (heap L p)) as [q|] eqn:Q.
  - rewrite add_in_same by (rewrite (H p q); [symmetry; exact Ht|left; auto|exact Q]). cbn [bind].
    apply (IH c); auto. intros; eapply H; eauto. right; auto.
  - cbn in N. injection N as N. apply length_zero_iff_nil in N.
    rewrite (sum_total L conv ids c); eauto.
    + intros; eapply H; eauto. right; auto.
    + intros x Hx E. assert (I : In x (filter (fun p => match rp_qty (heap L p) with None => true | _ => false end) ids)).
      { apply filter_In. rewrite E. auto. } rewrite N in I. destruct I.
Qed.
Lemma resolve_tx_total find comm conv x L c : NoDup (x_posts x) ->
  (forall p, In p (x_posts x) -> exists a, find (rp_name (heap L p)) = Ok a /\ comm a = c) ->
  (forall p q, In p (x_posts x) -> rp_qty (heap L p) = Some q -> a_com q = c) ->
  (List.length (filter (fun p => match rp_qty (heap L p) with None => true | _ => false end) (x_posts x)) = 1%nat \/
   (forall p, In p (x_posts x) -> rp_qty (heap L p) <> None) /\ zsum (map a_int (quantities L (x_posts x))) = 0) ->
  exists L', resolve_tx find comm conv L x = Ok L'.
Proof.
  intros N Hf Hq H. unfold resolve_tx. destruct (enter_total find (x_posts x) L N) as (L1 & E).
  { intros p Hp. destruct (Hf p Hp) as (a & ? & _). eauto. }
  rewrite E. cbn [bind]. destruct (enter_spec find _ _ _ E N) as (_ & _ & A3 & A4 & _).
  assert (Qe : forall p, rp_qty (heap L1 p) = rp_qty (heap L p)).
  { intros p. destruct (in_dec Nat.eq_dec p (x_posts x)) as [I|I]; [|rewrite A3; auto]. destruct (A4 p I) as (a & _ & ->). reflexivity. }
  assert (Ce : forall y, In y (map (fun p => comm (rp_acc (heap L1 p))) (x_posts x)) -> y = c).
  { intros y Hy. apply in_map_iff in Hy as (p & <- & Hp). destruct (A4 p Hp) as (a & F & ->). cbn.
    destruct (Hf p Hp) as (a' & F' & G). congruence. }
  pose proof (distinct_one _ c Ce) as D. destruct (Nat.ltb_spec 1 (List.length (distinct (map (fun p => comm (rp_acc (heap L1 p))) (x_posts x))))) as [F|_]; [lia|].
  set (cs := map (fun p => comm (rp_acc (heap L1 p))) (x_posts x)) in *. destruct cs as [|c0 cs'] eqn:Ecs; [eauto|].
  assert (El : last (c0 :: cs') c0 = c) by (apply Ce, last_in; discriminate). rewrite El.
  assert (Hq1 : forall p q, In p (x_posts x) -> rp_qty (heap L1 p) = Some q -> a_com q = c) by (intros p q Hp; rewrite Qe; apply Hq, Hp).
  destruct H as [H|[H1 H2]].
  - destruct (one_missing_total L1 conv (x_posts x) c (zero_amount c) Hq1 eq_refl) as (p & r & ->).
    + rewrite <- H. f_equal. apply filter_ext. intros p. rewrite Qe. reflexivity.
    + cbn. eauto.
  - rewrite (sum_total L1 conv (x_posts x) c (zero_amount c) Hq1 eq_refl) by (intros p Hp; rewrite Qe; auto).
    cbn [bind fst snd]. rewrite (quantities_ext L L1) by (intros; apply Qe). cbn. rewrite H2. cbn. eauto.
Qed.
