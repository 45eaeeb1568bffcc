(** Lemmas: CheckPostings, the whole of ResolveTransactions. *)
From Coq Require Import Sorted Permutation.
From Verif Require Import Base M_Amount M_Regex M_Parser M_Names M_Ledger S_Amount S_Books L_Dec L_Sort L_Amount L_Registers L_Resolve L_Resolve2.

Section C.
Variable comm : bytes -> commodity.
Variable conv : conversion.

(** what checking does to posting [p] when the balance has become [b] *)
Definition checked_posting (v w : rposting) (b : amount) (warned : Prop) : Prop :=
  match rp_bal v with
  | None => w = with_bal v (Some b) (rp_asserted v) /\ ~ warned
  | Some b' => w = v /\ exists e, is_equal b b' = Ok e /\ (warned <-> e = false)
  end.
Lemma checked_keeps v w b P : checked_posting v w b P -> keeps v w.
Proof.
  unfold checked_posting. destruct (rp_bal v) as [b'|] eqn:E.
  - intros [-> _]. apply keeps_refl.
  - intros [-> _]. unfold keeps, with_bal. cbn. repeat split. congruence.
Qed.

Lemma checked_iff v w b (P Q : Prop) : (P <-> Q) -> checked_posting v w b P -> checked_posting v w b Q.
Proof.
  unfold checked_posting. intros I H. destruct (rp_bal v).
  - destruct H as (H & e & H1 & H2). split; [exact H|]. exists e. split; [exact H1|]. tauto.
  - tauto.
Qed.
Lemma check_loop_spec a : forall ps L L' ws, check_loop comm conv L a ps = Ok (L', ws) -> NoDup ps ->
  nxt L' = nxt L /\ (forall b, reg L' b = reg L b) /\ (forall b, b <> a -> bal L' b = bal L b) /\
  (forall p, ~ In p ps -> heap L' p = heap L p) /\ (forall p, In p ws -> In p ps) /\
  (forall p, In p ps -> rp_qty (heap L p) <> None) /\
  (bal L' a = (match ps with [] => bal L a | _ => Some (balance_of comm L' a) end)) /\
  add_all conv (balance_of comm L a) (quantities L ps) = Ok (balance_of comm L' a) /\
  (forall l1 p l2, ps = l1 ++ p :: l2 -> exists b,
     add_all conv (balance_of comm L a) (quantities L (l1 ++ [p])) = Ok b /\
     checked_posting (heap L p) (heap L' p) b (In p ws)) /\
  exists f, ws = filter f ps.
Proof.
  induction ps as [|p ps IH]; intros L L' ws H N; cbn [check_loop] in H.
  - injection H as <- <-. repeat (split; [solve [auto]|]). split; [intros [|] ? ? [=]|]. exists (fun _ => true). reflexivity.
  - destruct (rp_qty (heap L p)) as [q|] eqn:Q; [|discriminate]. unb H. rename a0 into b. cbn zeta in H.
    inversion N as [|? ? Np Nr]; subst.
    set (L1 := set_bal L a b) in *.
    assert (Hb1 : balance_of comm L1 a = b) by (unfold balance_of, L1, set_bal; cbn; rewrite updb_same; reflexivity).
    assert (H1 : exists L2 Lw, (L2 = L1 \/ L2 = set_post L1 p (with_bal (heap L p) (Some b) (rp_asserted (heap L p)))) /\
        check_loop comm conv L2 a ps = Ok (L', Lw) /\
        checked_posting (heap L p) (heap L2 p) b (In p ws /\ ~ In p Lw) /\ (ws = Lw \/ ws = p :: Lw)).
    { change (heap L1 p) with (heap L p) in H. destruct (rp_bal (heap L p)) as [b'|] eqn:Bp.
      - unb H. rename a0 into e. unb H. destruct a0 as [L2 Lw]. cbn [fst snd] in H. injection H as <- <-. exists L1, Lw.
        split; [left; reflexivity|]. split; [exact E1|].
        assert (Nl : ~ In p Lw).
        { intros F. destruct (IH _ _ _ E1 Nr) as (_ & _ & _ & _ & K & _). apply Np, K, F. }
        split; [|destruct e; auto]. unfold checked_posting. rewrite Bp. split; [reflexivity|]. exists e. split; [exact E0|].
        destruct e; split; intros G; try discriminate; auto; [exfalso; tauto|cbn; auto].
      - exists (set_post L1 p (with_bal (heap L p) (Some b) (rp_asserted (heap L p)))), ws. split; [right; reflexivity|].
        split; [exact H|]. split; [|auto]. unfold checked_posting. rewrite Bp. cbn [heap set_post]. rewrite updn_same. split; [reflexivity|tauto]. }
    destruct H1 as (L2 & Lw & HL2 & Hc & Hp & Hws). clear H.
    assert (Ho : forall x, x <> p -> heap L2 x = heap L x).
    { intros x Hx. destruct HL2 as [->| ->]; [reflexivity|]. cbn. apply updn_other, Hx. }
    assert (Hq2 : forall x, In x ps -> rp_qty (heap L2 x) = rp_qty (heap L x)) by (intros x Hx; rewrite Ho; [reflexivity|intros ->; tauto]).
    assert (Hbal2 : balance_of comm L2 a = b) by (destruct HL2 as [->| ->]; exact Hb1).
    assert (Hb2 : forall c, c <> a -> bal L2 c = bal L c).
    { intros c Hc2. destruct HL2 as [->| ->]; cbn; apply updb_other; auto. }
    assert (Hr2 : forall c, reg L2 c = reg L c) by (intros c; destruct HL2 as [->| ->]; reflexivity).
    assert (Hn2 : nxt L2 = nxt L) by (destruct HL2 as [->| ->]; reflexivity).
    assert (HbS : bal L2 a = Some b) by (destruct HL2 as [->| ->]; cbn; apply updb_same).
    destruct (IH _ _ _ Hc Nr) as (B1 & B2 & B3 & B4 & B5 & B6 & B7 & B8 & B9 & f & B10).
    assert (Nl : ~ In p Lw) by (intros F; apply Np, B5, F).
    split; [congruence|]. split; [intros; rewrite B2; apply Hr2|]. split; [intros c Hc2; rewrite B3, Hb2; auto|]. split.
    { intros x Hx. cbn in Hx. rewrite B4, Ho; auto; intuition. }
    split. { intros x Hx. destruct Hws as [->| ->]; [right; auto|]. destruct Hx as [<-|Hx]; [left|right]; auto. }
    split. { intros x [<-|Hx]; [congruence|]. rewrite <- Hq2 by exact Hx. auto. }
    split. { rewrite B7. destruct ps; [|reflexivity]. rewrite HbS. f_equal.
             rewrite <- Hbal2. cbn in Hc. injection Hc as <- _. reflexivity. }
    split. { rewrite quantities_cons, Q. cbn [app add_all]. rewrite E. cbn [bind].
             rewrite <- Hbal2, <- B8. f_equal. symmetry. apply quantities_ext. exact Hq2. }
    split.
    { intros [|y l1] x l2 El; cbn [app] in El; injection El as -> ->.
      - exists b. split; [cbn [app]; rewrite quantities_cons, Q; cbn; rewrite E; reflexivity|].
        rewrite B4 by exact Np. unfold checked_posting in *. destruct (rp_bal (heap L x)) as [b'|]; [|intuition].
        destruct Hp as [-> (e & F1 & F2)]. split; [reflexivity|]. exists e. split; [exact F1|]. intuition.
      - destruct (B9 l1 x l2 eq_refl) as (b2 & F1 & F2). exists b2. assert (Hx : In x (l1 ++ x :: l2)) by apply in_elt.
        assert (x <> y) by (intros ->; tauto). split.
        + cbn [app]. rewrite quantities_cons, Q. cbn [app add_all]. rewrite E. cbn [bind]. rewrite Hbal2 in F1. rewrite <- F1. f_equal.
          symmetry. apply quantities_ext. intros z Hz. apply Hq2. apply in_app_or in Hz as [Hz|[<-|[]]]; [apply in_or_app; auto|exact Hx].
        + rewrite Ho in F2 by assumption. unfold checked_posting in *. destruct (rp_bal (heap L x)) as [b'|].
          * destruct F2 as (G1 & e & G2 & G3). split; [exact G1|]. exists e. split; [exact G2|]. rewrite <- G3.
            destruct Hws as [->| ->]; [tauto|]. cbn. intuition congruence.
          * destruct F2 as (G1 & G2). split; [exact G1|]. destruct Hws as [->| ->]; [tauto|]. cbn. intuition congruence. }
    destruct Hws as [->| ->].
    + exists (fun x => if (x =? p)%nat then false else f x). cbn [filter]. rewrite Nat.eqb_refl. rewrite B10. apply filter_ext_in.
      intros x Hx. destruct (Nat.eqb_spec x p) as [->|]; [tauto|reflexivity].
    + exists (fun x => if (x =? p)%nat then true else f x). cbn [filter]. rewrite Nat.eqb_refl. f_equal. rewrite B10. apply filter_ext_in.
      intros x Hx. destruct (Nat.eqb_spec x p) as [->|]; [tauto|reflexivity].
Qed.
Lemma check_keeps a ps L L' ws : check_loop comm conv L a ps = Ok (L', ws) -> NoDup ps -> forall p, keeps (heap L p) (heap L' p).
Proof.
  intros H N p. destruct (check_loop_spec a _ _ _ _ H N) as (_ & _ & _ & K & _ & _ & _ & _ & F & _).
  destruct (in_dec Nat.eq_dec p ps) as [I|I]; [|rewrite K by exact I; apply keeps_refl].
  apply in_split in I as (l1 & l2 & E). destruct (F _ _ _ E) as (b & _ & G). eapply checked_keeps, G.
Qed.
Lemma keeps_dates L L' : (forall p, keeps (heap L p) (heap L' p)) -> forall p, dates L' p = dates L p.
Proof. intros K p. unfold dates. destruct (K p) as (E & _). exact E. Qed.

(** the accounts loop *)
Lemma sort_postings_id L a : in_date_order (dates L) (reg L a) ->
  heap (sort_postings L a) = heap L /\ nxt (sort_postings L a) = nxt L /\ bal (sort_postings L a) = bal L /\
  forall b, reg (sort_postings L a) b = reg L b.
Proof.
  intros O. repeat split. intros b. cbn. unfold updb. destruct (eqb_bytes b a) eqn:E; [|reflexivity].
  apply eqb_bytes_eq in E. subst b. apply sort_ordered, O.
Qed.
Definition owned (L : ledger) : Prop := forall a p, In p (reg L a) -> rp_acc (heap L p) = a.

Lemma quantities_keeps L L' ids : (forall p, keeps (heap L p) (heap L' p)) -> quantities L' ids = quantities L ids.
Proof. intros K. apply quantities_ext. intros p _. destruct (K p) as (_ & _ & _ & E & _). exact E. Qed.

Lemma finish_spec chk : forall accs L L' ws, finish_accounts comm conv chk L accs = Ok (L', ws) ->
  (forall a, in_date_order (dates L) (reg L a) /\ NoDup (reg L a)) -> owned L -> NoDup accs ->
  nxt L' = nxt L /\ (forall a, reg L' a = reg L a) /\ (forall p, keeps (heap L p) (heap L' p)) /\
  (forall a, ~ In a accs -> bal L' a = bal L a) /\
  (chk = false -> ws = [] /\ heap L' = heap L /\ bal L' = bal L) /\
  (chk = true -> forall a, In a accs ->
     (forall p, In p (reg L a) -> rp_qty (heap L p) <> None) /\
     add_all conv (balance_of comm L a) (quantities L (reg L a)) = Ok (balance_of comm L' a) /\
     (forall l1 p l2, reg L a = l1 ++ p :: l2 -> exists b,
       add_all conv (balance_of comm L a) (quantities L (l1 ++ [p])) = Ok b /\
       checked_posting (heap L p) (heap L' p) b (In p ws))) /\
  (forall p, In p ws -> exists a, In a accs /\ In p (reg L a)) /\
  (forall p, (forall a, In a accs -> ~ In p (reg L a)) -> heap L' p = heap L p).
Proof.
  induction accs as [|a accs IH]; intros L L' ws H R Ow N; cbn [finish_accounts] in H.
  - injection H as <- <-. split; [auto|]. split; [auto|]. split; [intros; apply keeps_refl|]. split; [auto|]. split; [auto|].
    split; [|split]; cbn; tauto.
  - inversion N as [|? ? Na Nr]; subst. destruct (R a) as [Oa Da]. destruct (sort_postings_id L a Oa) as (S1 & S2 & S3 & S4).
    set (L0 := sort_postings L a) in *. cbn zeta in H.
    unb H. destruct a0 as [L1 w1]. cbn [fst snd] in H. unb H. destruct a0 as [L2 w2]. cbn [fst snd] in H. injection H as <- <-.
    assert (D0 : forall p, dates L0 p = dates L p) by (intros; unfold dates; rewrite S1; reflexivity).
    assert (B0 : balance_of comm L0 a = balance_of comm L a) by (unfold balance_of; rewrite S3; reflexivity).
    (* facts about L1 *)
    assert (F : nxt L1 = nxt L /\ (forall b, reg L1 b = reg L b) /\ (forall p, keeps (heap L p) (heap L1 p)) /\
                (forall b, b <> a -> bal L1 b = bal L b) /\ (forall p, ~ In p (reg L a) -> heap L1 p = heap L p) /\
                (forall p, In p w1 -> In p (reg L a)) /\
                (chk = false -> w1 = [] /\ heap L1 = heap L /\ bal L1 = bal L) /\
                (chk = true -> (forall p, In p (reg L a) -> rp_qty (heap L p) <> None) /\
                   add_all conv (balance_of comm L a) (quantities L (reg L a)) = Ok (balance_of comm L1 a) /\
                   (forall l1 p l2, reg L a = l1 ++ p :: l2 -> exists b,
                     add_all conv (balance_of comm L a) (quantities L (l1 ++ [p])) = Ok b /\
                     checked_posting (heap L p) (heap L1 p) b (In p w1)))).
    { destruct chk.
      - unfold check_postings in E. assert (N0 : NoDup (reg L0 a)) by (rewrite S4; exact Da).
        pose proof (check_keeps _ _ _ _ _ E N0) as K. pose proof (check_loop_spec a _ _ _ _ E N0) as G.
        rewrite S1 in K. rewrite S4, S1, S2, S3, B0 in G.
        assert (Qe : forall l, quantities L0 l = quantities L l) by (intros; apply quantities_ext; intros; rewrite S1; reflexivity).
        destruct G as (G1 & G2 & G3 & G4 & G5 & G6 & G7 & G8 & G9 & _).
        repeat (split; [solve [auto]|]). split; [intros b; rewrite G2; apply S4|]. repeat (split; [solve [auto]|]).
        split; [discriminate|]. intros _. split; [exact G6|]. rewrite Qe in G8. split; [exact G8|].
        intros l1 p l2 El. destruct (G9 _ _ _ El) as (b & K1 & K2). exists b. rewrite Qe in K1. auto.
      - injection E as <- <-. rewrite S2. split; [auto|]. split; [exact S4|]. rewrite S1, S3. split; [intros; apply keeps_refl|].
        split; [auto|]. split; [auto|]. split; [cbn; tauto|]. split; [|discriminate]. auto. }
    destruct F as (F1 & F2 & F3 & F4 & F5 & F6 & F7 & F8).
    assert (D1 := keeps_dates _ _ F3).
    destruct (IH L1 L2 w2 E0) as (G1 & G2 & G3 & G4 & G5 & G6 & G7 & G8).
    { intros b. rewrite F2. destruct (R b) as [O1 O2]. split; [|exact O2]. eapply order_ext; [|exact O1]. intros; symmetry; apply D1. }
    { intros b p Hp. rewrite F2 in Hp. destruct (F3 p) as (_ & _ & -> & _). apply Ow, Hp. }
    { exact Nr. }
    split; [congruence|]. split; [intros; rewrite G2; apply F2|]. split; [intros p; eapply keeps_trans; eauto|].
    split. { intros b Hb. cbn in Hb. rewrite G4, F4; intuition. }
    split. { intros Hc. destruct (F7 Hc) as (-> & K1 & K2). destruct (G5 Hc) as (-> & K3 & K4). split; [reflexivity|]. split; congruence. }
    assert (Dj : forall b p, b <> a -> In p (reg L b) -> ~ In p (reg L a)).
    { intros b p Hb Hp Hp2. apply Hb. rewrite <- (Ow _ _ Hp). apply (Ow _ _ Hp2). }
    split.
    { intros Hc b [<-|Hb].
      - destruct (F8 Hc) as (K1 & K2 & K3). split; [exact K1|]. split.
        + rewrite K2. f_equal. unfold balance_of. rewrite G4 by exact Na. reflexivity.
        + intros l1 p l2 El. destruct (K3 _ _ _ El) as (b & J1 & J2). exists b. split; [exact J1|].
          assert (Hp : In p (reg L a)) by (rewrite El; apply in_elt).
          assert (Eh : heap L2 p = heap L1 p).
          { apply G8. intros c Hc1 Hc2. rewrite F2 in Hc2. apply (Dj c p); auto. intros ->. tauto. }
          assert (Nw : ~ In p w2).
          { intros Hw. destruct (G7 p Hw) as (c & Hc1 & Hc2). rewrite F2 in Hc2. apply (Dj c p); auto. intros ->. tauto. }
          rewrite Eh. eapply checked_iff; [|exact J2]. rewrite in_app_iff. tauto.
      - assert (Eb : b <> a) by (intros ->; tauto). destruct (G6 Hc b Hb) as (K1 & K2 & K3). rewrite F2 in K1, K2, K3.
        assert (EB : balance_of comm L1 b = balance_of comm L b) by (unfold balance_of; rewrite F4 by exact Eb; reflexivity).
        rewrite EB in *. split; [|split].
        + intros p Hp. rewrite <- (F5 p); [auto|]. eapply Dj; eauto.
        + rewrite <- K2. f_equal. symmetry. apply quantities_keeps, F3.
        + intros l1 p l2 El. destruct (K3 _ _ _ El) as (c & J1 & J2). exists c.
          assert (Hp : In p (reg L b)) by (rewrite El; apply in_elt). rewrite (quantities_keeps _ _ _ F3) in J1. split; [exact J1|].
          rewrite F5 in J2 by (eapply Dj; eauto).
          assert (Nw : ~ In p w1) by (intros Hw; apply (Dj b p Eb Hp), F6, Hw).
          eapply checked_iff; [|exact J2]. rewrite in_app_iff. tauto. }
    split.
    + intros p Hp. apply in_app_or in Hp as [Hp|Hp]; [exists a; split; [left; auto|auto]|].
      destruct (G7 p Hp) as (c & C1 & C2). rewrite F2 in C2. exists c. split; [right; auto|auto].
    + intros p Hp. rewrite G8, F5; auto; [apply Hp; left; auto|]. intros c Hc. rewrite F2. apply Hp. right; auto.
Qed.
End C.
