(** Lemmas: entering transactions into the ledger. *)
From Coq Require Import Sorted Permutation.
From Verif Require Import Base M_Amount M_Regex M_Parser M_Names M_Ledger S_Amount S_Books L_Dec L_Sort L_Amount L_Registers.

Ltac unb H := match type of H with
  | (do _ <- ?x; _) = Ok _ => let E := fresh "E" in destruct x eqn:E; cbn [bind] in H; [|discriminate|discriminate]
  end.

Lemma updn_same {A} (f : nat -> A) k v : updn f k v k = v.
Proof. unfold updn. rewrite Nat.eqb_refl. reflexivity. Qed.
Lemma updn_other {A} (f : nat -> A) k v i : i <> k -> updn f k v i = f i.
Proof. intros H. unfold updn. destruct (Nat.eqb_spec i k); [tauto|reflexivity]. Qed.
Lemma eqb_bytes_refl a : eqb_bytes a a = true.
Proof. apply eqb_bytes_eq. reflexivity. Qed.
Lemma updb_same {A} (f : bytes -> A) k v : updb f k v k = v.
Proof. unfold updb. rewrite eqb_bytes_refl. reflexivity. Qed.
Lemma eqb_bytes_neq a b : a <> b -> eqb_bytes a b = false.
Proof. intros H. destruct (eqb_bytes a b) eqn:E; [|reflexivity]. apply eqb_bytes_eq in E. tauto. Qed.
Lemma updb_other {A} (f : bytes -> A) k v i : i <> k -> updb f k v i = f i.
Proof. intros H. unfold updb. rewrite eqb_bytes_neq by exact H. reflexivity. Qed.

(** of_day under equal dates *)
Lemma of_day_ext (d1 d2 : nat -> Z) d l : (forall p, In p l -> d1 p = d2 p) -> of_day d1 d l = of_day d2 d l.
Proof. unfold of_day. induction l as [|x l IH]; intros H; cbn [filter]; [reflexivity|]. rewrite (H x) by (left; auto). rewrite IH; [reflexivity|]. intros; apply H; right; auto. Qed.
Lemma order_ext (d1 d2 : nat -> Z) l : (forall p, In p l -> d1 p = d2 p) -> in_date_order d1 l -> in_date_order d2 l.
Proof.
  induction l as [|x l IH]; intros H O; [constructor|]. apply order_cons in O as [O1 O2]. apply order_cons. split.
  - apply IH; auto. intros; apply H; right; auto.
  - rewrite Forall_forall in *. intros q Hq. rewrite <- !H by (cbn; auto). auto.
Qed.
Lemma dated_perm date made l : dated_version date made l -> Permutation made l.
Proof.
  intros H. rewrite (dated_unique date made l _ H (sort_dated date made)). apply stable_sort_perm.
Qed.

(** ** Allocation *)
Definition parsed (d : Z) (s : posting) : rposting :=
  mkRP d (ps_account s) [] (ps_quantity s) (ps_balance s) (match ps_balance s with Some _ => true | None => false end) (ps_notes s).
Lemma alloc_postings_spec d : forall ps L L' ids, alloc_postings L d ps = (L', ids) ->
  nxt L' = (nxt L + List.length ps)%nat /\ ids = seq (nxt L) (List.length ps) /\
  (forall a, reg L' a = reg L a) /\ (forall a, bal L' a = bal L a) /\
  (forall p, (p < nxt L)%nat -> heap L' p = heap L p) /\
  Forall2 (fun s p => heap L' p = parsed d s) ps ids.
Proof.
  induction ps as [|s ps IH]; intros L L' ids H; cbn [alloc_postings] in H.
  - injection H as <- <-. cbn. repeat split; auto.
  - destruct (alloc_postings _ d ps) as [L2 ids2] eqn:E. injection H as <- <-. apply IH in E. cbn [nxt reg bal heap] in E.
    destruct E as (E1 & E2 & E3 & E4 & E5 & E6). cbn [List.length seq]. rewrite E2 in *. split; [lia|]. split; [reflexivity|].
    split; [exact E3|]. split; [exact E4|]. split.
    + intros p Hp. rewrite E5 by lia. apply updn_other. lia.
    + constructor; [|exact E6]. rewrite E5 by lia. apply updn_same.
Qed.
Definition entered (L : ledger) (t : transaction) (x : rtx) : Prop :=
  x_posted x = t_posted t /\ x_code x = t_code t /\ x_desc x = t_desc t /\ x_notes x = t_notes t /\
  Forall2 (fun s p => heap L p = parsed (t_posted t) s) (t_postings t) (x_posts x).
Lemma alloc_txs_spec : forall ts L L' xs, alloc_txs L ts = (L', xs) ->
  (exists n, nxt L' = (nxt L + n)%nat /\ flat_map x_posts xs = seq (nxt L) n) /\
  (forall a, reg L' a = reg L a) /\ (forall a, bal L' a = bal L a) /\
  (forall p, (p < nxt L)%nat -> heap L' p = heap L p) /\
  Forall2 (entered L') ts xs.
Proof.
  induction ts as [|t ts IH]; intros L L' xs H; cbn [alloc_txs] in H.
  - injection H as <- <-. split; [exists O; cbn; auto|]. repeat split; auto.
  - destruct (alloc_postings L (t_posted t) (t_postings t)) as [L1 ids] eqn:E1.
    destruct (alloc_txs L1 ts) as [L2 ys] eqn:E2. injection H as <- <-.
    apply alloc_postings_spec in E1 as (A1 & A2 & A3 & A4 & A5 & A6).
    apply IH in E2 as ((n & B1 & B1') & B2 & B3 & B4 & B5).
    split; [|split; [|split; [|split]]].
    + exists (List.length (t_postings t) + n)%nat. split; [lia|]. cbn [flat_map x_posts]. rewrite seq_app, B1', A1, A2. reflexivity.
    + intros a. rewrite B2, A3. reflexivity.
    + intros a. rewrite B3, A4. reflexivity.
    + intros p Hp. rewrite B4 by lia. apply A5, Hp.
    + constructor; [|exact B5]. unfold entered. cbn. repeat split. 
      assert (Hids : Forall (fun p => (p < nxt L1)%nat) ids).
      { apply Forall_forall. intros p Hp. rewrite A2 in Hp. apply in_seq in Hp. lia. }
      clear - A6 B4 Hids. induction A6; constructor; inversion Hids; subst; auto. rewrite B4; auto.
Qed.

(** ** enter *)
Lemma dates_set_acc L p a q : dates (set_post L p (with_acc (heap L p) a)) q = dates L q.
Proof. unfold dates. cbn. unfold updn. destruct (Nat.eqb_spec q p); subst; reflexivity. Qed.

Section E.
Variable find : bytes -> res bytes.
Lemma enter_spec : forall ids L L', enter find L ids = Ok L' -> NoDup ids ->
  nxt L' = nxt L /\ (forall a, bal L' a = bal L a) /\
  (forall p, ~ In p ids -> heap L' p = heap L p) /\
  (forall p, In p ids -> exists a, find (rp_name (heap L p)) = Ok a /\ heap L' p = with_acc (heap L p) a) /\
  (forall p, dates L' p = dates L p) /\
  ((forall a, in_date_order (dates L) (reg L a)) -> (forall a p, In p ids -> ~ In p (reg L a)) ->
   forall a, dated_version (dates L) (reg L a ++ filter (fun p => eqb_bytes (rp_acc (heap L' p)) a) ids) (reg L' a)).
Proof.
  induction ids as [|p ids IH]; intros L L' H N; cbn [enter] in H.
  - injection H as <-. repeat split; auto; try (cbn; tauto). cbn. rewrite app_nil_r. reflexivity.
  - unb H. rename a into a0. set (L1 := set_post L p (with_acc (heap L p) a0)) in *. cbn zeta in H.
    inversion N as [|? ? Np Nr]; subst. destruct (IH _ _ H Nr) as (A1 & A2 & A3 & A4 & A5 & A6). cbn [add_to set_reg nxt bal heap] in *.
    assert (D1 : forall q, dates L1 q = dates L q) by (intros; apply dates_set_acc).
    assert (Dt : forall q, dates (add_to L1 a0 p) q = dates L q) by exact D1.
    split; [exact A1|]. split; [exact A2|]. split.
    { intros q Hq. rewrite A3 by (cbn in Hq; tauto). cbn. apply updn_other. cbn in Hq. intuition. }
    split.
    { intros q [<-|Hq].
      - exists a0. split; [exact E|]. rewrite A3 by exact Np. cbn. apply updn_same.
      - destruct (A4 q Hq) as (a & F & G). cbn in F, G. rewrite updn_other in F, G by (intros ->; tauto). eauto. }
    split.
    { intros q. rewrite A5. exact (D1 q). }
    intros O Fr a.
    assert (HL1p : rp_acc (heap L' p) = a0).
    { rewrite A3 by exact Np. cbn. rewrite updn_same. reflexivity. }
    assert (R1 : forall b, reg (add_to L1 a0 p) b = if eqb_bytes b a0 then add_posting (dates L1) (reg L a0) p else reg L b)
      by reflexivity.
    assert (Oa : in_date_order (dates L1) (reg L a0)) by (eapply order_ext; [|apply O]; intros; symmetry; apply D1).
    assert (Ord1 : forall b, in_date_order (dates (add_to L1 a0 p)) (reg (add_to L1 a0 p) b)).
    { intros b. rewrite R1. destruct (eqb_bytes b a0).
      - apply (add_order (dates L1)). exact Oa.
      - eapply order_ext; [|apply O]. intros; symmetry; apply D1. }
    assert (Fr1 : forall b q, In q ids -> ~ In q (reg (add_to L1 a0 p) b)).
    { intros b q Hq. rewrite R1. destruct (eqb_bytes b a0).
      - rewrite (add_in_iff (dates L1)) by exact Oa. intros [->|F]; [tauto|]. eapply Fr; [right; exact Hq|exact F].
      - apply Fr. right; exact Hq. }
    destruct (A6 Ord1 Fr1 a) as [B1 B2]. split.
    { eapply order_ext; [|exact B1]. intros; apply D1. }
    intros d. etransitivity; [apply of_day_ext; intros; symmetry; apply Dt|]. rewrite B2.
    cbn [filter]. rewrite HL1p.
    etransitivity; [apply of_day_ext; intros; apply Dt|].
    unfold of_day. rewrite !filter_app. rewrite R1. destruct (eqb_bytes a a0) eqn:Ea.
    + apply eqb_bytes_eq in Ea. subst a. rewrite eqb_bytes_refl.
      assert (G : filter (fun q => dates L q =? d) (add_posting (dates L1) (reg L a0) p) = filter (fun q => dates L q =? d) (reg L a0 ++ [p])).
      { change (of_day (dates L) d (add_posting (dates L1) (reg L a0) p) = of_day (dates L) d (reg L a0 ++ [p])).
        etransitivity; [apply of_day_ext; intros; symmetry; apply D1|].
        rewrite add_of_day; [apply of_day_ext; intros; apply D1|exact Oa|]. apply Fr. left; reflexivity. }
      rewrite G, filter_app, <- app_assoc. f_equal. cbn [filter]. destruct (dates L p =? d); reflexivity.
    + rewrite (eqb_bytes_neq a0 a); [reflexivity|]. intros ->. rewrite eqb_bytes_refl in Ea. discriminate.
Qed.
Lemma enter_total : forall ids L, NoDup ids -> (forall p, In p ids -> exists a, find (rp_name (heap L p)) = Ok a) ->
  exists L', enter find L ids = Ok L'.
Proof.
  induction ids as [|p ids IH]; intros L N H; cbn [enter]; [eauto|].
  destruct (H p (or_introl eq_refl)) as (a & ->). cbn [bind]. inversion N; subst. apply IH; auto.
  intros q Hq. destruct (H q (or_intror Hq)) as (b & Hb). exists b. cbn. rewrite updn_other by (intros ->; tauto). exact Hb.
Qed.
End E.

(** ** totals *)
Lemma add_in_shift conv a b a' : add_in conv a b = Ok a' -> a_com a' = a_com a /\
  forall a2, a_com a2 = a_com a -> add_in conv a2 b = Ok (mkAmount (a_int a2 + (a_int a' - a_int a)) (a_com a)).
Proof.
  unfold add_in. intros H. unb H. unb H. injection H as <-. cbn. split; [reflexivity|].
  intros a2 E2. rewrite E2, E. cbn [bind].
  assert (F : adjusted_to a0 a2 = adjusted_to a0 a) by (unfold adjusted_to, a_dec; rewrite E2; reflexivity).
  rewrite F, E0. cbn [bind]. f_equal. f_equal; lia.
Qed.
Lemma add_all_shift conv : forall l a a', add_all conv a l = Ok a' -> a_com a' = a_com a /\
  forall a2, a_com a2 = a_com a -> add_all conv a2 l = Ok (mkAmount (a_int a2 + (a_int a' - a_int a)) (a_com a)).
Proof.
  induction l as [|b l IH]; intros a a' H; cbn [add_all] in *.
  - injection H as <-. split; [reflexivity|]. intros a2 E. f_equal. destruct a2; cbn in *. subst. f_equal; lia.
  - unb H. apply add_in_shift in E as [E1 E2]. apply IH in H as [H1 H2]. split; [congruence|].
    intros a2 E3. rewrite (E2 a2 E3). cbn [bind]. rewrite H2 by (cbn; congruence). cbn. f_equal. f_equal; [lia|congruence].
Qed.
Lemma add_all_app conv : forall l1 l2 a, add_all conv a (l1 ++ l2) = (do b <- add_all conv a l1; add_all conv b l2).
Proof.
  induction l1 as [|b l IH]; intros l2 a; cbn [add_all app bind]; [reflexivity|].
  destruct (add_in conv a b); cbn [bind]; auto.
Qed.

Section T.
Variable conv : conversion.
Lemma quantities_cons L p ids : quantities L (p :: ids) = (match rp_qty (heap L p) with Some q => [q] | None => [] end) ++ quantities L ids.
Proof. reflexivity. Qed.
Lemma quantities_app L i1 i2 : quantities L (i1 ++ i2) = quantities L i1 ++ quantities L i2.
Proof. unfold quantities. apply flat_map_app. Qed.
Lemma total_loop_some L : forall ids e t r, total_loop conv L ids (Some e) t = Ok r ->
  fst r = Some e /\ (forall p, In p ids -> rp_qty (heap L p) <> None) /\ add_all conv t (quantities L ids) = Ok (snd r).
Proof.
  induction ids as [|p ids IH]; intros e t r H; cbn [total_loop] in H.
  - injection H as <-. cbn. auto.
  - destruct (rp_qty (heap L p)) as [q|] eqn:Q; [|discriminate]. unb H. apply IH in H as (H1 & H2 & H3).
    split; [exact H1|]. split.
    + intros x [<-|Hx]; [congruence|auto].
    + rewrite quantities_cons, Q. cbn [app add_all]. rewrite E. exact H3.
Qed.
Lemma total_loop_none L : forall ids t r, total_loop conv L ids None t = Ok r ->
  (fst r = None /\ (forall p, In p ids -> rp_qty (heap L p) <> None) /\ add_all conv t (quantities L ids) = Ok (snd r)) \/
  (exists i1 p i2, ids = i1 ++ p :: i2 /\ fst r = Some p /\ rp_qty (heap L p) = None /\
     (forall q, In q (i1 ++ i2) -> rp_qty (heap L q) <> None) /\ add_all conv t (quantities L (i1 ++ i2)) = Ok (snd r)).
Proof.
  induction ids as [|p ids IH]; intros t r H; cbn [total_loop] in H.
  - left. injection H as <-. cbn. auto.
  - destruct (rp_qty (heap L p)) as [q|] eqn:Q.
    + unb H. apply IH in H as [(H1 & H2 & H3)|(i1 & e & i2 & -> & H1 & H2 & H3 & H4)].
      * left. split; [exact H1|]. split.
        -- intros x [<-|Hx]; [congruence|auto].
        -- rewrite quantities_cons, Q. cbn [app add_all]. rewrite E. exact H3.
      * right. exists (p :: i1), e, i2. split; [reflexivity|]. split; [exact H1|]. split; [exact H2|]. split.
        -- cbn [app]. intros x [<-|Hx]; [congruence|auto].
        -- cbn [app]. rewrite quantities_cons, Q. cbn [app add_all]. rewrite E. exact H4.
    + apply total_loop_some in H as (H1 & H2 & H3). right. exists [], p, ids. cbn [app]. auto.
Qed.
End T.

Lemma distinct_one : forall cs c, (forall x, In x cs -> x = c) -> (List.length (distinct cs) <= 1)%nat.
Proof.
  induction cs as [|x cs IH]; intros c H; cbn [distinct]; [cbn; lia|].
  destruct (existsb (eq_commodity x) cs) eqn:E.
  - apply IH with c. intros; apply H; right; auto.
  - destruct cs as [|y cs]; [cbn; lia|]. exfalso. cbn [existsb] in E.
    rewrite (H x), (H y), eq_commodity_refl in E by (cbn; auto). discriminate.
Qed.
Lemma distinct_in : forall cs x, In x cs -> In x (distinct cs).
Proof.
  induction cs as [|y cs IH]; intros x H; cbn [distinct]; [exact H|].
  destruct (existsb (eq_commodity y) cs) eqn:E.
  - destruct H as [<-|H]; [|auto]. apply existsb_exists in E as (z & Hz & Ez). apply eq_commodity_eq in Ez. subst. auto.
  - destruct H as [<-|H]; [left; auto|right; auto].
Qed.
Lemma distinct_many cs c : cs <> [] -> (List.length (distinct cs) <= 1)%nat -> In c cs -> forall x, In x cs -> x = c.
Proof.
  intros N H Hc x Hx. apply distinct_in in Hc, Hx. destruct (distinct cs) as [|y [|z r]]; cbn in *; [tauto| |lia].
  destruct Hc as [<-|[]], Hx as [<-|[]]. reflexivity.
Qed.
