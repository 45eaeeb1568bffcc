(** Lemmas: the balance checks of a formatted file. *)
From Coq Require Import Sorted Permutation.
From Verif Require Import Base M_Amount M_Regex M_Date M_Parser M_Writer M_Names M_Ledger M_Commands S_Amount S_Ledger S_Books S_Commands
  L_Dec L_Sort L_Amount L_Registers L_Resolve L_Resolve2 L_Check L_Load L_RoundTrip L_Entries L_Format.

Section K.
Variable comm : bytes -> commodity.
Variable conv : conversion.

Definition cnt (v : rposting) : option amount * option amount := (rp_qty v, rp_bal v).
Fixpoint checks (b : amount) (l : list (option amount * option amount)) : Prop :=
  match l with
  | [] => True
  | (oq, ob) :: r => exists q b', oq = Some q /\ add_in conv b q = Ok b' /\ (forall x, ob = Some x -> exists e, is_equal b' x = Ok e) /\ checks b' r
  end.
Lemma check_total a : forall ps L, NoDup ps -> checks (balance_of comm L a) (map (fun p => cnt (heap L p)) ps) -> exists r, check_loop comm conv L a ps = Ok r.
Proof.
  induction ps as [|p ps IH]; intros L N H; cbn [check_loop]; [eauto|]. inversion N as [|? ? Np Nr]; subst.
  cbn [map checks cnt] in H. destruct H as (q & b' & E1 & E2 & E3 & E4). rewrite E1, E2. cbn [bind].
  change (heap (set_bal L a b') p) with (heap L p).
  assert (G : forall L2, (forall x, x <> p -> heap L2 x = heap L x) -> balance_of comm L2 a = b' -> exists r, check_loop comm conv L2 a ps = Ok r).
  { intros L2 H1 H2. apply IH; [exact Nr|]. rewrite H2. erewrite map_ext_in; [exact E4|]. intros x Hx. cbn. rewrite H1; [reflexivity|]. intros ->. tauto. }
  assert (Hb : balance_of comm (set_bal L a b') a = b') by (unfold balance_of, set_bal; cbn; rewrite updb_same; reflexivity).
  destruct (rp_bal (heap L p)) as [x|].
  - destruct (E3 x eq_refl) as (e & ->). cbn [bind]. destruct (G (set_bal L a b')) as (r & ->); [reflexivity|exact Hb|]. cbn. eauto.
  - apply G; [|exact Hb]. intros x Hx. cbn. apply updn_other, Hx.
Qed.
Lemma check_checks a : forall ps L r, NoDup ps -> check_loop comm conv L a ps = Ok r -> checks (balance_of comm L a) (map (fun p => cnt (heap L p)) ps).
Proof.
  induction ps as [|p ps IH]; intros L r N H; cbn [check_loop] in H; [exact I|]. inversion N as [|? ? Np Nr]; subst.
  cbn [map checks]. unfold cnt at 1. destruct (rp_qty (heap L p)) as [q|] eqn:Q; [|discriminate]. apply bind_ok in H as (b' & E & H).
  exists q, b'. split; [reflexivity|]. split; [exact E|]. cbn zeta in H. change (heap (set_bal L a b') p) with (heap L p) in H.
  assert (Hb : balance_of comm (set_bal L a b') a = b') by (unfold balance_of, set_bal; cbn; rewrite updb_same; reflexivity).
  assert (G : forall L2 r2, (forall x, x <> p -> heap L2 x = heap L x) -> balance_of comm L2 a = b' -> check_loop comm conv L2 a ps = Ok r2 ->
    checks b' (map (fun p => cnt (heap L p)) ps)).
  { intros L2 r2 H1 H2 H3. apply IH in H3; [|exact Nr]. rewrite H2 in H3. erewrite map_ext_in; [exact H3|]. intros x Hx. cbn. rewrite H1; [reflexivity|]. intros ->. tauto. }
  destruct (rp_bal (heap L p)) as [x|].
  - apply bind_ok in H as (e & E1 & H). apply bind_ok in H as (r2 & E2 & H). split; [intros y [= <-]; eauto|].
    eapply (G (set_bal L a b')); [reflexivity|exact Hb|exact E2].
  - split; [discriminate|]. eapply (G (set_post (set_bal L a b') p _)); [|exact Hb|exact H]. intros x Hx. cbn. apply updn_other, Hx.
Qed.

Lemma finish_split accs a L r : finish_accounts comm conv true L (a :: accs) = Ok r -> 
  exists r1 r2, check_postings comm conv (sort_postings L a) a = Ok r1 /\ finish_accounts comm conv true (fst r1) accs = Ok r2.
Proof. intros H. cbn [finish_accounts] in H. apply bind_ok in H as (r1 & E1 & H). apply bind_ok in H as (r2 & E2 & H). eauto. Qed.

Definition regs_fine (L : ledger) : Prop := (forall a, in_date_order (dates L) (reg L a) /\ NoDup (reg L a)) /\ owned L.
Lemma check_other a L r : regs_fine L -> check_postings comm conv (sort_postings L a) a = Ok r ->
  regs_fine (fst r) /\ (forall b, reg (fst r) b = reg L b) /\ (forall b, b <> a -> balance_of comm (fst r) b = balance_of comm L b) /\
  (forall b p, b <> a -> In p (reg L b) -> heap (fst r) p = heap L p).
Proof.
  intros [Fi Ow] H. destruct r as [L1 w]. destruct (Fi a) as [Oa Da]. destruct (sort_postings_id L a Oa) as (S1 & S2 & S3 & S4).
  unfold check_postings in H. assert (N0 : NoDup (reg (sort_postings L a) a)) by (rewrite S4; exact Da).
  pose proof (check_keeps _ _ _ _ _ _ _ H N0) as K. destruct (check_loop_spec comm conv a _ _ _ _ H N0) as (G1 & G2 & G3 & G4 & _).
  rewrite S1 in K, G4. cbn [fst].
  assert (R : forall b, reg L1 b = reg L b) by (intros b; rewrite G2; apply S4).
  split; [|split; [exact R|split]].
  - split.
    + intros b. rewrite R. destruct (Fi b) as [O1 O2]. split; [|exact O2]. eapply order_ext; [|exact O1]. intros p _. symmetry. apply keeps_dates, K.
    + intros b p Hp. rewrite R in Hp. destruct (K p) as (_ & _ & -> & _). apply Ow, Hp.
  - intros b Hb. unfold balance_of. rewrite G3, S3 by exact Hb. reflexivity.
  - intros b p Hb Hp. rewrite G4; [reflexivity|]. rewrite S4. intros Hp2. apply Hb. rewrite <- (Ow _ _ Hp). apply (Ow _ _ Hp2).
Qed.
Lemma finish_checks : forall accs L r, regs_fine L -> NoDup accs -> finish_accounts comm conv true L accs = Ok r ->
  forall a, In a accs -> checks (balance_of comm L a) (map (fun p => cnt (heap L p)) (reg L a)).
Proof.
  induction accs as [|b accs IH]; intros L r Fi N H a Ha; [destruct Ha|]. inversion N as [|? ? Nb Nr]; subst.
  apply finish_split in H as (r1 & r2 & H1 & H2). destruct (check_other b L r1 Fi H1) as (F1 & F2 & F3 & F4).
  destruct Ha as [->|Ha].
  - destruct Fi as [Fi Ow]. destruct (Fi a) as [Oa Da]. destruct (sort_postings_id L a Oa) as (S1 & S2 & S3 & S4).
    unfold check_postings in H1. apply check_checks in H1; [|rewrite S4; exact Da].
    rewrite S4, S1 in H1. unfold balance_of in H1. rewrite S3 in H1. exact H1.
  - assert (E : a <> b) by (intros ->; tauto). specialize (IH _ _ F1 Nr H2 a Ha). rewrite F3, F2 in IH by exact E.
    erewrite map_ext_in; [exact IH|]. intros p Hp. cbn. rewrite (F4 a p E Hp). reflexivity.
Qed.
Lemma finish_total : forall accs L, regs_fine L -> NoDup accs ->
  (forall a, In a accs -> checks (balance_of comm L a) (map (fun p => cnt (heap L p)) (reg L a))) -> exists r, finish_accounts comm conv true L accs = Ok r.
Proof.
  induction accs as [|b accs IH]; intros L Fi N H; cbn [finish_accounts]; [eauto|]. inversion N as [|? ? Nb Nr]; subst.
  assert (C : exists r1, check_postings comm conv (sort_postings L b) b = Ok r1).
  { destruct Fi as [Fi Ow]. destruct (Fi b) as [Oa Da]. destruct (sort_postings_id L b Oa) as (S1 & S2 & S3 & S4).
    apply check_total; rewrite S4; [exact Da|]. rewrite S1. unfold balance_of. rewrite S3. apply H. left; reflexivity. }
  destruct C as (r1 & C). cbn zeta. rewrite C. cbn [bind]. destruct (check_other b L r1 Fi C) as (F1 & F2 & F3 & F4).
  destruct (IH (fst r1) F1 Nr) as (r2 & ->); [|cbn; eauto].
  intros a Ha. assert (E : a <> b) by (intros ->; tauto). rewrite F3, F2 by exact E. specialize (H a (or_intror Ha)).
  erewrite map_ext_in; [exact H|]. intros p Hp. cbn. rewrite (F4 a p E Hp). reflexivity.
Qed.
End K.

(** ** lists ordered by day *)
Lemma day_pairs_unique {A} : forall (l l' : list (Z * A)), StronglySorted (fun x y => fst x <= fst y) l -> StronglySorted (fun x y => fst x <= fst y) l' ->
  (forall d, filter (fun x => fst x =? d) l = filter (fun x => fst x =? d) l') -> l = l'.
Proof.
  assert (Mem : forall l l' : list (Z * A), (forall d, filter (fun x => fst x =? d) l = filter (fun x => fst x =? d) l') -> forall x, In x l -> In x l').
  { intros l l' H x Hx. assert (I : In x (filter (fun y => fst y =? fst x) l)) by (apply filter_In; rewrite Z.eqb_refl; auto).
    rewrite H in I. apply filter_In in I. tauto. }
  induction l as [|x l IH]; intros l' S S' H.
  - destruct l' as [|y l']; [reflexivity|]. destruct (Mem _ _ (fun d => eq_sym (H d)) y (or_introl eq_refl)).
  - destruct l' as [|y l']; [destruct (Mem _ _ H x (or_introl eq_refl))|].
    assert (K : fst x = fst y).
    { pose proof (Mem _ _ H x (or_introl eq_refl)) as I1. pose proof (Mem _ _ (fun d => eq_sym (H d)) y (or_introl eq_refl)) as I2.
      inversion S as [|? ? _ F1]; subst. inversion S' as [|? ? _ F2]; subst. rewrite Forall_forall in F1, F2.
      destruct I1 as [->|I1]; [reflexivity|]. destruct I2 as [->|I2]; [reflexivity|]. specialize (F1 y I2). specialize (F2 x I1). lia. }
    pose proof (H (fst x)) as H0. cbn [filter] in H0. rewrite Z.eqb_refl, <- K, Z.eqb_refl in H0. injection H0 as H0 _. subst y.
    f_equal. inversion S; subst. inversion S'; subst. apply IH; try assumption. intros d. specialize (H d). cbn [filter] in H. destruct (fst x =? d); [congruence|exact H].
Qed.

(** what is posted to account [a] on day [d] *)
Definition hist1 (a : bytes) (t : transaction) : list posting := filter (fun s => eqb_bytes (ps_account s) a) (t_postings t).
Definition hist (d : Z) (a : bytes) (ts : list transaction) : list posting := flat_map (hist1 a) (filter (fun t => t_posted t =? d) ts).
Definition entry (L : ledger) (p : nat) : Z * posting := (dates L p, wposting (heap L p)).

Lemma filter_map_comm {A C} (f : A -> C) (P : C -> bool) l : filter P (map f l) = map f (filter (fun x => P (f x)) l).
Proof. induction l as [|x l IH]; [reflexivity|]. cbn. rewrite IH. destruct (P (f x)); reflexivity. Qed.
Lemma filter_flat_map {A C} (f : A -> list C) (P : C -> bool) l : filter P (flat_map f l) = flat_map (fun x => filter P (f x)) l.
Proof. induction l as [|x l IH]; [reflexivity|]. cbn. rewrite filter_app, IH. reflexivity. Qed.
Lemma map_flat_map {A C D} (f : A -> list C) (g : C -> D) l : map g (flat_map f l) = flat_map (fun x => map g (f x)) l.
Proof. induction l as [|x l IH]; [reflexivity|]. cbn. rewrite map_app, IH. reflexivity. Qed.

Lemma entries_of_day find comm conv L ts xs d a : Forall2 (resolved find comm conv L) ts xs ->
  map (entry L) (of_day (dates L) d (made_to L a xs)) = map (fun s => (d, s)) (hist d a (map (as_written L) xs)).
Proof.
  intros R. unfold of_day, made_to, hist. rewrite filter_flat_map, filter_flat_map, map_flat_map.
  induction R as [|t x ts xs R1 R IH]; [reflexivity|]. cbn [flat_map map filter]. rewrite IH.
  assert (Dx : forall p, In p (x_posts x) -> dates L p = x_posted x).
  { destruct R1 as (E & _ & _ & _ & F & _). rewrite E. clear - F. intros p Hp. induction F as [|s q l l' H _ IH]; [destruct Hp|].
    destruct Hp as [<-|Hp]; [apply H|apply IH, Hp]. }
  change (t_posted (as_written L x)) with (x_posted x).
  destruct (Z.eqb_spec (x_posted x) d) as [E|E].
  - cbn [flat_map]. rewrite map_app. f_equal. unfold hist1. rewrite as_written_postings, filter_map_comm. rewrite !map_map.
    clear - Dx E. induction (x_posts x) as [|p l IH]; [reflexivity|]. cbn [filter wposting ps_account].
    assert (IH' := IH (fun q Hq => Dx q (or_intror Hq))). clear IH.
    destruct (eqb_bytes (rp_acc (heap L p)) a); [|exact IH']. cbn [filter]. rewrite (Dx p) by (left; reflexivity). rewrite E, Z.eqb_refl. cbn [map]. f_equal; [|exact IH'].
    unfold entry. rewrite (Dx p) by (left; reflexivity). rewrite E. reflexivity.
  - match goal with |- ?l ++ _ = _ => assert (Z0 : l = []) end; [|rewrite Z0; reflexivity].
    clear - Dx E. induction (x_posts x) as [|p l IH]; [reflexivity|]. cbn [filter].
    assert (IH' := IH (fun q Hq => Dx q (or_intror Hq))). clear IH.
    destruct (eqb_bytes (rp_acc (heap L p)) a); [|exact IH']. cbn [filter]. rewrite (Dx p) by (left; reflexivity).
    destruct (Z.eqb_spec (x_posted x) d); [contradiction|exact IH'].
Qed.

(** the history of an account does not change when the file is brought in order *)
Lemma filter_two (P : transaction -> bool) l : file_order l -> (forall t u, P t = true -> P u = true -> t_posted t = t_posted u) ->
  filter P l = filter (fun t => P t && negb (tx_asserts t)) l ++ filter (fun t => P t && tx_asserts t) l.
Proof.
  intros S H. induction S as [|t l S IH F]; [reflexivity|]. cbn [filter]. destruct (P t) eqn:E; cbn [andb]; [|exact IH].
  destruct (tx_asserts t) eqn:A; cbn [negb].
  - rewrite IH. assert (Z0 : filter (fun u => P u && negb (tx_asserts u)) l = []); [|rewrite Z0; reflexivity].
    rewrite Forall_forall in F. clear - F E A H. induction l as [|u l IH]; [reflexivity|]. cbn [filter].
    assert (IH' := IH (fun x Hx => F x (or_intror Hx))). destruct (P u) eqn:Eu; [|exact IH']. specialize (F u (or_introl eq_refl)). specialize (H t u E Eu).
    destruct F as [F|[_ F]]; [lia|]. rewrite (F eq_refl). exact IH'.
  - cbn [app]. f_equal. exact IH.
Qed.
Lemma flat_two {B} (f : transaction -> list B) l :
  (forall l1 t l2 u l3, l = l1 ++ t :: l2 ++ u :: l3 -> tx_asserts t = true -> tx_asserts u = false -> f t = [] \/ f u = []) ->
  flat_map f l = flat_map f (filter (fun t => negb (tx_asserts t)) l) ++ flat_map f (filter tx_asserts l).
Proof.
  induction l as [|t l IH]; intros H; [reflexivity|].
  assert (IH' : flat_map f l = flat_map f (filter (fun t => negb (tx_asserts t)) l) ++ flat_map f (filter tx_asserts l)).
  { apply IH. intros l1 a l2 b l3 E. apply (H (t :: l1) a l2 b l3). rewrite E. reflexivity. }
  cbn [filter flat_map]. destruct (tx_asserts t) eqn:A; cbn [negb flat_map]; [|rewrite IH', app_assoc; reflexivity].
  destruct (f t) as [|x r] eqn:Ef; [cbn [app]; exact IH'|].
  assert (Z0 : flat_map f (filter (fun t => negb (tx_asserts t)) l) = []).
  { assert (K : forall u, In u l -> tx_asserts u = false -> f u = []).
    { intros u Hu Au. apply in_split in Hu as (l2 & l3 & ->). destruct (H [] t l2 u l3 eq_refl A Au) as [K|K]; [congruence|exact K]. }
    clear - K. induction l as [|u l IH]; [reflexivity|]. cbn [filter]. assert (IH' := IH (fun v Hv => K v (or_intror Hv))).
    destruct (tx_asserts u) eqn:Au; cbn [negb]; [exact IH'|]. cbn [flat_map]. rewrite (K u (or_introl eq_refl) Au). exact IH'. }
  rewrite IH', Z0. reflexivity.
Qed.
Lemma filter_split {A} (P : A -> bool) : forall l l1 x l2, filter P l = l1 ++ x :: l2 -> exists m1 m2, l = m1 ++ x :: m2 /\ filter P m1 = l1 /\ filter P m2 = l2 /\ P x = true.
Proof.
  induction l as [|y l IH]; intros l1 x l2 H; cbn [filter] in H; [destruct l1; discriminate|].
  destruct (P y) eqn:E.
  - destruct l1 as [|z l1]; cbn [app] in H.
    + injection H as -> H. exists [], l. cbn. auto.
    + injection H as -> H. apply IH in H as (m1 & m2 & -> & H1 & H2 & H3). exists (z :: m1), m2. cbn [filter]. rewrite E, H1. auto.
  - apply IH in H as (m1 & m2 & -> & H1 & H2 & H3). exists (y :: m1), m2. cbn [filter]. rewrite E. auto.
Qed.
Lemma hist_ordered d a ts ts' : ordered_version ts ts' ->
  (forall ts1 t ts2 u ts3, ts = ts1 ++ t :: ts2 ++ u :: ts3 -> t_posted t = d -> t_posted u = d -> tx_asserts t = true -> tx_asserts u = false -> hist1 a t = [] \/ hist1 a u = []) ->
  hist d a ts' = hist d a ts.
Proof.
  intros [O1 O2] N. unfold hist. rewrite (filter_two _ _ O1) by (intros t u H1 H2; lia). rewrite flat_map_app.
  rewrite (flat_two (hist1 a) (filter (fun t => t_posted t =? d) ts)).
  - rewrite !filter_filter.
    assert (E1 := O2 d false). assert (E2 := O2 d true).
    rewrite (filter_ext (fun t => (t_posted t =? d) && negb (tx_asserts t)) (fun t => (t_posted t =? d) && Bool.eqb (tx_asserts t) false)) by (intros t; destruct (tx_asserts t); reflexivity).
    rewrite (filter_ext (fun t => (t_posted t =? d) && tx_asserts t) (fun t => (t_posted t =? d) && Bool.eqb (tx_asserts t) true)) by (intros t; destruct (tx_asserts t); reflexivity).
    rewrite E1, E2. f_equal; f_equal; apply filter_ext; intros t; destruct (tx_asserts t); reflexivity.
  - intros l1 t l2 u l3 E A1 A2. apply filter_split in E as (m1 & m2 & -> & F1 & F2 & F0). apply filter_split in F2 as (m3 & m4 & -> & F3 & F4 & F5).
    apply (N m1 t m3 u m4); try assumption; try reflexivity; lia.
Qed.

Section W.
Variable find : bytes -> res bytes.
Variable comm : bytes -> commodity.
Variable conv : conversion.
Variable accounts : list bytes.
Hypothesis Na : NoDup accounts.

Lemma entries_sorted L l : in_date_order (dates L) l -> StronglySorted (fun x y => fst x <= fst y) (map (entry L) l).
Proof.
  induction 1 as [|p l S IH F]; cbn [map]; constructor; [exact IH|]. apply Forall_forall. intros e He. apply in_map_iff in He as (q & <- & Hq).
  rewrite Forall_forall in F. exact (F q Hq).
Qed.
(** equal histories, equal registers *)
Lemma registers_same La tsa xsa Lb tsb xsb : Forall2 (resolved find comm conv La) tsa xsa -> Forall2 (resolved find comm conv Lb) tsb xsb ->
  (forall a, dated_version (dates La) (made_to La a xsa) (reg La a)) -> (forall a, dated_version (dates Lb) (made_to Lb a xsb) (reg Lb a)) ->
  forall a, (forall d, hist d a (map (as_written La) xsa) = hist d a (map (as_written Lb) xsb)) -> map (entry La) (reg La a) = map (entry Lb) (reg Lb a).
Proof.
  intros Ra Rb Da Db a H. destruct (Da a) as [Oa Ea], (Db a) as [Ob Eb]. apply day_pairs_unique; try (apply entries_sorted; assumption).
  intros d. rewrite !filter_map_comm. cbn [entry fst]. change (map (entry La) (of_day (dates La) d (reg La a)) = map (entry Lb) (of_day (dates Lb) d (reg Lb a))).
  rewrite Ea, Eb. rewrite (entries_of_day _ _ _ _ _ _ _ _ Ra), (entries_of_day _ _ _ _ _ _ _ _ Rb), H. reflexivity.
Qed.

Lemma pos_Forall2 {A B} (R : A -> B -> Prop) : forall l l', List.length l = List.length l' ->
  (forall l1 p l2 l1' p' l2', l = l1 ++ p :: l2 -> l' = l1' ++ p' :: l2' -> List.length l1 = List.length l1' -> R p p') -> Forall2 R l l'.
Proof.
  induction l as [|x l IH]; intros [|y l'] E H; try discriminate; constructor.
  - apply (H [] x l [] y l'); reflexivity.
  - apply IH; [cbn in E; lia|]. intros l1 p l2 l1' p' l2' E1 E2 E3. apply (H (x :: l1) p l2 (y :: l1') p' l2'); cbn; congruence.
Qed.
Lemma map_pos {A B C} (f : A -> C) (g : B -> C) l1 p l2 l1' p' l2' : map f (l1 ++ p :: l2) = map g (l1' ++ p' :: l2') -> List.length l1 = List.length l1' ->
  map f l1 = map g l1' /\ f p = g p'.
Proof.
  intros H E. rewrite !map_app in H. apply app_len_inj in H as [H1 H2]; [|rewrite !map_length; exact E]. cbn in H2. injection H2 as H2 _. auto.
Qed.
Lemma quantities_entries L l : quantities L l = flat_map (fun e => match ps_quantity (snd e) with Some q => [q] | None => [] end) (map (entry L) l).
Proof. unfold quantities. induction l as [|p l IH]; [reflexivity|]. cbn [flat_map map]. rewrite IH. reflexivity. Qed.
Lemma hist_same d a ts us : Forall2 same_transaction ts us -> hist d a ts = hist d a us.
Proof.
  unfold hist. induction 1 as [|t u ts us H _ IH]; [reflexivity|]. unfold same_transaction, at_line in H. injection H as E1 E2 E3 E4 E5.
  cbn [filter]. rewrite E1. destruct (t_posted u =? d); [|exact IH]. cbn [flat_map]. rewrite IH. unfold hist1. rewrite E5. reflexivity.
Qed.
Lemma completed_asserts t t' : completed find comm conv t t' -> tx_asserts t' = tx_asserts t.
Proof.
  intros (_ & _ & _ & _ & H & _). unfold tx_asserts. induction H as [|s s' l l' (_ & _ & E & _) _ IH]; [reflexivity|]. cbn [existsb]. rewrite E, IH. reflexivity.
Qed.
Lemma hist1_source a t t' : completed find comm conv t t' -> hist1 a t' <> [] -> exists s, In s (t_postings t) /\ find (ps_account s) = Ok a.
Proof.
  intros (_ & _ & _ & _ & H & _) N. unfold hist1 in N. induction H as [|s s' l l' (E & _) _ IH]; [destruct N; reflexivity|]. cbn [filter] in N.
  destruct (eqb_bytes (ps_account s') a) eqn:Ea.
  - apply eqb_bytes_eq in Ea. subst a. exists s. split; [left; reflexivity|exact E].
  - destruct (IH N) as (u & U1 & U2). exists u. split; [right|]; auto.
Qed.
Lemma hist_completed ts ts1 ts2 d a : assertions_last find ts -> Forall2 (completed find comm conv) ts ts1 -> ordered_version ts1 ts2 -> hist d a ts2 = hist d a ts1.
Proof.
  intros Al C Ov. apply hist_ordered; [exact Ov|]. intros l1 t l2 u l3 E Pt Pu At Au. subst ts1.
  apply Forall2_app_r in C as (k1 & k2 & -> & C1 & C2). inversion C2 as [|t0 ? k3 ? D1 D2]; subst. apply Forall2_app_r in D2 as (k4 & k5 & -> & D3 & D4).
  inversion D4 as [|u0 ? k6 ? D5 D6]; subst.
  destruct (hist1 a t) as [|x r] eqn:Et; [left; reflexivity|]. right. destruct (hist1 a u) as [|y r'] eqn:Eu; [reflexivity|]. exfalso.
  destruct (hist1_source a t0 t D1) as (s & S1 & S2); [rewrite Et; discriminate|]. destruct (hist1_source a u0 u D5) as (s' & S1' & S2'); [rewrite Eu; discriminate|].
  apply (Al k1 t0 k4 u0 k6 eq_refl) with (s := s) (s' := s'); auto; try congruence.
  - destruct D1 as (E & _), D5 as (E' & _). congruence.
  - rewrite <- (completed_asserts _ _ D1). exact At.
  - rewrite <- (completed_asserts _ _ D5). exact Au.
Qed.
(** before the accounts are checked a posting has a balance exactly if it asserts one *)
Lemma fresh_balances L ts L1 xs M : alloc_txs L ts = (L1, xs) -> (forall p, rp_bal (heap M p) = rp_bal (heap L1 p) /\ rp_asserted (heap M p) = rp_asserted (heap L1 p)) ->
  forall p, In p (flat_map x_posts xs) -> rp_asserted (heap M p) = match rp_bal (heap M p) with Some _ => true | None => false end.
Proof.
  intros Ea B8 p Hp. destruct (B8 p) as [-> ->]. destruct (alloc_txs_spec _ _ _ _ Ea) as (_ & _ & _ & _ & F).
  clear - F Hp. induction F as [|t x ts xs E F IH]; cbn [flat_map] in Hp; [destruct Hp|].
  apply in_app_or in Hp as [Hp|Hp]; [|apply IH, Hp]. destruct E as (_ & _ & _ & _ & E). clear - E Hp.
  induction E as [|s q ss qs Hs E IH]; [destruct Hp|]. destruct Hp as [<-|Hp]; [rewrite Hs; reflexivity|apply IH, Hp].
Qed.
Lemma keeps_entry M L p : keeps (heap M p) (heap L p) -> rp_asserted (heap M p) = (match rp_bal (heap M p) with Some _ => true | None => false end) ->
  entry L p = entry M p /\ cnt (heap M p) = (ps_quantity (snd (entry M p)), ps_balance (snd (entry M p))).
Proof.
  intros (K1 & K2 & K3 & K4 & K5 & K6 & K7) A. unfold entry, wposting, cnt, dates. rewrite K1, K3, K4, K5, K6, A. cbn.
  destruct (rp_bal (heap M p)) as [b|]; [rewrite (K7 b eq_refl)|]; auto.
Qed.

Definition rechecks (L : ledger) (ws : list nat) (L2 : ledger) (ws2 : list nat) (a : bytes) : Prop :=
  Forall2 (fun p p2 => rp_date (heap L2 p2) = rp_date (heap L p) /\ wposting (heap L2 p2) = wposting (heap L p) /\ (In p2 ws2 <-> In p ws)) (reg L a) (reg L2 a).
Lemma recheck ts L ws sorted ts' : (forall n a, find n = Ok a -> find a = Ok a) -> assertions_last find ts ->
  load_transactions find comm conv accounts true empty_ledger ts = Ok (L, ws, sorted) -> Forall2 same_transaction (map (as_written L) sorted) ts' ->
  exists L2 ws2 sorted2, load_transactions find comm conv accounts true empty_ledger ts' = Ok (L2, ws2, sorted2) /\
    forall a, In a accounts -> rechecks L ws L2 ws2 a.
Proof.
  intros Hf Al H S.
  destruct (load_inv _ _ _ _ _ _ _ _ _ _ empty_ok Na H) as (L1 & xs & n & Ea & Es & A1 & A2 & R & D & _ & Ok1 & M & B1 & B2 & B3 & B4 & B5 & B6 & _ & B8).
  assert (Cs : Forall2 (completed find comm conv) ts (map (as_written L) xs)).
  { clear - R. induction R as [|t x ts xs R1 R IH]; constructor; [apply resolved_completed, R1|exact IH]. }
  assert (Ov : ordered_version (map (as_written L) xs) (map (as_written L) sorted)) by (rewrite Es; eapply ordered_map, R).
  assert (Self : Forall (fun t => completed find comm conv t t) ts').
  { assert (S1 : Forall (fun t => completed find comm conv t t) (map (as_written L) sorted)).
    { apply Forall_forall. intros t Ht. assert (It : In t (map (as_written L) xs)).
      { eapply Permutation_in; [|exact Ht]. symmetry. apply Permutation_map. rewrite Es. apply stable_sort_perm. }
      clear - Cs It Hf. induction Cs as [|u u' us us' C _ IH]; [destruct It|]. destruct It as [<-|It]; [eapply completed_self; eassumption|apply IH, It]. }
    clear - S S1. induction S as [|t u ts us E _ IH]; [constructor|]. inversion S1; subst. constructor; [eapply completed_same; eassumption|apply IH; assumption]. }
  assert (Ex : Forall (fun t => exists t', completed find comm conv t t') ts') by (eapply Forall_impl; [|exact Self]; cbn; eauto).
  destruct (load_accepts find comm conv accounts empty_ledger ts' Ex) as (N' & sorted' & Hn).
  destruct (load_inv _ _ _ _ _ _ _ _ _ _ empty_ok Na Hn) as (L1' & xs' & n' & Ea' & Es' & A1' & A2' & R' & D' & _ & Ok1' & N & B1' & B2' & B3' & B4' & B5' & B6' & _ & B8').
  assert (S' : Forall2 same_transaction ts' (map (as_written N') xs')).
  { clear - R' Self. induction R' as [|t x ts xs R1 R IH]; cbn [map]; constructor; [|apply IH; inversion Self; assumption].
    inversion Self; subst. eapply completed_unique; [eassumption|apply resolved_completed, R1]. }
  assert (Hist : forall a d, hist d a (map (as_written L) xs) = hist d a (map (as_written N') xs')).
  { intros a d. rewrite <- (hist_same d a _ _ S'), <- (hist_same d a _ _ S). symmetry. eapply hist_completed; eassumption. }
  assert (Reg : forall a, map (entry L) (reg L a) = map (entry N') (reg N' a)).
  { intros a. eapply registers_same; [exact R|exact R'| | |intros; apply Hist]; intros b; [apply (D b)|apply (D' b)]. }
  assert (In1 : forall a p, In p (reg L a) -> In p (flat_map x_posts xs)).
  { intros a p Hp. apply (Permutation_in _ (Permutation_sym (dated_perm _ _ _ (D a)))) in Hp. cbn in Hp. apply filter_In in Hp. tauto. }
  assert (In2 : forall a p, In p (reg N' a) -> In p (flat_map x_posts xs')).
  { intros a p Hp. apply (Permutation_in _ (Permutation_sym (dated_perm _ _ _ (D' a)))) in Hp. cbn in Hp. apply filter_In in Hp. tauto. }
  assert (EM : forall a p, In p (reg L a) -> entry L p = entry M p /\ cnt (heap M p) = (ps_quantity (snd (entry M p)), ps_balance (snd (entry M p)))).
  { intros a p Hp. apply keeps_entry; [apply B5|]. eapply fresh_balances; [exact Ea|exact B8|eapply In1, Hp]. }
  assert (EN : forall a p, In p (reg N' a) -> entry N' p = entry N p /\ cnt (heap N p) = (ps_quantity (snd (entry N p)), ps_balance (snd (entry N p)))).
  { intros a p Hp. apply keeps_entry; [apply B5'|]. eapply fresh_balances; [exact Ea'|exact B8'|eapply In2, Hp]. }
  assert (Cnt : forall a, map (fun p => cnt (heap N p)) (reg N a) = map (fun p => cnt (heap M p)) (reg M a)).
  { intros a. rewrite B4, B4'.
    assert (F1 : map (fun p => cnt (heap M p)) (reg L a) = map (fun x => (ps_quantity (snd x), ps_balance (snd x))) (map (entry L) (reg L a))).
    { rewrite map_map. apply map_ext_in. intros p Hp. destruct (EM a p Hp) as [E1 E2]. rewrite E2, E1. reflexivity. }
    assert (F2 : map (fun p => cnt (heap N p)) (reg N' a) = map (fun x => (ps_quantity (snd x), ps_balance (snd x))) (map (entry N') (reg N' a))).
    { rewrite map_map. apply map_ext_in. intros p Hp. destruct (EN a p Hp) as [E1 E2]. rewrite E2, E1. reflexivity. }
    rewrite F1, F2, Reg. reflexivity. }
  assert (Fine : forall Q, ledger_ok Q -> regs_fine Q).
  { intros Q K. split; [intros a; destruct (K a) as (K1 & K2 & _); auto|]. intros a p Hp. destruct (K a) as (_ & _ & K3). apply K3, Hp. }
  assert (Z0 : forall Q a, (forall b, bal Q b = bal empty_ledger b) -> balance_of comm Q a = zero_amount (comm a)).
  { intros Q a K. unfold balance_of. rewrite K. reflexivity. }
  destruct (finish_total comm conv accounts N (Fine N B3') Na) as ([L2 ws2] & Fin).
  { intros a Ha. pose proof (finish_checks comm conv accounts M _ (Fine M B3) Na B2 a Ha) as K. rewrite (Z0 M a B6) in K. rewrite (Z0 N a B6'), Cnt. exact K. }
  assert (H2 : load_transactions find comm conv accounts true empty_ledger ts' = Ok (L2, ws2, stable_sort (tx_less L2) xs')).
  { unfold load_transactions. rewrite Ea'. unfold resolve_transactions. rewrite B1'. cbn [bind]. rewrite Fin. reflexivity. }
  exists L2, ws2, (stable_sort (tx_less L2) xs'). split; [exact H2|].
  assert (Fin2 := finish_spec comm conv true _ _ _ _ Fin (proj1 (Fine N B3')) (proj2 (Fine N B3')) Na).
  destruct Fin2 as (C1 & C2 & C3 & _).
  assert (E2 : forall a p, In p (reg L2 a) -> entry L2 p = entry N p).
  { intros a p Hp. rewrite C2, B4' in Hp. apply keeps_entry; [apply C3|]. eapply fresh_balances; [exact Ea'|exact B8'|eapply In2, Hp]. }
  assert (Ent : forall a, map (entry L) (reg L a) = map (entry L2) (reg L2 a)).
  { intros a. rewrite Reg. rewrite C2, B4'. apply map_ext_in. intros p Hp. destruct (EN a p Hp) as [-> _]. symmetry. apply (E2 a). rewrite C2, B4'. exact Hp. }
  destruct (load_checked _ _ _ _ _ _ _ _ Na H) as [K1 _]. destruct (load_checked _ _ _ _ _ _ _ _ Na H2) as [K2 _].
  intros a Ha. unfold rechecks. specialize (Ent a). destruct (K1 a Ha) as [_ P1]. destruct (K2 a Ha) as [_ P2]. apply pos_Forall2.
  - apply (f_equal (@List.length _)) in Ent. rewrite !map_length in Ent. exact Ent.
  - intros l1 p l2 l1' p' l2' F1 F2 F3. destruct (P1 _ _ _ F1) as (b & G1 & G2 & G3). destruct (P2 _ _ _ F2) as (b2 & J1 & J2 & J3).
    rewrite F1, F2 in Ent. destruct (map_pos _ _ _ _ _ _ _ _ Ent F3) as [M1 M2].
    assert (Eq : quantities L (l1 ++ [p]) = quantities L2 (l1' ++ [p'])).
    { rewrite !quantities_entries, !map_app, M1. cbn [map]. rewrite M2. reflexivity. }
    assert (b2 = b) as -> by congruence. unfold entry, dates in M2. injection M2 as M2 M3 M4 M5 M6. split; [congruence|]. split; [unfold wposting; congruence|].
    assert (As : rp_asserted (heap L2 p') = rp_asserted (heap L p)).
    { assert (Hp : In p (reg L a)) by (rewrite F1; apply in_elt). assert (Hp' : In p' (reg L2 a)) by (rewrite F2; apply in_elt).
      assert (X1 : rp_asserted (heap L p) = match (if rp_asserted (heap L p) then rp_bal (heap L p) else None) with Some _ => true | None => false end).
      { destruct (rp_asserted (heap L p)) eqn:X; [|reflexivity]. destruct (G3 eq_refl) as (y & _ & -> & _). reflexivity. }
      assert (X2 : rp_asserted (heap L2 p') = match (if rp_asserted (heap L2 p') then rp_bal (heap L2 p') else None) with Some _ => true | None => false end).
      { destruct (rp_asserted (heap L2 p')) eqn:X; [|reflexivity]. destruct (J3 eq_refl) as (y & _ & -> & _). reflexivity. }
      rewrite X1, X2, M5. reflexivity. }
    rewrite As in J2, J3, M5. destruct (rp_asserted (heap L p)).
    + destruct (G3 eq_refl) as (y & e & Y1 & Y2 & Y3). destruct (J3 eq_refl) as (y' & e' & Y1' & Y2' & Y3'). assert (y' = y) as -> by congruence.
      assert (e' = e) as -> by congruence. tauto.
    + destruct (G2 eq_refl) as [_ G4]. destruct (J2 eq_refl) as [_ J4]. tauto.
Qed.
End W.
