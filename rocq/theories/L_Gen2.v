(** Lemmas: the postings made by gen2coin and their balances. *)
From Coq Require Import Permutation Sorted.
From Verif Require Import Base M_Amount S_Decimal S_Amount M_Parser M_Ledger S_Books L_Dec L_Amount L_Sort L_Registers L_Resolve L_Resolve2 L_Check L_Load L_Move M_Gen S_Gen L_Gen.

Definition qsum (L : ledger) (ids : list nat) : Z := zsum (map a_int (quantities L ids)).
Lemma zsum_app a b : zsum (a ++ b) = zsum a + zsum b.
Proof. induction a as [|x a IH]; cbn; [reflexivity|]. unfold zsum in *. cbn. lia. Qed.
Lemma qsum_app L a b : qsum L (a ++ b) = qsum L a + qsum L b.
Proof. unfold qsum, quantities. rewrite flat_map_app, map_app. apply zsum_app. Qed.
Lemma qsum_perm L a b : Permutation a b -> qsum L a = qsum L b.
Proof.
  intros P. induction P as [|x a b _ IH|x y l|a b d _ IH1 _ IH2]; [reflexivity| | |congruence].
  - change (x :: a) with ([x] ++ a). change (x :: b) with ([x] ++ b). rewrite !qsum_app, IH. reflexivity.
  - change (y :: x :: l) with ([y] ++ [x] ++ l). change (x :: y :: l) with ([x] ++ [y] ++ l). rewrite !qsum_app. lia.
Qed.
Lemma qsum_ext L L' ids : (forall p, In p ids -> rp_qty (heap L p) = rp_qty (heap L' p)) -> qsum L ids = qsum L' ids.
Proof.
  intros H. induction ids as [|p ids IH]; [reflexivity|]. change (p :: ids) with ([p] ++ ids). rewrite !qsum_app, IH by (intros; apply H; right; assumption).
  f_equal. unfold qsum, quantities. cbn. rewrite (H p (or_introl eq_refl)). reflexivity.
Qed.

Section G.
Variable comm : bytes -> commodity.
Variable conv : conversion.
Variable rnd : nat -> nat.
Variable c : commodity.
Hypothesis one : forall a, comm a = c.

Definition plain (v : rposting) : Prop := rp_bal v = None /\ rp_asserted v = false /\ exists q, rp_qty v = Some q /\ a_com q = c.
Definition gen_ok (L : ledger) : Prop :=
  ledger_ok L /\ (forall p, (p < nxt L)%nat -> plain (heap L p)) /\
  forall a, balance_of comm L a = mkAmount (qsum L (reg L a)) c.
Lemma gen_empty : gen_ok empty_ledger.
Proof.
  split; [|split].
  - intros a. cbn. split; [constructor|]. split; [constructor|]. intros p [].
  - cbn. lia.
  - intros a. cbn. rewrite one. reflexivity.
Qed.
(** what the rule says about the amount: [units] of the account's commodity *)
Definition amount_ok (r : rule) (q : amount) : Prop :=
  a_com q = c /\ (ru_min r <= constants -> exists u, Z.min (ru_min r) (ru_max r) <= u <= Z.max (ru_min r) (ru_max r) /\
     (ru_min r <> ru_max r -> u < Z.max (ru_min r) (ru_max r)) /\
     a_int q = wrap64 (u * wrap64 (10 ^ Z.of_nat (c_dec c)))).
Lemma go_pow_ok b e r : 0 <= e < 2 ^ 62 -> go_pow 64 b e = Some r -> r = wrap64 (b ^ e).
Proof.
  intros He H. assert (E : go_pow 64 b e = Some (wrap64 (b ^ e))); [|congruence].
  unfold go_pow. change 1 with (2 ^ 0) at 1. apply (pow_loop_ok b e He 63 0); [lia|lia|lia|left; reflexivity| |].
  + unfold eqm. change (2 ^ 0) with 1. rewrite Z.pow_1_r. reflexivity.
  + change (2 ^ 0) with 1. rewrite Z.mod_1_r, Z.pow_0_r. reflexivity.
Qed.
Lemma go_pow_small b e : 0 <= e < 2 ^ 62 -> go_pow 64 b e = Some (wrap64 (b ^ e)).
Proof.
  intros He. unfold go_pow. change 1 with (2 ^ 0) at 1. apply (pow_loop_ok b e He 63 0); [lia|lia|lia|left; reflexivity| |].
  + unfold eqm. change (2 ^ 0) with 1. rewrite Z.pow_1_r. reflexivity.
  + change (2 ^ 0) with 1. rewrite Z.mod_1_r, Z.pow_0_r. reflexivity.
Qed.
Lemma amt_between_ok L k r from to q : gen_ok L -> Z.of_nat (c_dec c) < 2 ^ 62 ->
  amt_between comm rnd L k (ru_min r) (ru_max r) from to = Ok q -> amount_ok r q.
Proof.
  intros (_ & _ & Hb) Hdec H. unfold amt_between in H. destruct (Z.ltb_spec constants (ru_min r)) as [Hc|Hc].
  - split; [|lia]. unfold amt_from_balance in H.
    destruct (ru_min r =? from_balance); [|destruct (ru_min r =? to_balance); [|discriminate]]; cbn [bind] in H;
    match type of H with context[euclid_div ?x ?y] => destruct (euclid_div x y) as [i| |] end; try discriminate; cbn [bind] in H;
    injection H as <-; rewrite Hb; reflexivity.
  - rewrite one, (go_pow_small 10 (Z.of_nat (c_dec c)) ltac:(lia)) in H. injection H as <-. split; [reflexivity|]. intros _.
    destruct (Z.eqb_spec (Z.min (ru_min r) (ru_max r)) (Z.max (ru_min r) (ru_max r))) as [E|E].
    + exists (Z.min (ru_min r) (ru_max r)). split; [clear -E; lia|]. split; [clear -E; intros N; lia|]. reflexivity.
    + eexists. split; [|split; [|reflexivity]].
      all: unfold intn; assert (Hm := Nat.mod_upper_bound (rnd k) (Z.to_nat (Z.max (ru_min r) (ru_max r) - Z.min (ru_min r) (ru_max r))) ltac:(lia)); lia.
Qed.
Lemma balance_set L a b a' : balance_of comm (set_bal L a b) a' = if eqb_bytes a' a then b else balance_of comm L a'.
Proof. unfold balance_of, set_bal, updb. cbn. destruct (eqb_bytes a' a); reflexivity. Qed.
(** what generating postings does *)
Definition posted_two (r : rule) (L L' : ledger) (x x' : rtx) : Prop :=
  exists from to amt, (ru_from r <> [] -> In from (ru_from r)) /\ (ru_to r <> [] -> In to (ru_to r)) /\ amount_ok r amt /\
    x_posted x' = x_posted x /\ x_code x' = x_code x /\ x_desc x' = x_desc x /\ x_notes x' = x_notes x /\
    x_posts x' = x_posts x ++ (if a_int amt <? 0 then [S (nxt L); nxt L] else [nxt L; S (nxt L)]) /\
    nxt L' = S (S (nxt L)) /\
    heap L' (nxt L) = new_rp (x_posted x) to amt None /\ heap L' (S (nxt L)) = new_rp (x_posted x) from (negated amt) None /\
    (forall p, (p < nxt L)%nat -> heap L' p = heap L p) /\
    (forall a, dated_version (dates L') (reg L a ++ (if eqb_bytes a to then [nxt L] else []) ++ (if eqb_bytes a from then [S (nxt L)] else [])) (reg L' a)).
Lemma generate_postings_ok L k r x L' x' : gen_ok L -> Z.of_nat (c_dec c) < 2 ^ 62 ->
  generate_postings comm conv rnd L k r x = Ok (L', x') -> gen_ok L' /\ posted_two r L L' x x'.
Proof.
  intros Hg Hdec H. unfold generate_postings in H.
  set (from := nth (intn rnd k (List.length (ru_from r))) (ru_from r) []) in H.
  set (to := nth (intn rnd (S k) (List.length (ru_to r))) (ru_to r) []) in H.
  destruct (amt_between comm rnd L (S (S k)) (ru_min r) (ru_max r) from to) as [amt| |] eqn:Ea; cbn [bind] in H; try discriminate.
  apply (amt_between_ok _ _ _ _ _ _ Hg Hdec) in Ea. destruct Hg as (Hok & Hpl & Hb). destruct Ea as [Hac Ham].
  assert (HP := post_spec L x to amt None from (negated amt) None Hok). unfold post in H.
  destruct (post_conversion L x to amt None from (negated amt) None) as [L1 x1] eqn:E1.
  cbn [fst snd] in HP. destruct HP as (K1 & K2 & K3 & K4 & K5 & K6 & K7 & K8 & K9 & K10 & K11).
  assert (Ebal : bal L1 = bal L) by (apply (f_equal (fun y => bal (fst y))) in E1; cbn [fst] in E1; rewrite <- E1; reflexivity).
  assert (Hb1 : forall a, balance_of comm L1 a = mkAmount (qsum L (reg L a)) c) by (intros a; rewrite <- Hb; unfold balance_of; rewrite Ebal; reflexivity).
  rewrite (add_in_same conv (balance_of comm L1 to) amt) in H by (rewrite Hb1; exact Hac). cbn [bind] in H.
  rewrite (add_in_same conv _ (negated amt)) in H.
  2:{ rewrite balance_set. destruct (eqb_bytes from to); cbn; rewrite ?Hb1; exact Hac. }
  cbn [bind] in H. injection H as <- <-.
  assert (Hqty : forall a p, In p (reg L a) -> rp_qty (heap L1 p) = rp_qty (heap L p)).
  { intros a p Hp. destruct (Hok a) as (_ & _ & K). destruct (K p Hp) as [Hlt _]. rewrite K10 by exact Hlt. reflexivity. }
  assert (Hsum : forall a, qsum L1 (reg L1 a) = qsum L (reg L a) + (if eqb_bytes a to then a_int amt else 0) + (if eqb_bytes a from then - a_int amt else 0)).
  { intros a. specialize (K11 a). apply dated_perm in K11. rewrite <- (qsum_perm _ _ _ K11), !qsum_app.
    rewrite (qsum_ext L1 L) by (intros p Hp; apply (Hqty a); exact Hp).
    destruct (eqb_bytes a to), (eqb_bytes a from); unfold qsum, quantities; cbn [flat_map map app zsum fold_right]; rewrite ?K8, ?K9; cbn; lia. }
  split.
  - split; [exact K1|]. split.
    + cbn [nxt set_bal heap]. intros p Hp. rewrite K2 in Hp.
      destruct (Nat.lt_total p (nxt L)) as [Hlt|[->|Hlt]].
      * rewrite K10 by exact Hlt. apply Hpl. exact Hlt.
      * rewrite K8. split; [reflexivity|]. split; [reflexivity|]. exists amt. auto.
      * assert (p = S (nxt L)) by lia. subst p. rewrite K9. split; [reflexivity|]. split; [reflexivity|]. exists (negated amt). auto.
    + intros a. rewrite !balance_set.
      change (reg (set_bal (set_bal L1 to _) from _) a) with (reg L1 a).
      change (qsum (set_bal (set_bal L1 to _) from _) (reg L1 a)) with (qsum L1 (reg L1 a)). rewrite (Hsum a).
      destruct (eqb_bytes a from) eqn:Ef.
      * apply eqb_bytes_eq in Ef. rewrite Ef. destruct (eqb_bytes from to) eqn:Et; cbn [a_int a_com negated]; rewrite ?Hb1; cbn [a_int a_com]; f_equal.
        -- apply eqb_bytes_eq in Et. rewrite <- Et. lia.
        -- lia.
      * destruct (eqb_bytes a to) eqn:Et; rewrite ?Hb1; cbn [a_int a_com]; f_equal; try lia.
        apply eqb_bytes_eq in Et. rewrite Et. lia.
  - exists from, to, amt. cbn [nxt set_bal heap].
    assert (Hin : forall (l : list bytes) i, l <> [] -> In (nth (intn rnd i (List.length l)) l []) l).
    { intros l i Hl. apply nth_In. unfold intn. apply Nat.mod_upper_bound. destruct l; [contradiction|discriminate]. }
    split; [apply Hin|]. split; [apply Hin|]. split; [split; assumption|]. repeat (split; [first [assumption|reflexivity]|]).
    intros a. exact (K11 a).
Qed.

(** the transaction [x] made from [y] by rule [r] *)
Definition made_by (r : rule) (L : ledger) (y x : rtx) : Prop :=
  x_posted x = x_posted y /\ x_code x = x_code y /\ x_desc x = x_desc y /\ x_notes x = x_notes y /\
  exists from to amt p q, (ru_from r <> [] -> In from (ru_from r)) /\ (ru_to r <> [] -> In to (ru_to r)) /\ amount_ok r amt /\
    p <> q /\ x_posts x = x_posts y ++ (if a_int amt <? 0 then [q; p] else [p; q]) /\
    (p < nxt L)%nat /\ (q < nxt L)%nat /\
    heap L p = new_rp (x_posted y) to amt None /\ heap L q = new_rp (x_posted y) from (negated amt) None.
Lemma made_by_later r L L' y x : made_by r L y x -> (nxt L <= nxt L')%nat -> (forall p, (p < nxt L)%nat -> heap L' p = heap L p) -> made_by r L' y x.
Proof.
  intros (H1 & H2 & H3 & H4 & from & to & amt & p & q & K1 & K2 & K3 & K4 & K5 & K6 & K7 & K8 & K9) Hn Hh.
  repeat (split; [assumption|]). exists from, to, amt, p, q. repeat (split; [first [assumption|lia]|]). rewrite !Hh by assumption. auto.
Qed.
Lemma generate_all_ok : Z.of_nat (c_dec c) < 2 ^ 62 -> forall ss L k L' xs, gen_ok L -> generate_all_postings comm conv rnd L k ss = Ok (L', xs) ->
  gen_ok L' /\ (nxt L <= nxt L')%nat /\ (forall p, (p < nxt L)%nat -> heap L' p = heap L p) /\
  Forall2 (fun s x => made_by (fst s) L' (snd s) x) ss xs.
Proof.
  intros Hdec. induction ss as [|[r y] ss IH]; intros L k L' xs Hg H; cbn [generate_all_postings] in H.
  - injection H as <- <-. split; [exact Hg|]. split; [lia|]. split; [reflexivity|constructor].
  - destruct (generate_postings comm conv rnd L k r y) as [[L1 x1]| |] eqn:E1; cbn [bind] in H; try discriminate.
    cbn [fst snd] in H.
    destruct (generate_all_postings comm conv rnd L1 (3 + k) ss) as [[L2 xs2]| |] eqn:E2; cbn [bind] in H; try discriminate.
    injection H as <- <-. cbn [fst snd].
    destruct (generate_postings_ok _ _ _ _ _ _ Hg Hdec E1) as [Hg1 Hp].
    destruct (IH _ _ _ _ Hg1 E2) as (Hg2 & Hn & Hh & HF).
    destruct Hp as (from & to & amt & A1 & A2 & A3 & A4 & A5 & A6 & A7 & A8 & A9 & A10 & A11 & A12 & _).
    split; [exact Hg2|]. split; [lia|]. split; [intros p Hp; rewrite Hh by lia; apply A12; exact Hp|].
    constructor; [|exact HF]. cbn [fst snd]. apply (made_by_later r L1); [|exact Hn|exact Hh].
    repeat (split; [assumption|]). exists from, to, amt, (nxt L), (S (nxt L)). repeat (split; [first [assumption|lia]|]). assumption.
Qed.

(** checking all the accounts: the balances start from what generating has left there *)
Lemma quantities_c L ids : (forall p, In p ids -> plain (heap L p)) -> Forall (fun b => a_com b = c) (quantities L ids).
Proof.
  intros H. unfold quantities. apply Forall_forall. intros b Hb. apply in_flat_map in Hb as (p & Hp & Hb).
  destruct (H p Hp) as (_ & _ & q & E & Ec). rewrite E in Hb. destruct Hb as [<-|[]]. exact Ec.
Qed.
(** account [a] has not been checked / has been checked *)
Definition unchecked (L : ledger) (a : bytes) : Prop :=
  balance_of comm L a = mkAmount (qsum L (reg L a)) c /\ forall p, In p (reg L a) -> plain (heap L p).
Definition checked (L : ledger) (a : bytes) : Prop :=
  forall l1 p l2, reg L a = l1 ++ p :: l2 ->
    rp_bal (heap L p) = Some (mkAmount (qsum L (reg L a) + qsum L (l1 ++ [p])) c) /\ rp_asserted (heap L p) = false.
Lemma check_all_ok : forall accs L L', check_all comm conv L accs = Ok L' -> NoDup accs -> ledger_ok L ->
  (forall a, In a accs -> unchecked L a) ->
  nxt L' = nxt L /\ (forall a, reg L' a = reg L a) /\ (forall p, keeps (heap L p) (heap L' p)) /\
  (forall a, ~ In a accs -> forall p, In p (reg L a) -> heap L' p = heap L p) /\
  (forall p, (forall a, ~ In p (reg L a)) -> heap L' p = heap L p) /\
  forall a, In a accs -> checked L' a.
Proof.
  induction accs as [|a accs IH]; intros L L' H Hnd Hok Hun; cbn [check_all] in H.
  - injection H as <-. split; [reflexivity|]. split; [reflexivity|]. split; [intros; apply keeps_refl|]. split; [reflexivity|]. split; [reflexivity|]. intros a [].
  - destruct (check_postings comm conv L a) as [[L1 ws]| |] eqn:E1; cbn [bind fst] in H; try discriminate.
    apply NoDup_cons_iff in Hnd as [Hna Hnd]. unfold check_postings in E1.
    destruct (Hok a) as (Hord & Hndr & Hown).
    assert (Hkeep := check_keeps comm conv a _ _ _ _ E1 Hndr).
    destruct (check_loop_spec comm conv a _ _ _ _ E1 Hndr) as (K1 & K2 & K3 & K4 & _ & _ & _ & _ & K9 & _).
    assert (Hdate := keeps_dates L L1 Hkeep).
    assert (Hok1 : ledger_ok L1).
    { intros b. rewrite K2. destruct (Hok b) as (O1 & O2 & O3). split; [|split; [exact O2|]].
      - eapply order_ext; [|exact O1]. intros p _. symmetry. apply Hdate.
      - intros p Hp. destruct (O3 p Hp) as [Q1 Q2]. split; [lia|]. destruct (Hkeep p) as (_ & Q & _). destruct (Hkeep p) as (_ & _ & Q' & _). congruence. }
    assert (Hother : forall b p, b <> a -> In p (reg L b) -> heap L1 p = heap L p).
    { intros b p Hb Hp. apply K4. intros C. destruct (Hown p C) as [_ C']. destruct (Hok b) as (_ & _ & O3). destruct (O3 p Hp) as [_ C'']. congruence. }
    destruct (IH L1 L' H Hnd Hok1) as (I1 & I2 & I3 & I4 & I5 & I6).
    { intros b Hb. assert (Hba : b <> a) by (intros ->; contradiction). destruct (Hun b (or_intror Hb)) as [U1 U2].
      split.
      - unfold balance_of. rewrite K3 by exact Hba. fold (balance_of comm L b). rewrite U1, K2. f_equal.
        apply qsum_ext. intros p Hp. rewrite (Hother b p Hba Hp). reflexivity.
      - intros p Hp. rewrite K2 in Hp. rewrite (Hother b p Hba Hp). apply U2. exact Hp. }
    assert (Hkeep' : forall p, keeps (heap L p) (heap L' p)) by (intros p; eapply keeps_trans; [apply Hkeep|apply I3]).
    split; [lia|]. split; [intros b; rewrite I2; apply K2|]. split; [exact Hkeep'|]. split.
    { intros b Hb p Hp. rewrite (I4 b); [|intros C; apply Hb; right; exact C|rewrite K2; exact Hp]. apply (Hother b); [intros ->; apply Hb; left; reflexivity|exact Hp]. }
    split.
    { intros p Hp. rewrite I5 by (intros b; rewrite K2; apply Hp). apply K4. apply Hp. }
    intros b [<-|Hb]; [|apply I6; exact Hb].
    intros l1 p l2 Er. rewrite I2, K2 in Er. destruct (K9 _ _ _ Er) as (bb & Eb & Hc).
    destruct (Hun a (or_introl eq_refl)) as [U1 U2].
    rewrite add_all_same in Eb.
    2:{ rewrite U1. cbn [a_com]. apply quantities_c. intros q Hq. apply U2. rewrite Er. apply in_app_or in Hq as [Hq|[<-|[]]]; apply in_or_app; [left; exact Hq|right; left; reflexivity]. }
    rewrite U1 in Eb. cbn [a_int a_com] in Eb. fold (qsum L (l1 ++ [p])) in Eb.
    assert (Hpin : In p (reg L a)) by (rewrite Er; apply in_or_app; right; left; reflexivity).
    destruct (U2 p Hpin) as (V1 & V2 & q & V3 & V4). unfold checked_posting in Hc. rewrite V1 in Hc. destruct Hc as [Hc _].
    rewrite (I4 a Hna p) by (rewrite K2; exact Hpin). rewrite Hc. cbn [rp_bal with_bal rp_asserted]. split; [|exact V2].
    injection Eb as <-. f_equal. f_equal. rewrite I2, K2. f_equal; apply qsum_ext; intros p' _; destruct (Hkeep' p') as (_ & _ & _ & Q & _); congruence.
Qed.
End G.
