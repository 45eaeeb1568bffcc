(** C129: rules that take their amount from a balance. *)
From Coq Require Import Permutation Sorted.
From Verif Require Import Base M_Amount S_Decimal S_Amount M_Parser M_Ledger S_Books L_Dec L_Amount L_Sort L_Registers L_Resolve L_Resolve2 L_Check L_Load L_Move M_Gen S_Gen L_Gen L_Gen2 S_PayOff Properties_Gen.

Lemma euclid_divided a d i : euclid_div a d = Ok i -> d <> 0 /\ divided a d i.
Proof.
  unfold euclid_div. destruct (Z.eqb_spec d 0) as [|Hd]; [discriminate|]. intros [= <-]. split; [exact Hd|]. unfold divided. destruct (Z.ltb_spec 0 d) as [Hp|Hn].
  - exists (a mod d). pose proof (Z.div_mod a d Hd). pose proof (Z.mod_pos_bound a d Hp). lia.
  - assert (Hm : - d <> 0) by lia. exists (a mod (- d)). pose proof (Z.div_mod a (- d) Hm). pose proof (Z.mod_pos_bound a (- d) ltac:(lia)). lia.
Qed.
Lemma moved_app L a xs ys : moved_into L a (xs ++ ys) = moved_into L a xs + moved_into L a ys.
Proof. unfold moved_into. rewrite flat_map_app, map_app. apply zsum_app. Qed.
Lemma moved_ext L L' a xs : (forall x p, In x xs -> In p (x_posts x) -> keeps (heap L p) (heap L' p)) -> moved_into L' a xs = moved_into L a xs.
Proof.
  intros H. unfold moved_into. f_equal. apply map_ext_in. intros p Hp. apply in_flat_map in Hp as (x & Hx & Hp). destruct (H x p Hx Hp) as (K1 & K2 & K3 & K4 & _). rewrite K3, K4. reflexivity.
Qed.

Section P.
Variable comm : bytes -> commodity.
Variable conv : conversion.
Variable rnd : nat -> nat.
Variable c : commodity.
Hypothesis one : forall a, comm a = c.
Hypothesis dec : Z.of_nat (c_dec c) < 2 ^ 62.
(** the amount taken from a balance *)
Definition taken (r : rule) (b : bytes -> Z) (from to : bytes) (v : Z) : Prop :=
  (ru_min r = from_balance -> ru_max r <> 0 /\ divided (- b from) (ru_max r) v) /\
  (ru_min r = to_balance -> ru_max r <> 0 /\ divided (- b to) (ru_max r) v).
Lemma taken_ok L k r from to amt : amt_between comm rnd L k (ru_min r) (ru_max r) from to = Ok amt -> taken r (fun a => a_int (balance_of comm L a)) from to (a_int amt).
Proof.
  intros H. unfold amt_between, amt_from_balance in H. split; intros E; rewrite E in H; cbn [constants from_balance to_balance] in H.
  - change (constants <? from_balance) with true in H. change (from_balance =? from_balance) with true in H. cbv iota in H. cbn [bind a_int negated] in H.
    destruct (euclid_div _ (ru_max r)) as [i| |] eqn:Ei; [|discriminate H|discriminate H]. cbn [bind] in H. injection H as <-. cbn [a_int]. apply euclid_divided, Ei.
  - change (constants <? to_balance) with true in H. change (to_balance =? from_balance) with false in H. change (to_balance =? to_balance) with true in H. cbv iota in H. cbn [bind a_int negated] in H.
    destruct (euclid_div _ (ru_max r)) as [i| |] eqn:Ei; [|discriminate H|discriminate H]. cbn [bind] in H. injection H as <-. cbn [a_int]. apply euclid_divided, Ei.
Qed.
Lemma step L k r x L' x' : gen_ok comm c L -> x_posts x = [] -> generate_postings comm conv rnd L k r x = Ok (L', x') ->
  exists from to amt, (ru_from r <> [] -> In from (ru_from r)) /\ (ru_to r <> [] -> In to (ru_to r)) /\
    (x_posts x' = [nxt L; S (nxt L)] \/ x_posts x' = [S (nxt L); nxt L]) /\
    heap L' (nxt L) = new_rp (x_posted x) to amt None /\ heap L' (S (nxt L)) = new_rp (x_posted x) from (negated amt) None /\
    taken r (fun a => a_int (balance_of comm L a)) from to (a_int amt) /\
    forall a, a_int (balance_of comm L' a) = a_int (balance_of comm L a) + moved_into L' a [x'].
Proof.
  intros Hg Hx H. pose proof H as H0. unfold generate_postings in H.
  set (from := nth (intn rnd k (List.length (ru_from r))) (ru_from r) []) in H.
  set (to := nth (intn rnd (S k) (List.length (ru_to r))) (ru_to r) []) in H.
  destruct (amt_between comm rnd L (S (S k)) (ru_min r) (ru_max r) from to) as [amt| |] eqn:Ea; cbn [bind] in H; try discriminate.
  destruct (amt_between_ok comm rnd c one _ _ _ _ _ _ Hg dec Ea) as [Hac _]. destruct Hg as (Hok & Hpl & Hb).
  pose proof (taken_ok _ _ _ _ _ _ Ea) as Ht.
  assert (HP := post_spec L x to amt None from (negated amt) None Hok). unfold post in H.
  destruct (post_conversion L x to amt None from (negated amt) None) as [L1 x1] eqn:E1.
  cbn [fst snd] in HP. destruct HP as (K1 & K2 & K3 & K4 & K5 & K6 & K7 & K8 & K9 & K10 & K11).
  assert (Ebal : bal L1 = bal L) by (apply (f_equal (fun y => bal (fst y))) in E1; cbn [fst] in E1; rewrite <- E1; reflexivity).
  assert (Hb1 : forall a, balance_of comm L1 a = balance_of comm L a) by (intros a; unfold balance_of; rewrite Ebal; reflexivity).
  assert (Hc : forall a, a_com (balance_of comm L a) = c) by (intros a; rewrite Hb; reflexivity).
  rewrite (add_in_same conv (balance_of comm L1 to) amt) in H by (rewrite Hb1, Hc; exact Hac). cbn [bind] in H.
  rewrite (add_in_same conv _ (negated amt)) in H.
  2:{ rewrite (balance_set comm). destruct (eqb_bytes from to); cbn; rewrite ?Hb1, ?Hc; exact Hac. }
  cbn [bind] in H. injection H as <- <-. exists from, to, amt.
  assert (Hin : forall (l : list bytes) i, l <> [] -> In (nth (intn rnd i (List.length l)) l []) l).
  { intros l i Hl. apply nth_In. unfold intn. apply Nat.mod_upper_bound. destruct l; [contradiction|discriminate]. }
  split; [apply Hin|]. split; [apply Hin|]. split; [rewrite K3, Hx; destruct (a_int amt <? 0); auto|]. split; [exact K8|]. split; [exact K9|]. split; [exact Ht|].
  intros a. assert (Em : forall L2, heap L2 = heap L1 -> moved_into L2 a [x1] = (if eqb_bytes to a then a_int amt else 0) + (if eqb_bytes from a then - a_int amt else 0)).
  { intros L2 E2. unfold moved_into. cbn [flat_map]. rewrite app_nil_r, K3, Hx, E2. cbn [app].
    destruct (a_int amt <? 0); unfold zsum; cbn [map fold_right]; rewrite K8, K9; cbn [new_rp rp_qty rp_acc negated a_int]; lia. }
  rewrite Em by reflexivity. rewrite !(balance_set comm).
  assert (Sy : forall u v, eqb_bytes u v = eqb_bytes v u).
  { intros u v. destruct (eqb_bytes v u) eqn:E; [apply eqb_bytes_eq in E; subst; apply eqb_bytes_eq; reflexivity|]. destruct (eqb_bytes u v) eqn:E'; [apply eqb_bytes_eq in E'; subst; rewrite (proj2 (eqb_bytes_eq v v) eq_refl) in E; discriminate|reflexivity]. }
  rewrite (Sy to a), (Sy from a). destruct (eqb_bytes a from) eqn:Ef.
  - apply eqb_bytes_eq in Ef. rewrite <- Ef. destruct (eqb_bytes a to) eqn:Et; cbn [a_int negated]; rewrite ?Hb1; [apply eqb_bytes_eq in Et; rewrite <- Et|]; lia.
  - destruct (eqb_bytes a to) eqn:Et; cbn [a_int negated]; rewrite ?Hb1; [apply eqb_bytes_eq in Et; rewrite <- Et|]; lia.
Qed.
(** the nth transaction: what its rule takes, from the balances the earlier ones have left *)
Lemma all_steps : forall ss L k L' xs, gen_ok comm c L -> (forall s, In s ss -> x_posts (snd s) = []) -> generate_all_postings comm conv rnd L k ss = Ok (L', xs) ->
  (forall x p, In x xs -> In p (x_posts x) -> (p < nxt L')%nat) /\
  forall xs1 x xs2, xs = xs1 ++ x :: xs2 -> exists s ss1 ss2 from to amt p q, ss = ss1 ++ s :: ss2 /\ List.length ss1 = List.length xs1 /\
    x_posted x = x_posted (snd s) /\ x_desc x = x_desc (snd s) /\
    (ru_from (fst s) <> [] -> In from (ru_from (fst s))) /\ (ru_to (fst s) <> [] -> In to (ru_to (fst s))) /\
    (x_posts x = [p; q] \/ x_posts x = [q; p]) /\ p <> q /\
    heap L' p = new_rp (x_posted x) to amt None /\ heap L' q = new_rp (x_posted x) from (negated amt) None /\
    taken (fst s) (fun a => a_int (balance_of comm L a) + moved_into L' a xs1) from to (a_int amt).
Proof.
  induction ss as [|[r y] ss IH]; intros L k L' xs Hg Hx H; cbn [generate_all_postings] in H.
  - injection H as <- <-. split; [intros x p []|]. intros [|? ?] x xs2 E; discriminate.
  - destruct (generate_postings comm conv rnd L k r y) as [[L1 x1]| |] eqn:E1; cbn [bind fst snd] in H; try discriminate.
    destruct (generate_all_postings comm conv rnd L1 (3 + k) ss) as [[L2 xs2]| |] eqn:E2; cbn [bind] in H; try discriminate.
    injection H as <- <-. cbn [fst snd].
    destruct (generate_postings_ok comm conv rnd c one _ _ _ _ _ _ Hg dec E1) as [Hg1 (from' & to' & amt' & _ & _ & _ & P1 & P2 & P3 & P4 & _ & Hn1 & _)].
    destruct (generate_all_ok comm conv rnd c one dec _ _ _ _ _ Hg1 E2) as (_ & Hn & Hh & _).
    destruct (step _ _ _ _ _ _ Hg (Hx (r, y) (or_introl eq_refl)) E1) as (from & to & amt & S1 & S2 & S3 & S4 & S5 & S6 & S7).
    destruct (IH _ _ _ _ Hg1 (fun s Hs => Hx s (or_intror Hs)) E2) as [I1 I2].
    assert (B1 : forall p, In p (x_posts x1) -> (p < nxt L1)%nat) by (intros p Hp; destruct S3 as [S3|S3]; rewrite S3 in Hp; destruct Hp as [<-|[<-|[]]]; lia).
    assert (M1 : forall a, moved_into L2 a [x1] = moved_into L1 a [x1]).
    { intros a. apply moved_ext. intros x p [<-|[]] Hp. rewrite Hh by (apply B1, Hp). apply keeps_refl. }
    split.
    { intros x p [<-|Hx'] Hp; [specialize (B1 p Hp); lia|eapply I1; eassumption]. }
    intros [|x0 xs1] x xs3 E.
    + cbn [app] in E. injection E as <- <-. exists (r, y), [], ss, from, to, amt, (nxt L), (S (nxt L)). cbn [fst snd app List.length]. rewrite P1 in *.
      repeat (split; [first [reflexivity|assumption|lia]|]). split; [rewrite Hh by lia; exact S4|]. split; [rewrite Hh by lia; exact S5|].
      destruct S6 as [S6 S6']. unfold taken, moved_into. cbn [flat_map map zsum fold_right]. split; intros Er; [destruct (S6 Er) as [D1 D2]|destruct (S6' Er) as [D1 D2]]; rewrite Z.add_0_r; auto.
    + cbn [app] in E. injection E as <- E. destruct (I2 xs1 x xs3 E) as (s & ss1 & ss2 & f' & t' & a' & p & q & Q1 & Q2 & Q3 & Q4 & Q5 & Q6 & Q7 & Q8 & Q9 & Q10 & Q11).
      exists s, ((r, y) :: ss1), ss2, f', t', a', p, q. cbn [app List.length]. rewrite Q1, Q2. repeat (split; [first [reflexivity|assumption]|]).
      assert (Eb : forall a, a_int (balance_of comm L1 a) + moved_into L2 a xs1 = a_int (balance_of comm L a) + moved_into L2 a (x1 :: xs1)).
      { intros a. change (x1 :: xs1) with ([x1] ++ xs1). rewrite moved_app, M1, S7. lia. }
      destruct Q11 as [D1 D2]. split; intros Er; rewrite <- Eb; auto.
Qed.
End P.

(** ** C129 *)
(** All accounts in one commodity. Every generated transaction comes from a rule, with its date and payee; if that rule takes its
    amount from the balance of the account paid into (or out of), the amount is minus the sum of the postings that the
    transactions before it have made there, divided by the rule's divisor *)
Theorem C129_from_balances : forall comm conv rnd c k wb accounts gens L' xs, (forall a, comm a = c) -> Z.of_nat (c_dec c) < 2 ^ 62 -> NoDup accounts ->
  (forall i r ds, In (i, r, ds) gens -> ru_payees r <> [] /\ ru_from r <> [] /\ ru_to r <> []) ->
  generate comm conv rnd empty_ledger k wb accounts gens = Ok (L', xs) ->
  forall xs1 x xs2, xs = xs1 ++ x :: xs2 ->
  exists i r ds p q amt, In (i, r, ds) gens /\ In (x_posted x) ds /\ In (x_desc x) (ru_payees r) /\
    (x_posts x = [p; q] \/ x_posts x = [q; p]) /\ p <> q /\
    In (rp_acc (heap L' p)) (ru_to r) /\ rp_qty (heap L' p) = Some amt /\
    In (rp_acc (heap L' q)) (ru_from r) /\ rp_qty (heap L' q) = Some (negated amt) /\
    (ru_min r = 2 ^ 31 + 1 -> ru_max r <> 0 /\ divided (- moved_into L' (rp_acc (heap L' q)) xs1) (ru_max r) (a_int amt)) /\
    (ru_min r = 2 ^ 31 + 2 -> ru_max r <> 0 /\ divided (- moved_into L' (rp_acc (heap L' p)) xs1) (ru_max r) (a_int amt)).
Proof.
  intros comm conv rnd c k wb accounts gens L' xs Hone Hdec Hnd Hr H xs1 x xs2 Ex.
  destruct (generate_ok _ _ _ _ _ _ _ _ _ _ Hone Hdec Hnd H) as (Lg & _ & _ & _ & _ & Hk & _).
  unfold generate in H. destruct (generate_all_postings comm conv rnd empty_ledger k (generate_samples rnd gens)) as [[L ys]| |] eqn:E; cbn [bind fst snd] in H; try discriminate.
  assert (Hk2 : ys = xs /\ forall p, keeps (heap L p) (heap L' p)).
  { destruct (generate_all_ok comm conv rnd c Hone Hdec _ _ _ _ _ (gen_empty comm rnd c Hone) E) as (Hg & _ & _ & HF). destruct wb.
    - destruct (check_all comm conv L accounts) as [L1| |] eqn:E1; cbn [bind] in H; try discriminate. injection H as <- <-. split; [reflexivity|].
      destruct Hg as (G1 & G2 & G3). destruct (check_all_ok comm conv rnd c Hone accounts L L1 E1 Hnd G1) as (_ & _ & K3 & _); [|exact K3].
      intros a _. split; [apply G3|]. intros p Hp. apply G2. destruct (G1 a) as (_ & _ & K). apply (K p Hp).
    - injection H as <- <-. split; [reflexivity|]. intros; apply keeps_refl. }
  destruct Hk2 as [-> Hk2].
  assert (Hsamp : forall s, In s (generate_samples rnd gens) -> exists i r ds, In (i, r, ds) gens /\ fst s = r /\ In (x_posted (snd s)) ds /\ (ru_payees r <> [] -> In (x_desc (snd s)) (ru_payees r)) /\ x_posts (snd s) = []).
  { intros s Hs. unfold generate_samples in Hs. apply (Permutation_in _ (Permutation_sym (stable_sort_perm sample_less _))) in Hs.
    apply in_flat_map in Hs as ([[i r] ds] & Hg & Hs). cbn [fst snd] in Hs. destruct (samples_in _ _ _ _ _ Hs) as (E0 & Hd & Hp & Hps & _). exists i, r, ds. auto. }
  destruct (all_steps comm conv rnd c Hone Hdec _ _ _ _ _ (gen_empty comm rnd c Hone) ltac:(intros s Hs; destruct (Hsamp s Hs) as (i & r & ds & _ & _ & _ & _ & P); exact P) E) as [Hlt Hall].
  destruct (Hall xs1 x xs2 Ex) as (s & ss1 & ss2 & from & to & amt & p & q & Q1 & Q2 & Q3 & Q4 & Q5 & Q6 & Q7 & Q8 & Q9 & Q10 & Q11).
  destruct (Hsamp s) as (i & r & ds & G1 & G2 & G3 & G4 & _); [rewrite Q1; apply in_or_app; right; left; reflexivity|]. rewrite G2 in *. destruct (Hr i r ds G1) as (R1 & R2 & R3).
  exists i, r, ds, p, q, amt. destruct (Hk2 p) as (_ & _ & P2 & P3 & _). destruct (Hk2 q) as (_ & _ & T2 & T3 & _). rewrite P2, P3, T2, T3, Q9, Q10. cbn [new_rp rp_acc rp_qty].
  split; [exact G1|]. split; [rewrite Q3; exact G3|]. split; [rewrite Q4; apply G4, R1|]. split; [exact Q7|]. split; [exact Q8|]. split; [apply Q6, R3|]. split; [reflexivity|]. split; [apply Q5, R2|]. split; [reflexivity|].
  assert (Em : forall a, a_int (balance_of comm empty_ledger a) + moved_into L a xs1 = moved_into L' a xs1).
  { intros a. assert (E0 : a_int (balance_of comm empty_ledger a) = 0) by reflexivity. rewrite E0. cbn [Z.add]. symmetry. apply moved_ext. intros; apply Hk2. }
  destruct Q11 as [D1 D2]. rewrite <- !Em. split; [exact D1|exact D2].
Qed.
Print Assumptions C129_from_balances.
(** "repay balance": a transaction whose payee belongs only to rules taking the whole balance of the account paid into, out of other
    accounts, leaves nothing there *)
Theorem C129_paid_off : forall comm conv rnd c k wb accounts gens L' xs, (forall a, comm a = c) -> Z.of_nat (c_dec c) < 2 ^ 62 -> NoDup accounts ->
  (forall i r ds, In (i, r, ds) gens -> ru_payees r <> [] /\ ru_from r <> [] /\ ru_to r <> []) ->
  generate comm conv rnd empty_ledger k wb accounts gens = Ok (L', xs) ->
  forall xs1 x xs2, xs = xs1 ++ x :: xs2 ->
  (forall i r ds, In (i, r, ds) gens -> In (x_desc x) (ru_payees r) -> ru_min r = 2 ^ 31 + 2 /\ ru_max r = 1 /\ forall a, In a (ru_to r) -> ~ In a (ru_from r)) ->
  exists i r ds a, In (i, r, ds) gens /\ In (x_desc x) (ru_payees r) /\ In a (ru_to r) /\ moved_into L' a (xs1 ++ [x]) = 0.
Proof.
  intros comm conv rnd c k wb accounts gens L' xs Hone Hdec Hnd Hr H xs1 x xs2 Ex Ho.
  destruct (C129_from_balances _ _ _ _ _ _ _ _ _ _ Hone Hdec Hnd Hr H xs1 x xs2 Ex) as (i & r & ds & p & q & amt & A1 & A2 & A3 & A4 & A5 & A6 & A7 & A8 & A9 & _ & A11).
  destruct (Ho i r ds A1 A3) as (B1 & B2 & B3). exists i, r, ds, (rp_acc (heap L' p)). split; [exact A1|]. split; [exact A3|]. split; [exact A6|].
  destruct (A11 B1) as [_ (rest & D1 & D2)]. rewrite B2 in *. rewrite moved_app.
  assert (En : eqb_bytes (rp_acc (heap L' q)) (rp_acc (heap L' p)) = false).
  { destruct (eqb_bytes (rp_acc (heap L' q)) (rp_acc (heap L' p))) eqn:E; [|reflexivity]. apply eqb_bytes_eq in E. exfalso. apply (B3 _ A6). rewrite <- E. exact A8. }
  assert (Em : moved_into L' (rp_acc (heap L' p)) [x] = a_int amt).
  { unfold moved_into. cbn [flat_map]. rewrite app_nil_r. destruct A4 as [-> | ->]; unfold zsum; cbn [map fold_right]; rewrite A7, A9, En, (proj2 (eqb_bytes_eq _ _) eq_refl); lia. }
  rewrite Em. cbn [Z.abs] in D2. lia.
Qed.
Print Assumptions C129_paid_off.
(** a card used twice and paid at the end of each month *)
Definition pay_rules : list (nat * rule * list Z) :=
  [(O, mkRule [B "FOOD MART"] [B "Card"] [B "Groceries"] 10 10, [0; 86400 * 5; 86400 * 40]);
   (O, mkRule [B "repay balance"] [B "Checking"] [B "Card"] (2 ^ 31 + 2) 1, [86400 * 30; 86400 * 58])].
Example C129_example : match generate (fun _ => c63_com) no_conv (fun _ => O) empty_ledger O false [] pay_rules with
  | Ok y => map x_desc (snd y) = [B "FOOD MART"; B "FOOD MART"; B "repay balance"; B "FOOD MART"; B "repay balance"] /\
      map (fun n => moved_into (fst y) (B "Card") (firstn n (snd y))) [1; 2; 3; 4; 5]%nat = [-1000; -2000; 0; -1000; 0]
  | _ => False end.
Proof. vm_compute. auto. Qed.
Example C129_hypotheses : forall i r ds, In (i, r, ds) pay_rules ->
  (ru_payees r <> [] /\ ru_from r <> [] /\ ru_to r <> []) /\
  (In (B "repay balance") (ru_payees r) -> ru_min r = 2 ^ 31 + 2 /\ ru_max r = 1 /\ forall a, In a (ru_to r) -> ~ In a (ru_from r)).
Proof.
  intros i r ds [E|[E|[]]]; injection E as <- <- <-; cbn [ru_payees ru_from ru_to ru_min ru_max].
  - split; [repeat split; discriminate|]. intros [C|[]]. discriminate.
  - split; [repeat split; discriminate|]. intros _. split; [reflexivity|]. split; [reflexivity|]. intros a [<-|[]] [C|[]]. discriminate.
Qed.
(** FROM_BALANCE with divisor 1 does not empty the account paid out of: its balance doubles *)
Theorem C129_from_doubles_refuted : match generate (fun _ => c63_com) no_conv (fun _ => O) empty_ledger O false []
      [(O, mkRule [B "pay"] [B "Income"] [B "Checking"] 10 10, [0]); (O, mkRule [B "sweep"] [B "Checking"] [B "Savings"] (2 ^ 31 + 1) 1, [86400])] with
  | Ok y => map x_desc (snd y) = [B "pay"; B "sweep"] /\ map (fun n => moved_into (fst y) (B "Checking") (firstn n (snd y))) [1; 2]%nat = [1000; 2000]
  | _ => False end.
Proof. vm_compute. auto. Qed.
Print Assumptions C129_from_doubles_refuted.
