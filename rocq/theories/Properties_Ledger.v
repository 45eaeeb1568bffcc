(** C33-C36, C39-C42, C55: transactions, registers, balances. *)
From Coq Require Import Sorted Permutation.
From Verif Require Import Base M_Amount M_Regex M_Parser M_Names M_Ledger S_Amount S_Books L_Dec L_Sort L_Amount L_Registers L_Resolve L_Resolve2 L_Check L_Load L_Move.
Local Open Scope Z_scope.

(** a small ledger: names stand for themselves, every account is in CAD *)
Definition cad := mkCommodity 1 (B "CAD") 2.
Definition usd := mkCommodity 2 (B "USD") 2.
Definition ex_find (n : bytes) : res bytes := Ok n.
Definition ex_comm (n : bytes) : commodity := if eqb_bytes n (B "U") then usd else cad.
Definition ex_conv : conversion := fun _ _ _ => Fail.
Definition ps (a : string) (q b : option Z) : posting :=
  mkPosting (B a) (option_map (fun z => mkAmount z cad) q) (option_map (fun z => mkAmount z cad) b) [].
Definition tr (d : Z) (l : list posting) : transaction := mkTransaction d [] (B "x") [] l 1.
Definition ex_ts : list transaction :=
  [tr 20 [ps "A" (Some 700) (Some 1000); ps "B" None None];
   tr 10 [ps "A" (Some 300) None; ps "B" (Some (-300)) None];
   tr 20 [ps "B" (Some 50) None; ps "A" None (Some 951)]].
Definition ex_accounts := [B "B"; B "A"; B "U"].
Definition ex_load := load_transactions ex_find ex_comm ex_conv ex_accounts true empty_ledger ex_ts.
Example ledger_example : exists L xs, ex_load = Ok (L, [5%nat], xs) /\
  reg L (B "A") = [2; 0; 5]%nat /\ reg L (B "B") = [3; 1; 4]%nat /\ map x_posts xs = [[2;3];[0;1];[4;5]]%nat /\
  map (fun p => rp_qty (heap L p)) [1;5]%nat = [Some (mkAmount (-700) cad); Some (mkAmount (-50) cad)] /\
  map (fun p => rp_bal (heap L p)) [2;1]%nat = [Some (mkAmount 300 cad); Some (mkAmount (-1000) cad)].
Proof.
  assert (H : match ex_load with Ok (L, ws, xs) => ws = [5%nat] /\
  reg L (B "A") = [2; 0; 5]%nat /\ reg L (B "B") = [3; 1; 4]%nat /\ map x_posts xs = [[2;3];[0;1];[4;5]]%nat /\
  map (fun p => rp_qty (heap L p)) [1;5]%nat = [Some (mkAmount (-700) cad); Some (mkAmount (-50) cad)] /\
  map (fun p => rp_bal (heap L p)) [2;1]%nat = [Some (mkAmount 300 cad); Some (mkAmount (-1000) cad)] | _ => False end)
    by (vm_compute; repeat split).
  destruct ex_load as [[[L ws] xs]| |]; [|destruct H|destruct H]. destruct H as (-> & H). eexists _, _. split; [reflexivity|exact H].
Qed.

(** ** C33 *)
Theorem C33_loaded_transactions_balance : forall find comm conv accounts chk L ts L' ws sorted,
  ledger_ok L -> NoDup accounts ->
  load_transactions find comm conv accounts chk L ts = Ok (L', ws, sorted) ->
  exists xs, Permutation xs sorted /\ Forall2 (resolved find comm conv L') ts xs.
Proof.
  intros find comm conv accounts chk L ts L' ws sorted Hok Na H.
  destruct (load_inv _ _ _ _ _ _ _ _ _ _ Hok Na H) as (_ & xs & _ & _ & -> & _ & _ & R & _). exists xs. split; [apply stable_sort_perm|exact R].
Qed.
Print Assumptions C33_loaded_transactions_balance.
(** with all quantities in the common commodity: the plain sum is zero *)
Theorem C33_one_commodity : forall find comm conv L t x c, resolved find comm conv L t x ->
  one_commodity comm L (x_posts x) c -> Forall (fun q => a_com q = c) (quantities L (x_posts x)) ->
  List.length (quantities L (x_posts x)) = List.length (t_postings t) /\ zsum (map a_int (quantities L (x_posts x))) = 0.
Proof.
  intros find comm conv L t x c (_ & _ & _ & _ & R & K & _) Hc F. destruct (K c Hc) as (_ & (z & Z1 & Z2) & _). split.
  - clear - R. induction R as [|s p ss qs (_ & _ & _ & _ & (q & Q & _) & _) R IH]; [reflexivity|].
    rewrite quantities_cons, Q. cbn [app List.length]. congruence.
  - rewrite (add_all_same conv _ (zero_amount c)) in Z1 by exact F. injection Z1 as <-. cbn in Z2. exact Z2.
Qed.
Print Assumptions C33_one_commodity.
(** what is rejected: two missing quantities, a missing one among mixed commodities, a sum that is not zero *)
Theorem C33_rejected : forall find comm conv accounts chk L t c accs,
  ledger_ok L -> NoDup accounts ->
  Forall2 (fun s a => find (ps_account s) = Ok a) (t_postings t) accs ->
  ((forall a, In a accs -> comm a = c) /\
     ((1 < missing (t_postings t))%nat \/
      (missing (t_postings t) = O /\ t_postings t <> [] /\ ~ sums_to_zero conv c (written (t_postings t)))) \/
   ((exists a b, In a accs /\ In b accs /\ comm a <> comm b) /\ (0 < missing (t_postings t))%nat)) ->
  forall ts r, In t ts -> load_transactions find comm conv accounts chk L ts <> Ok r.
Proof.
  intros find comm conv accounts chk L t c accs Hok Na Ha H ts [[L' ws] sorted] It F.
  destruct (load_inv _ _ _ _ _ _ _ _ _ _ Hok Na F) as (_ & xs & _ & _ & _ & _ & _ & R & _).
  assert (Rx : exists x, resolved find comm conv L' t x).
  { clear - R It. induction R as [|t' x ts xs R1 R IH]; [destruct It|]. destruct It as [->|It]; eauto. }
  destruct Rx as (x & _ & _ & _ & _ & R2 & R3 & R4).
  assert (Acc : map (fun p => rp_acc (heap L' p)) (x_posts x) = accs).
  { clear - R2 Ha. revert accs Ha. induction R2 as [|s p ss qs (_ & _ & E & _) R IH]; intros accs Ha; inversion Ha; subst; [reflexivity|].
    cbn [map]. f_equal; [congruence|auto]. }
  assert (Wq : missing (t_postings t) = O -> quantities L' (x_posts x) = written (t_postings t)).
  { clear - R2. induction R2 as [|s p ss qs (_ & _ & _ & _ & (q & Q & K) & _) R IH]; [reflexivity|]. intros M.
    rewrite quantities_cons, Q. unfold missing in M. cbn [filter] in M. unfold written. cbn [flat_map].
    destruct (ps_quantity s) as [q'|]; [|cbn in M; lia]. rewrite (K q' eq_refl). f_equal. apply IH, M. }
  assert (Len : t_postings t <> [] -> x_posts x <> []) by (intros N E; rewrite E in R2; inversion R2; congruence).
  destruct H as [(Hc & H)|((a & b & Ia & Ib & Hab) & M)].
  - assert (One : t_postings t <> [] -> one_commodity comm L' (x_posts x) c).
    { intros N. split; [auto|]. intros p Hp. apply Hc. rewrite <- Acc. apply in_map_iff. eauto. }
    destruct H as [M|(M & N & Z0)].
    + destruct (R3 c) as (K & _); [apply One; intros E; rewrite E in M; cbn in M; lia|lia].
    + destruct (R3 c (One N)) as (_ & K & _). rewrite (Wq M) in K. tauto.
  - rewrite R4 in M; [lia|]. intros c' [_ K]. apply Hab. rewrite <- Acc in Ia, Ib. apply in_map_iff in Ia as (p & <- & Hp), Ib as (q & <- & Hq).
    rewrite (K p Hp), (K q Hq). reflexivity.
Qed.
Print Assumptions C33_rejected.
(** and nothing else is rejected when every quantity is in the common commodity *)
Theorem C33_accepted : forall find comm conv x L c, NoDup (x_posts x) ->
  (forall p, In p (x_posts x) -> exists a, find (rp_name (heap L p)) = Ok a /\ comm a = c) ->
  (forall p q, In p (x_posts x) -> rp_qty (heap L p) = Some q -> a_com q = c) ->
  (List.length (filter (fun p => match rp_qty (heap L p) with None => true | _ => false end) (x_posts x)) = 1%nat \/
   (forall p, In p (x_posts x) -> rp_qty (heap L p) <> None) /\ zsum (map a_int (quantities L (x_posts x))) = 0) ->
  exists L', resolve_tx find comm conv L x = Ok L'.
Proof. exact resolve_tx_total. Qed.
Print Assumptions C33_accepted.

(** ** C34 *)
Theorem C34_registers : forall find comm conv accounts chk L ts L' ws sorted,
  ledger_ok L -> NoDup accounts ->
  load_transactions find comm conv accounts chk L ts = Ok (L', ws, sorted) ->
  ledger_ok L' /\
  exists xs, Permutation xs sorted /\ Forall2 (resolved find comm conv L') ts xs /\ NoDup (flat_map x_posts xs) /\
    forall a, dated_version (dates L') (reg L a ++ made_to L' a xs) (reg L' a) /\
              Permutation (reg L a ++ made_to L' a xs) (reg L' a).
Proof.
  intros find comm conv accounts chk L ts L' ws sorted Hok Na H.
  destruct (load_inv _ _ _ _ _ _ _ _ _ _ Hok Na H) as (_ & xs & n & _ & -> & Es & _ & R & D & _ & K & _). split; [exact K|].
  exists xs. split; [apply stable_sort_perm|]. split; [exact R|]. split; [rewrite Es; apply seq_NoDup|].
  intros a. split; [apply D|]. eapply dated_perm, D.
Qed.
Print Assumptions C34_registers.

(** ** C35 *)
Theorem C35_add : forall date ps p, in_date_order date ps ->
  (~ In p ps -> inserted date p ps (add_posting date ps p)) /\ (In p ps -> add_posting date ps p = ps).
Proof. exact (fun date ps p H => conj (add_inserted date ps p H) (add_old date ps p H)). Qed.
Print Assumptions C35_add.
Theorem C35_delete : forall date ps p, in_date_order date ps -> NoDup ps ->
  (In p ps -> removed p ps (delete_posting date ps p)) /\ (~ In p ps -> delete_posting date ps p = ps).
Proof. exact (fun date ps p H N => conj (delete_removed date ps p H N) (delete_new date ps p H)). Qed.
Print Assumptions C35_delete.
Theorem C35_add_twice : forall date ps p, in_date_order date ps ->
  add_posting date (add_posting date ps p) p = add_posting date ps p.
Proof. intros date ps p H. apply add_old; [apply add_order, H|]. apply add_in_iff; auto. Qed.
Print Assumptions C35_add_twice.
Theorem C35_delete_undoes_add : forall date ps p, in_date_order date ps -> ~ In p ps ->
  delete_posting date (add_posting date ps p) p = ps.
Proof. exact delete_add. Qed.
Print Assumptions C35_delete_undoes_add.
Theorem C35_sequences : forall date ops ps, in_date_order date ps -> NoDup ps ->
  let ps' := fold_left (do_op date) ops ps in
  in_date_order date ps' /\ NoDup ps' /\ forall q, In q ps' <-> present q ops (existsb (Nat.eqb q) ps) = true.
Proof. exact ops_spec. Qed.
Print Assumptions C35_sequences.
Theorem C35_move : forall L p a, ledger_ok L -> (p < nxt L)%nat -> In p (reg L (rp_acc (heap L p))) ->
  (a = rp_acc (heap L p) -> move_to L p a = L) /\
  (a <> rp_acc (heap L p) ->
   let L' := move_to L p a in
   heap L' p = with_acc (heap L p) a /\ (forall q, q <> p -> heap L' q = heap L q) /\ nxt L' = nxt L /\
   (forall b, bal L' b = bal L b) /\
   removed p (reg L (rp_acc (heap L p))) (reg L' (rp_acc (heap L p))) /\
   inserted (dates L) p (reg L a) (reg L' a) /\
   (forall b, b <> a -> b <> rp_acc (heap L p) -> reg L' b = reg L b) /\ ledger_ok L').
Proof.
  intros L p a H1 H2 H3. split; [intros ->; apply move_same|]. intros H4. apply move_spec; auto.
Qed.
Print Assumptions C35_move.
Example C35_example : let date := fun p => nth p [10; 20; 20; 30; 20] 0 in
  add_posting date [0; 1; 2; 3]%nat 4%nat = [0; 1; 2; 4; 3]%nat /\ delete_posting date [0; 1; 2; 4; 3]%nat 2%nat = [0; 1; 4; 3]%nat.
Proof. split; reflexivity. Qed.

(** ** C36 *)
Theorem C36_running_balances : forall find comm conv accounts ts L' ws sorted, NoDup accounts ->
  load_transactions find comm conv accounts true empty_ledger ts = Ok (L', ws, sorted) ->
  (forall a, In a accounts ->
     add_all conv (zero_amount (comm a)) (quantities L' (reg L' a)) = Ok (balance_of comm L' a) /\
     forall l1 p l2, reg L' a = l1 ++ p :: l2 -> exists b,
       add_all conv (zero_amount (comm a)) (quantities L' (l1 ++ [p])) = Ok b /\
       (rp_asserted (heap L' p) = false -> rp_bal (heap L' p) = Some b /\ ~ In p ws) /\
       (rp_asserted (heap L' p) = true ->
          exists b' e, rp_bal (heap L' p) = Some b' /\ is_equal b b' = Ok e /\ (In p ws <-> e = false))) /\
  (forall p, In p ws -> exists a, In a accounts /\ In p (reg L' a)).
Proof. exact load_checked. Qed.
Print Assumptions C36_running_balances.
(** in one commodity: sums of the minor units, a warning iff the asserted number differs *)
Theorem C36_one_commodity : forall find comm conv accounts ts L' ws sorted a, NoDup accounts -> In a accounts ->
  load_transactions find comm conv accounts true empty_ledger ts = Ok (L', ws, sorted) ->
  Forall (fun q => a_com q = comm a) (quantities L' (reg L' a)) ->
  balance_of comm L' a = mkAmount (zsum (map a_int (quantities L' (reg L' a)))) (comm a) /\
  forall l1 p l2, reg L' a = l1 ++ p :: l2 ->
    let sum := zsum (map a_int (quantities L' (l1 ++ [p]))) in
    (rp_asserted (heap L' p) = false -> rp_bal (heap L' p) = Some (mkAmount sum (comm a))) /\
    (In p ws <-> exists b, rp_asserted (heap L' p) = true /\ rp_bal (heap L' p) = Some b /\
                   is_equal (mkAmount sum (comm a)) b = Ok false) /\
    (forall b, rp_asserted (heap L' p) = true -> rp_bal (heap L' p) = Some b -> a_com b = comm a -> (In p ws <-> a_int b <> sum)).
Proof.
  intros find comm conv accounts ts L' ws sorted a Na Ia H F. destruct (load_checked _ _ _ _ _ _ _ _ Na H) as [K _].
  destruct (K a Ia) as (K1 & K2). rewrite (add_all_same conv _ (zero_amount (comm a))) in K1 by exact F.
  split; [injection K1 as <-; reflexivity|]. intros l1 p l2 El sum. destruct (K2 _ _ _ El) as (b & J1 & J2 & J3).
  assert (F1 : Forall (fun q => a_com q = comm a) (quantities L' (l1 ++ [p]))).
  { rewrite El in F. replace (l1 ++ p :: l2) with ((l1 ++ [p]) ++ l2) in F by (rewrite <- app_assoc; reflexivity).
    rewrite quantities_app in F. apply Forall_app in F. tauto. }
  rewrite (add_all_same conv _ (zero_amount (comm a))) in J1 by exact F1. cbn in J1. fold sum in J1. injection J1 as <-.
  destruct (rp_asserted (heap L' p)) eqn:As.
  - split; [discriminate|]. destruct (J3 eq_refl) as (b' & e & G1 & G2 & G3). split.
    + rewrite G3. split; [intros ->; exists b'; auto|]. intros (b2 & _ & E1 & E2). rewrite G1 in E1. injection E1 as <-. congruence.
    + intros b _ E1 E2. rewrite G1 in E1. injection E1 as <-. rewrite G3. unfold is_equal, cmp in G2.
      rewrite adjusted_same in G2 by (unfold a_dec; cbn; congruence). cbn in G2. injection G2 as <-.
      destruct (Z.compare_spec sum (a_int b')); split; intros; try lia; try discriminate; reflexivity.
  - split; [intros _; apply J2; reflexivity|]. split; [|discriminate]. split; [intros G; apply J2 in G; [tauto|reflexivity]|].
    intros (b2 & G & _). discriminate.
Qed.
Print Assumptions C36_one_commodity.
(** An assertion in another commodity is compared by its number: 10.00 USD "holds" for 10.00 CAD. *)
Theorem C36_other_commodity_refuted : exists ts L xs p b,
  load_transactions ex_find ex_comm ex_conv ex_accounts true empty_ledger ts = Ok (L, [], xs) /\
  rp_asserted (heap L p) = true /\ rp_bal (heap L p) = Some b /\ a_com b = usd /\ ex_comm (rp_acc (heap L p)) = cad.
Proof.
  exists [tr 10 [mkPosting (B "A") (Some (mkAmount 1000 cad)) (Some (mkAmount 1000 usd)) []; ps "B" None None]].
  match goal with |- exists L xs p b, ?l = _ /\ _ =>
    assert (H : match l with Ok (L, ws, xs) => ws = [] /\ rp_asserted (heap L 0%nat) = true /\ rp_bal (heap L 0%nat) = Some (mkAmount 1000 usd) /\
       ex_comm (rp_acc (heap L 0%nat)) = cad | _ => False end) by (vm_compute; repeat split);
    destruct l as [[[L ws] xs]| |]; [|destruct H|destruct H] end.
  destruct H as (-> & H1 & H2 & H3). eexists _, _, 0%nat, _. split; [reflexivity|]. split; [exact H1|]. split; [exact H2|]. split; [reflexivity|exact H3].
Qed.
Print Assumptions C36_other_commodity_refuted.

(** ** C39 *)
Theorem C39_transaction_order : forall find comm conv accounts chk L ts L' ws sorted,
  ledger_ok L -> NoDup accounts ->
  load_transactions find comm conv accounts chk L ts = Ok (L', ws, sorted) ->
  exists xs, Forall2 (resolved find comm conv L') ts xs /\ Permutation xs sorted /\ in_ledger_order L' sorted /\
    forall d (b : bool), filter (fun x => (x_posted x =? d) && Bool.eqb (has_assertions L' x) b) sorted =
                         filter (fun x => (x_posted x =? d) && Bool.eqb (has_assertions L' x) b) xs.
Proof.
  intros find comm conv accounts chk L ts L' ws sorted Hok Na H.
  destruct (load_inv _ _ _ _ _ _ _ _ _ _ Hok Na H) as (_ & xs & _ & _ & -> & _ & _ & R & _). exists xs.
  split; [exact R|]. split; [apply stable_sort_perm|]. split; [apply sorted_ledger_order|]. intros; apply sorted_stable.
Qed.
Print Assumptions C39_transaction_order.

(** ** C40: refuted. The second transaction of the day is written before the asserting one. *)
Definition ex_day : list transaction :=
  [tr 10 [ps "A" (Some 1000) (Some 1000); ps "B" None None]; tr 10 [ps "A" (Some 500) None; ps "B" None None]].
Theorem C40_format_keeps_checks_refuted : exists ts L xs L2 w ws2 xs2,
  load_transactions ex_find ex_comm ex_conv ex_accounts true empty_ledger ts = Ok (L, [], xs) /\
  load_transactions ex_find ex_comm ex_conv ex_accounts true empty_ledger (map (as_written L) xs) = Ok (L2, w :: ws2, xs2).
Proof.
  exists ex_day. set (ld := load_transactions _ _ _ _ _ _).
  assert (H : match ld ex_day with Ok (L, [], xs) => match ld (map (as_written L) xs) with Ok (_, _ :: _, _) => True | _ => False end | _ => False end)
    by (vm_compute; exact I).
  destruct (ld ex_day) as [[[L [|]] xs]| |] eqn:E1; try (destruct H; fail). destruct (ld (map (as_written L) xs)) as [[[L2 [|w ws]] xs2]| |] eqn:E2; try (destruct H; fail).
  exists L, xs, L2, w, ws, xs2. auto.
Qed.
Print Assumptions C40_format_keeps_checks_refuted.

(** ** C41 *)
Theorem C41_day : forall xs d, StronglySorted (fun x y => x_posted x <= x_posted y) xs ->
  day xs d = filter (fun x => x_posted x =? d) xs.
Proof. exact day_filter. Qed.
Print Assumptions C41_day.
Example C41_example : let t d := mkTx d [] [] [] [] 0 in
  StronglySorted (fun x y => x_posted x <= x_posted y) [t 1; t 2; t 2; t 3] /\ day [t 1; t 2; t 2; t 3] 2 = [t 2; t 2] /\ day [t 1; t 3] 2 = [] .
Proof. cbn. split; [repeat (constructor; cbn; try lia)|]. split; reflexivity. Qed.

(** ** C42 *)
Theorem C42_drop_undoes_load : forall find comm conv accounts chk L ts L' ws sorted,
  ledger_ok L -> NoDup accounts ->
  load_transactions find comm conv accounts chk L ts = Ok (L', ws, sorted) ->
  forall a, reg (drop_transactions L' sorted) a = reg L a.
Proof. exact drop_load. Qed.
Print Assumptions C42_drop_undoes_load.

(** ** C55 *)
Theorem C55_post_conversion : forall L x from fa fb to ta tb, ledger_ok L ->
  let r := post_conversion L x from fa fb to ta tb in let L' := fst r in let x' := snd r in
  exists pF pT, pF <> pT /\ (nxt L <= pF)%nat /\ (nxt L <= pT)%nat /\ ledger_ok L' /\
  x_posts x' = x_posts x ++ (if a_int fa <? 0 then [pT; pF] else [pF; pT]) /\
  x_posted x' = x_posted x /\ x_code x' = x_code x /\ x_desc x' = x_desc x /\ x_notes x' = x_notes x /\
  heap L' pF = mkRP (x_posted x) [] from (Some fa) fb (match fb with Some _ => true | None => false end) [] /\
  heap L' pT = mkRP (x_posted x) [] to (Some ta) tb (match tb with Some _ => true | None => false end) [] /\
  (forall p, (p < nxt L)%nat -> heap L' p = heap L p) /\
  (forall a, dated_version (dates L')
               (reg L a ++ (if eqb_bytes a from then [pF] else []) ++ (if eqb_bytes a to then [pT] else [])) (reg L' a)).
Proof.
  intros L x from fa fb to ta tb Hok r L' x'. exists (nxt L), (S (nxt L)). split; [lia|]. split; [lia|]. split; [lia|].
  destruct (post_spec L x from fa fb to ta tb Hok) as (A1 & A2 & A3). split; [exact A1|]. exact A3.
Qed.
Print Assumptions C55_post_conversion.
Theorem C55_post_balances : forall L x from to am balance, ledger_ok L -> x_posts x = [] ->
  let r := post L x from to am balance in let L' := fst r in let x' := snd r in
  exists p q, x_posts x' = [p; q] /\
    (exists a b, rp_qty (heap L' p) = Some a /\ rp_qty (heap L' q) = Some b /\ a_com a = a_com am /\ a_com b = a_com am /\
                 a_int a + a_int b = 0 /\ 0 <= a_int a) /\
    In p (reg L' (rp_acc (heap L' p))) /\ In q (reg L' (rp_acc (heap L' q))) /\
    ((rp_acc (heap L' p), rp_acc (heap L' q)) = (from, to) /\ rp_bal (heap L' p) = balance \/
     (rp_acc (heap L' p), rp_acc (heap L' q)) = (to, from) /\ rp_bal (heap L' q) = balance).
Proof.
  intros L x from to am balance Hok Hx r L' x'.
  destruct (C55_post_conversion L x from am balance to (negated am) None Hok)
    as (pF & pT & N & _ & _ & K & E & _ & _ & _ & _ & HF & HT & _ & D).
  change (post_conversion L x from am balance to (negated am) None) with r in K, E, HF, HT, D.
  change (fst r) with L' in K, E, HF, HT, D. change (snd r) with x' in E. rewrite Hx in E. cbn [app] in E.
  assert (IF : In pF (reg L' from)).
  { eapply Permutation_in; [eapply dated_perm, D|]. rewrite eqb_bytes_refl. apply in_or_app. right. left. reflexivity. }
  assert (IT : In pT (reg L' to)).
  { eapply Permutation_in; [eapply dated_perm, D|]. rewrite eqb_bytes_refl. apply in_or_app. right. apply in_or_app. right. left. reflexivity. }
  destruct (Z.ltb_spec (a_int am) 0) as [S|S]; [exists pT, pF|exists pF, pT]; (split; [exact E|]); rewrite HF, HT; cbn [rp_qty rp_acc rp_bal].
  - split; [exists (negated am), am; cbn; repeat split; lia|]. auto.
  - split; [exists am, (negated am); cbn; repeat split; lia|]. auto.
Qed.
Print Assumptions C55_post_balances.
