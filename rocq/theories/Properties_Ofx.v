(** C57, C58, C81, C82: importing OFX statements. *)
From Coq Require Import Sorted Permutation.
From Verif Require Import Base M_Amount M_Date M_Regex M_Parser M_Names M_Ledger M_Rules M_Commands M_Ofx S_Amount S_Rules S_Books S_Ofx L_Dec L_Sort L_Amount L_Registers L_Resolve L_Resolve2 L_Load L_Move L_Rules Properties_Ledger Properties_Rules L_Ofx L_Ofx2 L_Ofx3.

(** ** C58 a record becomes a balanced transaction *)
(** [becomes] says: the other account is that of the first matching rule, Unbalanced without one, nothing at all for a "--" rule;
    two postings with opposite amounts, that of the statement's account being the amount of the record, rounded down to the
    decimals of the account's commodity. *)
Theorem C58_record_partial : forall matches fuel comm L sets ars rs time payee num den balance L' o,
  ledger_ok L -> expands sets (ar_rules ars) rs -> 0 < den -> (forall n d, balance = Some (n, d) -> 0 < d) ->
  new_transaction matches fuel comm L sets ars time payee num den balance = Ok (L', o) ->
  becomes matches comm L' (mkEntry (ar_account ars) rs time payee num den balance) o /\
  ledger_ok L' /\ (forall p, (p < nxt L)%nat -> heap L' p = heap L p).
Proof.
  intros matches fuel comm L sets ars rs time payee num den balance L' o H1 H2 H3 H4 H5. destruct (new_transaction_spec matches fuel comm (fun _ => None) L sets ars rs time payee num den balance L' o H1 H2 H3 H4 H5) as ((_ & A & B) & _ & C). auto.
Qed.
Print Assumptions C58_record_partial.
(** the amount is exact when the commodity has enough decimals *)
Theorem C58_exact : forall num den c a k, 0 < den -> amount_down num den c a -> num * 10 ^ Z.of_nat (c_dec c) = k * den -> a_int a = k /\ a_com a = c.
Proof. intros num den c a k Hd [E H] Hk. split; [nia|exact E]. Qed.
Print Assumptions C58_exact.
Theorem C58_balanced : forall L x time account other am bal, posted_as L x time account other am bal ->
  exists p q a b, x_posts x = [p; q] /\ p <> q /\ rp_qty (heap L p) = Some a /\ rp_qty (heap L q) = Some b /\ a_com a = a_com b /\ a_int a + a_int b = 0 /\ a_int b <= 0 <= a_int a.
Proof.
  intros L x time account other am bal (p & q & N & E & Hp & Hq). destruct (Z.ltb_spec (a_int am) 0).
  - exists q, p, (mkAmount (- a_int am) (a_com am)), am. rewrite Hp, Hq. cbn. repeat split; auto; lia.
  - exists p, q, am, (mkAmount (- a_int am) (a_com am)). rewrite Hp, Hq. cbn. repeat split; auto; lia.
Qed.
Print Assumptions C58_balanced.
(** always a result, when the lookup of the rule ends *)
Theorem C58_total : forall matches comm sets ars rs, expands sets (ar_rules ars) rs -> (c_dec (comm (ar_account ars)) <= 50)%nat -> exists N, forall fuel, (N <= fuel)%nat ->
  forall L time payee num den balance, 0 < den -> (forall n d, balance = Some (n, d) -> 0 < d) ->
  exists L' o, new_transaction matches fuel comm L sets ars time payee num den balance = Ok (L', o).
Proof.
  intros matches comm sets ars rs X Hc. destruct (rule_for_first matches _ _ _ X) as [N HN]. exists N. intros fuel Hf L time payee num den balance Hd Hb.
  eapply new_transaction_total; eauto. rewrite HN by exact Hf. discriminate.
Qed.
Print Assumptions C58_total.
(** in full the property fails: amounts with more decimals than the commodity are rounded down, so that a deposit and a
    withdrawal of the same amount do not cancel *)
Theorem C58_rounding_refuted : exists a b, new_amount_frac 10005 1000 cad = Ok a /\ new_amount_frac (-10005) 1000 cad = Ok b /\ a_int a = 1000 /\ a_int b = -1001.
Proof. eexists. eexists. repeat split. Qed.
Print Assumptions C58_rounding_refuted.

(** ** C81 every record becomes one transaction or is dropped by a rule, in order; the ledger stays as it is *)
Theorem C81_every_record : forall matches fuel comm by_ofx_id ri fs ess L L' xs,
  Forall2 (entries_of_file by_ofx_id ri) fs ess -> Forall dens_ok fs -> ledger_ok L ->
  read_files matches fuel comm by_ofx_id L (Some ri) fs = Ok (L', xs) ->
  (exists os, Forall2 (becomes matches comm L') (concat ess) os /\ xs = somes os) /\
  NoDup (flat_map x_posts xs) /\ (forall p, In p (flat_map x_posts xs) -> (nxt L <= p)%nat) /\
  ledger_ok L' /\ (forall p, (p < nxt L)%nat -> heap L' p = heap L p).
Proof.
  intros matches fuel comm by_ ri fs ess L L' xs F D Hok H. destruct (read_files_spec _ _ _ _ _ _ _ F D _ _ _ Hok H) as [(_ & A1 & A2) (os & B1 & B2 & B3 & B4)].
  split; [exists os; auto|]. split; [exact B3|]. split; [intros p I; apply B4 in I; lia|]. auto.
Qed.
Print Assumptions C81_every_record.

(** ** C57 no duplicates *)
Lemma order_by_time L xs : in_ledger_order L xs -> by_time xs.
Proof. intros H. induction H as [|x l S IH F]; constructor; [exact IH|]. eapply Forall_impl; [|exact F]. cbn. intros y Hy. lia. Qed.
Lemma one_scale_perm L xs ys : (forall x, In x ys -> In x xs) -> one_scale L xs -> one_scale L ys.
Proof. intros H (dec & Hd). exists dec. intros x p I J. eapply Hd; eauto. Qed.
(** The output is the batch in ledger order without the transactions like one of the ledger and without repetitions. *)
Theorem C57_import_partial : forall matches fuel comm by_ofx_id shown L old ri fs L1 xs,
  read_files matches fuel comm by_ofx_id L ri fs = Ok (L1, xs) -> by_time old -> one_scale L1 (old ++ xs) -> (forall x, In x xs -> zero_time < x_posted x) ->
  exists sorted kept, Permutation xs sorted /\ in_ledger_order L1 sorted /\ deduplicated L1 old sorted kept /\
  ofx2coin matches fuel comm by_ofx_id shown false L old ri fs = Ok (map (written_on shown L1) kept) /\
  ofx2coin matches fuel comm by_ofx_id shown true L old ri fs = Ok (map (written_on shown L1) sorted).
Proof.
  intros matches fuel comm by_ shown L old ri fs L1 xs H So Sc Hz. pose proof (stable_sort_perm (tx_less L1) xs) as P. pose proof (sorted_ledger_order L1 xs) as So2.
  destruct (filter_dupes_spec L1 old (stable_sort (tx_less L1) xs)) as (kept & E & D).
  - exact So.
  - eapply order_by_time, So2.
  - eapply one_scale_perm; [|exact Sc]. intros x I. apply in_app_iff in I as [I|I]; apply in_or_app; [left; exact I|right]. eapply Permutation_in; [apply Permutation_sym, P|exact I].
  - intros x I. apply Hz. eapply Permutation_in; [apply Permutation_sym, P|exact I].
  - exists (stable_sort (tx_less L1) xs), kept. split; [exact P|]. split; [exact So2|]. split; [exact D|]. unfold ofx2coin. rewrite H. cbn [bind fst snd]. rewrite E. split; reflexivity.
Qed.
Print Assumptions C57_import_partial.

(** *** examples *)
Definition o_index : rindex := mkIndex [(B "42", mkARules (B "Bank") [ERule (mkRule (Some (B "Auto")) (B "SHELL") [B "fuel"]); ERule (mkRule None (B "MOVE") [])])] [].
Definition o_matches (p s : bytes) : bool := eqb_bytes p s.
Definition o_noid (_ : bytes) : option bytes := None.
Definition o_comm (_ : bytes) : commodity := cad.
Definition o_rec (day : Z) (name : string) (cents : Z) : orec := mkRec (noon day) (B name) [] cents 100.
Definition o_stmt (bal : Z) (rs : list orec) : ofx_file := mkOfx [mkStatement (B "42") (bal, 100) rs] [].
Definition o_shown (t : Z) : Z := t / 86400.
Definition o_run (keep : bool) L old fs := ofx2coin o_matches 1 o_comm o_noid o_shown keep L old (Some o_index) fs.
Definition o_p (a : string) (q : Z) (b : option Z) : posting := mkPosting (B a) (Some (mkAmount q cad)) (option_map (fun z => mkAmount z cad) b) [].
Example C57_example : o_run false empty_ledger [] [o_stmt 10000 [o_rec 5 "SHELL" (-4500); o_rec 5 "MOVE" 7; o_rec 5 "SHELL" (-4500); o_rec 6 "PAY" 20000]] =
  Ok [mkTransaction 5 [] (B "SHELL") [B "fuel"] [o_p "Auto" 4500 None; o_p "Bank" (-4500) None] 0;
      mkTransaction 6 [] (B "PAY") [] [o_p "Bank" 20000 (Some 10000); o_p "Unbalanced" (-20000) None] 0].
Proof. vm_compute. reflexivity. Qed.
Example C57_example_hypotheses : exists L1 xs, read_files o_matches 1 o_comm o_noid empty_ledger (Some o_index) [o_stmt 10000 [o_rec 5 "SHELL" (-4500); o_rec 5 "SHELL" (-4500); o_rec 6 "PAY" 20000]] = Ok (L1, xs) /\
  List.length xs = 3%nat /\ one_scale L1 ([] ++ xs) /\ forall x, In x xs -> zero_time < x_posted x.
Proof.
  destruct (read_files o_matches 1 o_comm o_noid empty_ledger (Some o_index) [o_stmt 10000 [o_rec 5 "SHELL" (-4500); o_rec 5 "SHELL" (-4500); o_rec 6 "PAY" 20000]]) as [[L1 xs]| |] eqn:E; [|vm_compute in E; discriminate|vm_compute in E; discriminate].
  exists L1, xs. split; [reflexivity|].
  assert (F : match read_files o_matches 1 o_comm o_noid empty_ledger (Some o_index) [o_stmt 10000 [o_rec 5 "SHELL" (-4500); o_rec 5 "SHELL" (-4500); o_rec 6 "PAY" 20000]] with
    | Ok (L, ys) => (List.length ys =? 3)%nat && forallb (fun x => (zero_time <? x_posted x) && forallb (fun p => match rp_qty (heap L p) with Some a => (a_dec a =? 2)%nat | None => false end) (x_posts x)) ys | _ => false end = true) by (vm_compute; reflexivity).
  rewrite E in F. apply andb_true_iff in F as [F1 F2]. split; [apply Nat.eqb_eq, F1|]. split.
  - exists (fun _ => 2%nat). intros x p I J. apply (proj1 (forallb_forall _ _) F2) in I. apply andb_true_iff in I as [_ I]. apply (proj1 (forallb_forall _ _) I) in J. destruct (rp_qty (heap L1 p)) as [a|]; [|discriminate]. exists a. split; [reflexivity|apply Nat.eqb_eq, J].
  - intros x I. apply (proj1 (forallb_forall _ _) F2) in I. apply andb_true_iff in I as [I _]. lia.
Qed.

(** a balance that comes only with the duplicate that is dropped is lost: the second file repeats the record of the first
    one as its last, with the balance of the account *)
Theorem C57_balance_lost_refuted : exists fs1 fs2,
  o_run false empty_ledger [] fs2 = Ok [mkTransaction 5 [] (B "SHELL") [B "fuel"] [o_p "Auto" 4500 None; o_p "Bank" (-4500) (Some 10000)] 0] /\
  o_run false empty_ledger [] (fs1 ++ fs2) = Ok [mkTransaction 5 [] (B "SHELL") [B "fuel"] [o_p "Auto" 4500 None; o_p "Bank" (-4500) None] 0;
     mkTransaction 6 [] (B "PAY") [] [o_p "Bank" 20000 (Some 30000); o_p "Unbalanced" (-20000) None] 0].
Proof. exists [o_stmt 30000 [o_rec 5 "SHELL" (-4500); o_rec 6 "PAY" 20000]], [o_stmt 10000 [o_rec 5 "SHELL" (-4500)]]. split; vm_compute; reflexivity. Qed.
Print Assumptions C57_balance_lost_refuted.
(** transactions of the same day at another time are not recognised *)
Definition o_old (q : amount) : ledger * list rtx := let r := post empty_ledger (mkTx (noon 5) [] (B "Shell") [] [] 1) (B "Bank") (B "Auto") q None in (fst r, [snd r]).
Theorem C57_time_of_day_refuted : let r := o_old (mkAmount (-4500) cad) in
  o_run false (fst r) (snd r) [o_stmt 10000 [o_rec 5 "SHELL" (-4500)]] = Ok [] /\
  o_run false (fst r) (snd r) [o_stmt 10000 [mkRec (noon 5 - 3600) (B "SHELL") [] (-45) 1]] =
    Ok [mkTransaction 5 [] (B "SHELL") [B "fuel"] [o_p "Auto" 4500 None; o_p "Bank" (-4500) (Some 10000)] 0].
Proof. split; vm_compute; reflexivity. Qed.
Print Assumptions C57_time_of_day_refuted.
(** amounts in another commodity, and amounts that differ in the decimals the imported one lacks, are taken for the same *)
Theorem C57_other_commodity_refuted : let r := o_old (mkAmount (-4500) usd) in
  o_run false (fst r) (snd r) [o_stmt 10000 [o_rec 5 "SHELL" (-4500)]] = Ok [] /\
  let r3 := o_old (mkAmount (-45001) (mkCommodity 7 (B "XAU") 3)) in o_run false (fst r3) (snd r3) [o_stmt 10000 [o_rec 5 "SHELL" (-4500)]] = Ok [].
Proof. repeat split; vm_compute; reflexivity. Qed.
Print Assumptions C57_other_commodity_refuted.
(** without a rules file nothing can be imported *)
Theorem C81_no_rules_refuted : forall matches fuel comm by_ofx_id shown keep L old st sts cards fs,
  ofx2coin matches fuel comm by_ofx_id shown keep L old None (mkOfx (st :: sts) cards :: fs) = Panic.
Proof. reflexivity. Qed.
Print Assumptions C81_no_rules_refuted.

(** ** C82 importing the same statements again, after the first output was added to the ledger, writes nothing *)
Theorem C82_import_twice_partial : forall matches fuel comm by_ofx_id shown find conv accounts chk ri fs ess ts L ws old L1 xs out L2 ws2 old2,
  Forall2 (entries_of_file by_ofx_id ri) fs ess -> Forall dens_ok fs -> NoDup accounts ->
  load_transactions find comm conv accounts chk empty_ledger (map at_noon ts) = Ok (L, ws, old) ->
  read_files matches fuel comm by_ofx_id L (Some ri) fs = Ok (L1, xs) ->
  one_scale L1 (old ++ xs) ->
  (forall x, In x xs -> zero_time < x_posted x /\ noon (shown (x_posted x)) = x_posted x) ->
  (forall x p, In x xs -> In p (x_posts x) -> find (rp_acc (heap L1 p)) = Ok (rp_acc (heap L1 p))) ->
  ofx2coin matches fuel comm by_ofx_id shown false L old (Some ri) fs = Ok out ->
  load_transactions find comm conv accounts chk empty_ledger (map at_noon (ts ++ out)) = Ok (L2, ws2, old2) ->
  ofx2coin matches fuel comm by_ofx_id shown false L2 old2 (Some ri) fs = Ok [].
Proof.
  intros matches fuel comm by_ shown find conv accounts chk ri fs ess ts L ws old L1 xs out L2 ws2 old2 F D Na HL HR Sc Ht Hfind Hout HL2.
  destruct (load_inv _ _ _ _ _ _ _ _ _ _ empty_ok Na HL) as (La & xa & na & _ & Eo & Ea & Ena & Ra & _ & _ & OkL & _).
  destruct (load_inv _ _ _ _ _ _ _ _ _ _ empty_ok Na HL2) as (Lb & xb & nb & _ & Eo2 & Eb & Enb & Rb & _ & _ & OkL2 & _).
  destruct (read_files_spec _ _ _ _ _ _ _ F D _ _ _ OkL HR) as [G1 (os & B1 & B2 & B3 & B4)].
  destruct (files_again matches fuel comm by_ (Some ri) fs L L2 _ HR) as [[L3 ys] HR2].
  destruct (read_files_spec _ _ _ _ _ _ _ F D _ _ _ OkL2 HR2) as [G2 (os2 & C1 & C2 & C3 & C4)].
  destruct (C57_import_partial matches fuel comm by_ shown L old (Some ri) fs L1 xs HR) as (sorted & kept & P & So & Dd & Ok1 & _).
  { rewrite Eo. eapply order_by_time, sorted_ledger_order. } { exact Sc. } { intros x I. apply Ht, I. }
  rewrite Ok1 in Hout. injection Hout as <-. destruct Dd as (D1 & D2 & D3 & D4).
  assert (InK : forall k, In k kept -> In k xs).
  { intros k I. eapply Permutation_in; [apply Permutation_sym, P|]. clear -D1 I. induction D1; [exact I| |]; [destruct I as [->|I]; [left; reflexivity|right; auto]|right; auto]. }
  (* faces of the second batch *)
  assert (Fy : forall y, In y ys -> exists x, In x xs /\ face L3 y = face L1 x).
  { assert (Fo : Forall2 (fun o o' => option_map (face L1) o = option_map (face L3) o') os os2).
    { assert (De : forall e, In e (concat ess) -> 0 < e_den e).
      { intros e I. apply in_concat in I as (es & I1 & I2). apply in_split in I1 as (e1 & e2 & ->). apply Forall2_app_inv_r in F as (f1 & f2 & _ & F2 & ->). inversion F2 as [|f ? ? ? Hf]; subst.
        apply Forall_app in D as [_ D]. inversion D as [|? ? Df _]; subst. destruct Hf as (b & c & Fb & Fc & ->). 
        assert (Q : forall bank sts l, Forall2 (entries_of by_ ri bank) sts l -> (forall st, In st sts -> In st (of_bank f ++ of_card f)) -> In e (concat l) -> 0 < e_den e).
        { intros bank sts ll Fl Hs Ie. induction Fl as [|st el sts' l' He Fl IH]; [destruct Ie|]. cbn [concat] in Ie. apply in_app_iff in Ie as [Ie|Ie]; [|apply IH; [intros; apply Hs; right; assumption|exact Ie]].
          destruct He as [st acct rs _]. destruct (Df st (Hs _ (or_introl eq_refl))) as [_ Dr]. clear -Ie Dr. induction (st_recs st) as [|r rl IHr]; [destruct Ie|]. destruct Ie as [<-|Ie]; [apply Dr; left; reflexivity|]. apply IHr; [exact Ie|intros; apply Dr; right; assumption]. }
        apply in_app_iff in I2 as [I2|I2]; [apply (Q true _ _ Fb)|apply (Q false _ _ Fc)]; auto; intros; apply in_or_app; auto. }
      clear -B1 C1 De. revert os2 C1. induction B1 as [|e o es os H B1 IH]; intros os2 C1; inversion C1; subst; constructor; [eapply becomes_det; eauto; apply De; left; reflexivity|]. apply IH; [intros; apply De; right; assumption|assumption]. }
    subst xs ys. intros y I. apply in_flat_map in I as (o2 & I & J). destruct o2 as [y'|]; [|destruct J]. destruct J as [->|[]]. apply in_split in I as (p1 & p2 & ->). apply Forall2_app_inv_r in Fo as (q1 & q2 & _ & F2 & Eq). inversion F2 as [|o ? ? ? Ho Fl]; subst.
    destruct o as [x|]; [|discriminate Ho]. apply (f_equal (fun o => match o with Some f => f | None => face L1 x end)) in Ho. cbn [option_map] in Ho. exists x. split; [|symmetry; exact Ho]. unfold somes. rewrite flat_map_app. cbn [flat_map]. apply in_or_app. right. left. reflexivity. }
  destruct Sc as (dec & Hd).
  assert (Hs1 : forall x, In x (old ++ xs) -> scaleF dec (face L1 x)) by (intros x I; apply scale_face; intros p J; eapply Hd; eauto).
  (* faces of the old ledger *)
  assert (Pold : forall o, In o old <-> In o xa) by (intros o; rewrite Eo; split; apply Permutation_in; [apply Permutation_sym|]; apply stable_sort_perm).
  assert (Pold2 : forall o, In o old2 <-> In o xb) by (intros o; rewrite Eo2; split; apply Permutation_in; [apply Permutation_sym|]; apply stable_sort_perm).
  assert (Small : forall o, In o xa -> face L1 o = face L o).
  { intros o I. apply grows_face; [exact G1|]. intros p J. rewrite Ena. assert (K : In p (flat_map x_posts xa)) by (apply in_flat_map; exists o; auto). rewrite Ea in K. apply in_seq in K. lia. }
  assert (Small2 : forall o, In o xb -> face L3 o = face L2 o).
  { intros o I. apply grows_face; [exact G2|]. intros p J. rewrite Enb. assert (K : In p (flat_map x_posts xb)) by (apply in_flat_map; exists o; auto). rewrite Eb in K. apply in_seq in K. lia. }
  assert (Kq : forall k p, In k xs -> In p (x_posts k) -> find (rp_acc (heap L1 p)) = Ok (rp_acc (heap L1 p)) /\ rp_qty (heap L1 p) <> None).
  { intros k p I J. split; [eapply Hfind; eauto|]. destruct (Hd k p) as (a & -> & _); [apply in_or_app; right; exact I|exact J|discriminate]. }
  rewrite map_app in Rb. apply Forall2_app_inv_l in Rb as (xb1 & xb2 & Rb1 & Rb2 & ->).
  assert (Olds : Forall2 (fun x z => face L x = face L2 z) xa xb1).
  { clear -Ra Rb1. revert xb1 Rb1. induction Ra as [|t x tl xl H Ra IH]; intros xb1 Rb1; inversion Rb1; subst; constructor; [eapply resolved_det; eauto|apply IH; assumption]. }
  assert (News : Forall2 (fun k z => face L2 z = face L1 k) kept xb2).
  { clear -Rb2 Kq InK Ht. revert xb2 Rb2. induction kept as [|k kept IH]; intros xb2 Rb2; inversion Rb2 as [|? z ? zs Hz Hzs]; subst; constructor.
    - eapply resolved_import; [intros p J; apply (Kq k p); [apply InK; left; reflexivity|exact J]|apply Ht, InK; left; reflexivity|exact Hz].
    - apply IH; [intros; apply InK; right; assumption|exact Hzs]. }
  assert (In2 : forall {A B} (R : A -> B -> Prop) l m a, Forall2 R l m -> In a l -> exists b, In b m /\ R a b).
  { clear. intros A B R l m a H. induction H as [|x y l m Hxy H IH]; intros I; [destruct I|]. destruct I as [->|I]; [exists y; split; [left; reflexivity|exact Hxy]|]. destruct (IH I) as (b & I2 & Hb). exists b. split; [right; exact I2|exact Hb]. }
  assert (In2' : forall {A B} (R : A -> B -> Prop) l m b, Forall2 R l m -> In b m -> exists a, In a l /\ R a b).
  { clear. intros A B R l m a H. induction H as [|x y l m Hxy H IH]; intros I; [destruct I|]. destruct I as [->|I]; [exists x; split; [left; reflexivity|exact Hxy]|]. destruct (IH I) as (b & I2 & Hb). exists b. split; [right; exact I2|exact Hb]. }
  (* every transaction of the second batch is like one of the ledger *)
  assert (Dup : forall y, In y ys -> exists o, In o old2 /\ alike L3 o y).
  { intros y Iy. destruct (Fy y Iy) as (x & Ix & Ex). 
    assert (Src : exists f, alikeF f (face L1 x) /\ ((exists o, In o xa /\ f = face L1 o) \/ (exists k, In k kept /\ f = face L1 k))).
    { destruct (D4 x (Permutation_in _ P Ix)) as [Ik|(o & [Io|Io] & Al)].
      - exists (face L1 x). split; [eapply alikeF_refl, Hs1, in_or_app; right; exact Ix|]. right. eauto.
      - exists (face L1 o). split; [apply alike_face, Al|]. left. exists o. split; [apply Pold, Io|reflexivity].
      - exists (face L1 o). split; [apply alike_face, Al|]. right. eauto. }
    destruct Src as (f & Af & [(o & Io & ->)|(k & Ik & ->)]).
    - destruct (In2 _ _ _ _ _ _ Olds Io) as (z & Iz & Ez). exists z. split; [apply Pold2, in_or_app; left; exact Iz|]. apply alike_face. rewrite (Small2 z) by (apply in_or_app; left; exact Iz). rewrite <- Ez, <- (Small o Io), Ex. exact Af.
    - destruct (In2 _ _ _ _ _ _ News Ik) as (z & Iz & Ez). exists z. split; [apply Pold2, in_or_app; right; exact Iz|]. apply alike_face. rewrite (Small2 z) by (apply in_or_app; right; exact Iz). rewrite Ez, Ex. exact Af. }
  assert (Sc2 : one_scale L3 (old2 ++ ys)).
  { exists dec. intros z p I J. revert p J. apply scale_face. apply in_app_iff in I as [I|I].
    - apply Pold2 in I. rewrite (Small2 z I). apply in_app_iff in I as [I|I].
      + destruct (In2' _ _ _ _ _ _ Olds I) as (o & Io & Ez). rewrite <- Ez, <- (Small o Io). apply Hs1, in_or_app. left. apply Pold, Io.
      + destruct (In2' _ _ _ _ _ _ News I) as (k & Ik & Ez). rewrite Ez. apply Hs1, in_or_app. right. apply InK, Ik.
    - destruct (Fy z I) as (x & Ix & ->). apply Hs1, in_or_app. right. exact Ix. }
  destruct (C57_import_partial matches fuel comm by_ shown L2 old2 (Some ri) fs L3 ys HR2) as (sorted2 & kept2 & P2 & _ & (E1 & E2 & _) & Ok2 & _).
  { rewrite Eo2. eapply order_by_time, sorted_ledger_order. } { exact Sc2. }
  { intros y I. destruct (Fy y I) as (x & Ix & Ex). assert (Q : x_posted y = x_posted x) by (apply (f_equal (fun f => fst (fst f))) in Ex; exact Ex). rewrite Q. apply Ht, Ix. }
  rewrite Ok2. destruct kept2 as [|k kept2]; [reflexivity|]. exfalso.
  assert (Ik : In k ys). { eapply Permutation_in; [apply Permutation_sym, P2|]. clear -E1. remember (k :: kept2) as l eqn:El. induction E1; [discriminate|injection El as -> _; left; reflexivity|right; apply IHE1, El]. }
  destruct (Dup k Ik) as (o & Io & Al). exact (E2 k o (or_introl eq_refl) Io Al).
Qed.
Print Assumptions C82_import_twice_partial.
(** a case that meets these hypotheses: a ledger that has one of the two records of the statement already *)
Definition o_fs : list ofx_file := [o_stmt 15500 [o_rec 5 "SHELL" (-4500); o_rec 6 "PAY" 20000]].
Definition o_ts : list transaction := [mkTransaction 5 [] (B "Shell") [] [o_p "Auto" 4500 None; o_p "Bank" (-4500) None] 1].
Definition o_accounts : list bytes := [B "Auto"; B "Bank"; B "Unbalanced"].
Definition o_out : list transaction := [mkTransaction 6 [] (B "PAY") [] [o_p "Bank" 20000 (Some 15500); o_p "Unbalanced" (-20000) None] 0].
Definition o_load (ts : list transaction) := load_transactions ex_find o_comm ex_conv o_accounts true empty_ledger (map at_noon ts).
Definition o_scale2 (L : ledger) (x : rtx) : bool := forallb (fun p => match rp_qty (heap L p) with Some a => (a_dec a =? 2)%nat | None => false end) (x_posts x).
Definition o_facts : bool :=
  match o_load o_ts with
  | Ok (L, _, old) =>
    match read_files o_matches 1 o_comm o_noid L (Some o_index) o_fs with
    | Ok (L1, xs) => (List.length old =? 1)%nat && (List.length xs =? 2)%nat && forallb (o_scale2 L1) (old ++ xs) && forallb (fun x => (zero_time <? x_posted x) && (noon (o_shown (x_posted x)) =? x_posted x)) xs
    | _ => false end
  | _ => false end.
Example C82_hypotheses : exists ess L ws old L1 xs L2 old2,
  Forall2 (entries_of_file o_noid o_index) o_fs ess /\ Forall dens_ok o_fs /\ NoDup o_accounts /\
  o_load o_ts = Ok (L, ws, old) /\ List.length old = 1%nat /\
  read_files o_matches 1 o_comm o_noid L (Some o_index) o_fs = Ok (L1, xs) /\ List.length xs = 2%nat /\
  one_scale L1 (old ++ xs) /\
  (forall x, In x xs -> zero_time < x_posted x /\ noon (o_shown (x_posted x)) = x_posted x) /\
  (forall x p, In x xs -> In p (x_posts x) -> ex_find (rp_acc (heap L1 p)) = Ok (rp_acc (heap L1 p))) /\
  ofx2coin o_matches 1 o_comm o_noid o_shown false L old (Some o_index) o_fs = Ok o_out /\
  o_load (o_ts ++ o_out) = Ok (L2, [], old2).
Proof.
  assert (F : o_facts = true) by (vm_compute; reflexivity).
  assert (O1 : match o_load o_ts with Ok (L, _, old) => ofx2coin o_matches 1 o_comm o_noid o_shown false L old (Some o_index) o_fs = Ok o_out | _ => False end) by (vm_compute; reflexivity).
  assert (O2 : match o_load (o_ts ++ o_out) with Ok (_, ws, _) => ws = [] | _ => False end) by (vm_compute; reflexivity).
  unfold o_facts in F. destruct (o_load o_ts) as [[[L ws] old]| |] eqn:E1; [|discriminate F|discriminate F].
  destruct (read_files o_matches 1 o_comm o_noid L (Some o_index) o_fs) as [[L1 xs]| |] eqn:E2; [|discriminate F|discriminate F].
  destruct (o_load (o_ts ++ o_out)) as [[[L2 ws2] old2]| |] eqn:E3; [|destruct O2|destruct O2]. subst ws2.
  rewrite !andb_true_iff in F. destruct F as [[[F1 F2] F3] F4].
  exists [[mkEntry (B "Bank") [mkRule (Some (B "Auto")) (B "SHELL") [B "fuel"]; mkRule None (B "MOVE") []] (noon 5) (B "SHELL") (-4500) 100 None;
           mkEntry (B "Bank") [mkRule (Some (B "Auto")) (B "SHELL") [B "fuel"]; mkRule None (B "MOVE") []] (noon 6) (B "PAY") 20000 100 (Some (15500, 100))]], L, ws, old, L1, xs, L2, old2.
  split. { constructor; [|constructor]. eexists [_], []. split; [constructor; [|constructor]|split; [constructor|]].
    - apply eo with (acct := B "Bank") (rs := [mkRule (Some (B "Auto")) (B "SHELL") [B "fuel"]; mkRule None (B "MOVE") []]). eexists. split; [reflexivity|]. split; [reflexivity|]. repeat constructor.
    - reflexivity. }
  split. { constructor; [|constructor]. intros st [<-|[]]. split; [reflexivity|]. intros r [<-|[<-|[]]]; reflexivity. }
  split. { repeat constructor; cbn; intuition discriminate. }
  split; [first [exact E1|reflexivity]|]. split; [apply Nat.eqb_eq, F1|]. split; [exact E2|]. split; [apply Nat.eqb_eq, F2|].
  split. { exists (fun _ => 2%nat). intros x p I J. apply (proj1 (forallb_forall _ _) F3) in I. apply (proj1 (forallb_forall _ _) I) in J. destruct (rp_qty (heap L1 p)) as [a|]; [|discriminate]. exists a. split; [reflexivity|apply Nat.eqb_eq, J]. }
  split. { intros x I. apply (proj1 (forallb_forall _ _) F4) in I. apply andb_true_iff in I as [I1 I2]. split; lia. }
  split; [reflexivity|]. split; [exact O1|first [exact E3|reflexivity]].
Qed.
(** In full C82 fails: a record at another time than noon is written by both imports. *)
Definition o_late : list ofx_file := [o_stmt 15500 [mkRec (noon 6 - 3600) (B "PAY") [] 200 1]].
Theorem C82_twice_refuted : exists fs out,
  match o_load o_ts with
  | Ok (L, _, old) =>
      ofx2coin o_matches 1 o_comm o_noid o_shown false L old (Some o_index) fs = Ok out /\ out <> [] /\
      match o_load (o_ts ++ out) with
      | Ok (L2, _, old2) => ofx2coin o_matches 1 o_comm o_noid o_shown false L2 old2 (Some o_index) fs = Ok out
      | _ => False end
  | _ => False end.
Proof.
  exists o_late, [mkTransaction 6 [] (B "PAY") [] [o_p "Bank" 20000 (Some 15500); o_p "Unbalanced" (-20000) None] 0].
  vm_compute. split; [reflexivity|]. split; [discriminate|reflexivity].
Qed.
Print Assumptions C82_twice_refuted.
