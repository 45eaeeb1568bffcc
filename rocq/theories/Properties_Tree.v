(** C37, C38, C68: the account tree, cumulative balances, closed accounts. *)
From Coq Require Import Permutation Sorted.
From Verif Require Import Base M_Amount M_Parser M_Names M_Ledger S_Names S_Amount S_Books L_Dec L_Sort L_Names L_Amount L_Registers L_Resolve L_Resolve2 L_Load L_Tree L_Tree2 L_Balance Properties_Ledger.
Local Open Scope Z_scope.

Lemma par_parent_of n : parent_of n (par n).
Proof.
  unfold parent_of, par. destruct (parent_cases n) as [[N E]|(leaf & E & N)].
  - right. rewrite E. auto.
  - destruct (parent_name n) as [|x p] eqn:Ep; [right; split; [reflexivity|right; eauto]|]. left. exists leaf. repeat split; auto. discriminate.
Qed.
Lemma leaf_name n leaf : leaf_of n leaf -> snd (parent_and_name n) = leaf.
Proof.
  intros (N & H). unfold parent_and_name. cbn [snd]. destruct (split_last_cases n) as [[N1 E]|(p & l & E1 & N2 & E2)].
  - rewrite E. cbn. destruct H as [H|(p & H)]; [exact H|]. exfalso. apply N1. rewrite H. apply in_or_app. right. left. reflexivity.
  - rewrite E2, last_last. destruct H as [H|(q & H)].
    + exfalso. apply N. rewrite <- H, E1. apply in_or_app. right. left. reflexivity.
    + rewrite H in E1. clear - E1 N N2. revert q E1. induction p as [|x p IH]; intros [|y q] E1; cbn in E1.
      * injection E1 as ->. reflexivity.
      * injection E1 as -> E1. exfalso. apply N2. rewrite <- E1. apply in_or_app. right. left. reflexivity.
      * injection E1 as <- E1. exfalso. apply N. rewrite E1. apply in_or_app. right. left. reflexivity.
      * injection E1 as -> E1. apply IH in E1. exact E1.
Qed.

Lemma adopt_det f g T a c T1 T2 : adopt f T a c = Ok T1 -> adopt g T a c = Ok T2 -> T1 = T2.
Proof. unfold adopt. intros H1 H2. destruct (mem _ _) in H1; [discriminate|]. destruct (mem _ _) in H1; [discriminate|].
  destruct (mem _ _) in H2; [discriminate|]. destruct (mem _ _) in H2; [discriminate|]. congruence. Qed.
Lemma link_det f g names : forall order T T1 T2, link f T names order = Ok T1 -> link g T names order = Ok T2 -> T1 = T2.
Proof.
  induction order as [|a order IH]; intros T T1 T2; cbn [link]; [congruence|].
  destruct (eqb_bytes a root); [apply IH|]. destruct (parent_name a) as [|x p].
  - intros H1 H2. unb H1. unb H2. pose proof (adopt_det _ _ _ _ _ _ _ E E0). subst. eapply IH; eauto.
  - destruct (mem (x :: p) names); [|discriminate]. intros H1 H2. unb H1. unb H2. pose proof (adopt_det _ _ _ _ _ _ _ E E0). subst. eapply IH; eauto.
Qed.

(** ** C38 *)
Theorem C38_account_tree : forall names known o1 o2, NoDup names ->
  (* the orders in which the maps are iterated *)
  Permutation known (base_accounts names) -> let all := with_parents known (base_accounts names) in
  Permutation o1 all -> Permutation o2 all ->
  exists T reached N, forall fuel, (N <= fuel)%nat ->
    resolve_accounts fuel names known o1 o2 = Ok (T, all) /\
    (* the accounts there are *)
    NoDup all /\ (forall n, In n all <-> needed names n) /\
    (* every account is visited exactly once from the root, by both traversals *)
    with_children fuel (t_children T) (B "Root") = reached /\ NoDup reached /\ Permutation reached all /\
    Permutation (first_with_children fuel (t_children T) (B "Root")) all /\
    (* parents and children *)
    t_parent T (B "Root") = None /\
    (forall n, In n all -> n <> B "Root" -> exists p, t_parent T n = Some p /\ In p all /\ parent_of n p) /\
    (forall n p, In n (t_children T p) <-> t_parent T n = Some p) /\
    (* siblings in the order of their last segments *)
    (forall a, NoDup (t_children T a) /\
       StronglySorted (fun x y => forall lx ly, leaf_of x lx -> leaf_of y ly -> less_bytes ly lx = false) (t_children T a)).
Proof.
  intros names known o1 o2 Nn Pk all P1 P2.
  destruct (resolve_tree 0 names known o1 o2 Nn Pk P1 P2) as (T & E0 & HT & Hs). fold all in E0, HT, Hs.
  exists T, (with_children (S (bound all)) (t_children T) root), (S (bound all)). intros fuel Hf.
  assert (E : resolve_accounts fuel names known o1 o2 = Ok (T, all)).
  { destruct (resolve_tree fuel names known o1 o2 Nn Pk P1 P2) as (T' & E' & HT' & _). fold all in E', HT'. rewrite E'. f_equal. f_equal.
    unfold resolve_accounts in E0, E'. fold all in E0, E'. unb E0. unb E'. pose proof (link_det _ _ _ _ _ _ _ E E1). congruence. }
  assert (Ra : In root all) by apply HT.
  split; [exact E|]. split; [apply HT|]. split; [intros n; apply all_needed, Pk|].
  split; [apply (reach_stable all T HT); auto; lia|]. split; [apply (reach_nodup all T HT)|].
  split; [apply (reach_perm all T HT); lia|]. split.
  { etransitivity; [apply Permutation_sym, wc_perm_fwc|]. apply (reach_perm all T HT). lia. }
  split; [destruct HT as (_ & _ & H3 & _); exact H3|]. split.
  { intros n I R. destruct HT as (_ & _ & _ & H4 & _). destruct (H4 n I R) as [K1 K2]. exists (par n). split; [exact K1|].
    split; [exact K2|apply par_parent_of]. }
  split; [intros n p; split; [apply (child_parent all T HT)|apply (parent_some all T HT)]|].
  intros a. split; [apply HT|]. destruct (in_dec (list_eq_dec Ascii.ascii_dec) a all) as [I|I].
  - specialize (Hs a I). unfold sorted_by in Hs. clear - Hs. induction Hs as [|x l H IH K]; constructor; auto.
    rewrite Forall_forall in *. intros y Iy lx ly Hx Hy. specialize (K y Iy). unfold child_less in K.
    rewrite (leaf_name _ _ Hx), (leaf_name _ _ Hy) in K. exact K.
  - destruct (t_children T a) as [|x l] eqn:Ec; [constructor|]. exfalso. destruct HT as (_ & _ & _ & H4 & _ & _ & H7).
    assert (K : In x (t_children T a)) by (rewrite Ec; left; reflexivity). apply H7 in K as (K1 & K2 & <-). apply I, H4; auto.
Qed.
Print Assumptions C38_account_tree.
Definition ex_names := [B "Expenses:Food:Out"; B "Assets:Bank"; B "Assets:A"; B "A:Z"].
Definition ex_tree := resolve_accounts 30 ex_names (base_accounts ex_names)
  (rev (with_parents (base_accounts ex_names) (base_accounts ex_names))) (with_parents (base_accounts ex_names) (base_accounts ex_names)).
Example C38_example : NoDup ex_names /\
  match ex_tree with
  | Ok (T, all) => with_children 30 (t_children T) root =
      map B ["Root"; "A"; "A:Z"; "Assets"; "Assets:A"; "Assets:Bank"; "Expenses"; "Expenses:Food"; "Expenses:Food:Out"; "Unbalanced"]%string
  | _ => False end.
Proof. split; [|vm_compute; reflexivity]. repeat (constructor; [cbn; intuition discriminate|]). constructor. Qed.

(** ** C68: an account is closed iff it or an account above it is *)
Theorem C68_closed : forall names known o1 o2, NoDup names ->
  Permutation known (base_accounts names) -> let all := with_parents known (base_accounts names) in
  Permutation o1 all -> Permutation o2 all ->
  exists N, forall fuel T, (N <= fuel)%nat -> resolve_accounts fuel names known o1 o2 = Ok (T, all) ->
    forall closed a, In a all ->
      (is_closed fuel T closed a = true <-> exists p, closed p = true /\ under (t_parent T) p a).
Proof.
  intros names known o1 o2 Nn Pk all P1 P2. exists (S (bound all)). intros fuel T Hf E closed a Ha.
  destruct (resolve_tree fuel names known o1 o2 Nn Pk P1 P2) as (T' & E' & HT & _). fold all in E', HT. assert (T' = T) by congruence. subst.
  apply (closed_under all T HT); [exact Ha|]. pose proof (msr_bound _ _ Ha). lia.
Qed.
Print Assumptions C68_closed.
Example C68_example : match ex_tree with
  | Ok (T, all) => let closed := eqb_bytes (B "Expenses") in
      is_closed 30 T closed (B "Expenses:Food:Out") = true /\ is_closed 30 T closed (B "Assets") = false
  | _ => False end.
Proof. vm_compute. auto. Qed.

(** ** C37 *)
Theorem C37_cumulative_totals : forall names known o1 o2, NoDup names ->
  Permutation known (base_accounts names) -> let all := with_parents known (base_accounts names) in
  Permutation o1 all -> Permutation o2 all ->
  exists N, forall fuel T, (N <= fuel)%nat -> resolve_accounts fuel names known o1 o2 = Ok (T, all) ->
  forall conv comm (sel : bytes -> list amount) account c, In account all ->
    (forall x, under (t_parent T) account x -> comm x = c /\ Forall (fun q => a_com q = c) (sel x)) ->
    exists totals cum, balance_report fuel conv comm T sel account = Ok (totals, cum) /\
      forall x, under (t_parent T) account x ->
        bget x totals = Some (mkAmount (zsum (map a_int (sel x))) c) /\
        exists l, NoDup l /\ (forall y, In y l <-> under (t_parent T) x y) /\
          bget x cum = Some (mkAmount (zsum (map a_int (flat_map sel l))) c).
Proof.
  intros names known o1 o2 Nn Pk all P1 P2. exists (S (bound all)). intros fuel T Hf E conv comm sel account c Ha H.
  destruct (resolve_tree fuel names known o1 o2 Nn Pk P1 P2) as (T' & E' & HT & _). fold all in E', HT. assert (T' = T) by congruence. subst.
  pose proof (fun x => reach_under all T HT fuel ltac:(lia) account x Ha) as R.
  destruct (report_spec all T conv c HT fuel comm sel account) as (t & cum & E1 & K); [lia|exact Ha|intros x I; apply H, R, I|intros x I; apply H, R, I|].
  exists t, cum. split; [exact E1|]. intros x Ux. apply R in Ux. destruct (K x Ux) as [K1 K2]. split; [exact K1|].
  exists (with_children fuel (t_children T) x). split; [apply (reach_nodup all T HT)|]. split; [|exact K2].
  intros y. apply (reach_under all T HT); [lia|]. apply (reach_in all T HT fuel account); auto.
Qed.
Print Assumptions C37_cumulative_totals.

(** the quantities posted to an account on the days selected by [P] *)
Definition on_days (P : Z -> bool) (L : ledger) (a : bytes) : list amount :=
  quantities L (filter (fun p => P (rp_date (heap L p))) (reg L a)).
Lemma quantities_perm L l l' : Permutation l l' -> Permutation (quantities L l) (quantities L l').
Proof. unfold quantities. apply Permutation_flat_map. Qed.
Lemma resolved_one_zero find comm conv L t x c : resolved find comm conv L t x -> (forall p, In p (x_posts x) -> comm (rp_acc (heap L p)) = c) ->
  (forall s q, In s (t_postings t) -> ps_quantity s = Some q -> a_com q = c) ->
  Forall (fun q => a_com q = c) (quantities L (x_posts x)) /\ zsum (map a_int (quantities L (x_posts x))) = 0.
Proof.
  intros R Hc Hq. assert (F : Forall (fun q => a_com q = c) (quantities L (x_posts x))).
  { destruct R as (_ & _ & _ & _ & R & K & _). rewrite Forall_forall. intros q Iq. unfold quantities in Iq. apply in_flat_map in Iq as (p & Ip & Iq).
    destruct (rp_qty (heap L p)) as [q'|] eqn:Q; [|destruct Iq]. destruct Iq as [->|[]].
    destruct (in_split _ _ Ip) as (p1 & p2 & Ep). assert (One : one_commodity comm L (x_posts x) c).
    { split; [rewrite Ep; destruct p1; discriminate|exact Hc]. }
    destruct (K c One) as (_ & _ & K3). rewrite Ep in R. apply Forall2_app_inv_r in R as (s1 & s2' & R1 & R2 & Es).
    inversion R2 as [|s p' s2 p2' Rs R3]; subst. destruct Rs as (_ & _ & _ & _ & (q' & Q' & W) & _).
    rewrite Q in Q'. injection Q' as <-. destruct (ps_quantity s) as [w|] eqn:Es'.
    - rewrite (W w eq_refl). apply (Hq s); [|exact Es']. rewrite Es. apply in_or_app. right. left. reflexivity.
    - assert (Len := R1); apply Forall2_length in Len; destruct (K3 s1 s s2 p1 p p2 Es Ep Len Es') as (sum & A1 & A2).
      rewrite Q in A2. injection A2 as ->. cbn. rewrite (add_all_same conv _ (zero_amount c)) in A1; [injection A1 as <-; reflexivity|].
      rewrite Forall_forall. intros w Iw. unfold written in Iw. apply in_flat_map in Iw as (s' & I1 & I2).
      destruct (ps_quantity s') as [w'|] eqn:Ew; [|destruct I2]. destruct I2 as [->|[]]. apply (Hq s'); [|exact Ew]. rewrite Es.
      apply in_app_or in I1 as [I1|I1]; apply in_or_app; [left; exact I1|right; right; exact I1]. }
  split; [exact F|]. destruct (x_posts x) as [|p0 ps0] eqn:Ex; [reflexivity|]. rewrite <- Ex in *.
  apply (C33_one_commodity find comm conv L t x c R); [|exact F]. split; [rewrite Ex; discriminate|exact Hc].
Qed.
Theorem C37_root_is_zero : forall names known o1 o2, NoDup names ->
  Permutation known (base_accounts names) -> let all := with_parents known (base_accounts names) in
  Permutation o1 all -> Permutation o2 all ->
  exists N, forall fuel T, (N <= fuel)%nat -> resolve_accounts fuel names known o1 o2 = Ok (T, all) ->
  forall find comm conv accounts chk ts L ws sorted c, NoDup accounts ->
    (forall n a, find n = Ok a -> In a all) -> (forall a, In a all -> comm a = c) ->
    (forall t s q, In t ts -> In s (t_postings t) -> ps_quantity s = Some q -> a_com q = c) ->
    load_transactions find comm conv accounts chk empty_ledger ts = Ok (L, ws, sorted) ->
    forall rconv P, exists totals cum, balance_report fuel rconv comm T (on_days P L) (B "Root") = Ok (totals, cum) /\
      bget (B "Root") cum = Some (mkAmount 0 c).
Proof.
  intros names known o1 o2 Nn Pk all P1 P2. exists (S (bound all)). intros fuel T Hf E find comm conv accounts chk ts L ws sorted c Na Hfind Hcomm Hq Hl rconv P.
  destruct (resolve_tree fuel names known o1 o2 Nn Pk P1 P2) as (T' & E' & HT & _). fold all in E', HT. assert (T' = T) by congruence. subst T'.
  destruct (C34_registers find comm conv accounts chk empty_ledger ts L ws sorted empty_ok Na Hl) as (Hok & xs & _ & R & Nd & Hreg).
  assert (Reg : forall a p, In p (reg L a) <-> In p (flat_map x_posts xs) /\ rp_acc (heap L p) = a).
  { intros a p. destruct (Hreg a) as [_ Pm]. cbn in Pm. split.
    - intros I. apply (Permutation_in _ (Permutation_sym Pm)) in I. unfold made_to in I. apply filter_In in I. rewrite eqb_bytes_iff in I. exact I.
    - intros I. apply (Permutation_in _ Pm). unfold made_to. apply filter_In. rewrite eqb_bytes_iff. exact I. }
  assert (Acc : forall p, In p (flat_map x_posts xs) -> In (rp_acc (heap L p)) all).
  { intros p I. apply in_flat_map in I as (x & Ix & Ip). clear - R Ix Ip Hfind. induction R as [|t y ts xs Ry R IH]; [destruct Ix|].
    destruct Ix as [->|Ix]; [|auto]. destruct Ry as (_ & _ & _ & _ & Ry & _). clear - Ry Ip Hfind. induction Ry as [|s q ss qs (_ & _ & Hs & _) Ry IH]; [destruct Ip|].
    destruct Ip as [->|Ip]; [|auto]. eapply Hfind; eauto. }
  assert (Zero : forall x, In x xs -> Forall (fun q => a_com q = c) (quantities L (x_posts x)) /\ zsum (map a_int (quantities L (x_posts x))) = 0 /\
            forall p, In p (x_posts x) -> rp_date (heap L p) = x_posted x).
  { intros x Ix. assert (Rx : exists t, In t ts /\ resolved find comm conv L t x).
    { clear - R Ix. induction R as [|t y ts xs Ry R IH]; [destruct Ix|]. destruct Ix as [->|Ix]; [exists t; split; [left; auto|auto]|].
      destruct (IH Ix) as (t' & I & K). exists t'. split; [right; auto|auto]. }
    destruct Rx as (t & It & Rx). destruct (resolved_one_zero _ _ _ _ _ _ c Rx) as [Z1 Z2].
    - intros p Ip. apply Hcomm, Acc. apply in_flat_map. eauto.
    - intros s q. apply Hq, It.
    - split; [exact Z1|]. split; [exact Z2|]. destruct Rx as (Dx & _ & _ & _ & Rx & _). intros p Ip. rewrite Dx. clear - Rx Ip.
      induction Rx as [|s q ss qs (K & _) Rx IH]; [destruct Ip|]. destruct Ip as [->|Ip]; auto. }
  assert (Ra : In root all) by apply HT.
  destruct (report_spec all T rconv c HT fuel comm (on_days P L) root) as (tot & cum & E1 & K); [lia|exact Ra| | |].
  { intros x I. apply Hcomm. eapply (reach_in all T HT); [exact Ra|exact I]. }
  { intros x I. rewrite Forall_forall. intros q Iq. unfold on_days, quantities in Iq. apply in_flat_map in Iq as (p & Ip & Iq).
    apply filter_In in Ip as [Ip _]. apply Reg in Ip as [Ip _]. apply in_flat_map in Ip as (y & Iy & Ip).
    destruct (Zero y Iy) as (F & _). rewrite Forall_forall in F. apply F. unfold quantities. apply in_flat_map. eauto. }
  exists tot, cum. split; [exact E1|]. assert (Ir : In root (with_children fuel (t_children T) root)) by (destruct fuel; [lia|left; reflexivity]).
  destruct (K root Ir) as [_ K2]. change (B "Root") with root. rewrite K2. f_equal. f_equal.
  set (Q := fun p => P (rp_date (heap L p))).
  assert (Perm : Permutation (flat_map (on_days P L) (with_children fuel (t_children T) root)) (quantities L (filter Q (flat_map x_posts xs)))).
  { transitivity (flat_map (on_days P L) all); [apply Permutation_flat_map, (reach_perm all T HT); lia|].
    replace (flat_map (on_days P L) all) with (quantities L (filter Q (flat_map (reg L) all))).
    - apply quantities_perm. apply NoDup_Permutation.
      + apply NoDup_filter, flat_map_nodup; [apply HT|intros a _; apply Hok|]. intros a b p _ _ I1 I2. apply Reg in I1 as [_ <-], I2 as [_ <-]. reflexivity.
      + apply NoDup_filter, Nd.
      + intros p. rewrite !filter_In, in_flat_map. split; intros [I J]; (split; [|exact J]).
        * destruct I as (a & _ & I). apply Reg in I. tauto.
        * exists (rp_acc (heap L p)). split; [apply Acc, I|apply Reg; auto].
    - clear. unfold on_days. induction all as [|a l IH]; [reflexivity|]. cbn [flat_map]. rewrite filter_app, quantities_app, IH. reflexivity. }
  rewrite (zsum_perm _ _ (Permutation_map a_int Perm)). clear - Zero. induction xs as [|x xs IH]; [reflexivity|]. cbn [flat_map].
  rewrite filter_app, quantities_app, map_app, zsum_app, IH by (intros; apply Zero; right; auto).
  destruct (Zero x (or_introl eq_refl)) as (_ & Z2 & D). assert (Hf : filter Q (x_posts x) = if P (x_posted x) then x_posts x else []).
  { destruct (P (x_posted x)) eqn:Px; [apply filter_all|apply filter_none]; intros p I; unfold Q; rewrite (D p I); exact Px. }
  rewrite Hf. destruct (P (x_posted x)); [rewrite Z2; reflexivity|reflexivity].
Qed.
Print Assumptions C37_root_is_zero.
Definition c37_ts : list transaction := [tr 20 [ps "Assets:Bank" (Some 700) None; ps "Expenses:Food:Out" None None]; tr 10 [ps "Assets:A" (Some 300) None; ps "A" (Some (-100)) None; ps "A:Z" None None]].
Example C37_example : match ex_tree with
  | Ok (T, all) => match load_transactions (fun n => if mem n all then Ok n else Fail) (fun _ => cad) ex_conv all true empty_ledger c37_ts with
      | Ok (L, [], _) => match balance_report 30 ex_conv (fun _ => cad) T (on_days (fun d => d <=? 20) L) root with
          | Ok (tot, cum) => map (fun a => option_map a_int (bget (B a) cum)) ["Root"; "Assets"; "Assets:A"; "A"; "Expenses"]%string = map Some [0; 1000; 300; -300; -700]
          | _ => False end
      | _ => False end
  | _ => False end.
Proof. vm_compute. reflexivity. Qed.

(** with several commodities: every account's own and cumulative total is in the account's own commodity, whatever the
    commodities of its postings and of the accounts below it *)
Lemma add_in_com conv a b r : add_in conv a b = Ok r -> a_com r = a_com a.
Proof.
  unfold add_in. destruct (if eq_commodity (a_com a) (a_com b) then Ok b else conv (a_com a) b (a_com b)) as [b'| |]; cbn [bind]; try discriminate.
  destruct (adjusted_to b' a); cbn [bind]; try discriminate. intros [= <-]. reflexivity.
Qed.
Lemma sum_in_com conv l : forall a r, sum_in conv a l = Ok r -> a_com r = a_com a.
Proof.
  induction l as [|b l IH]; intros a r H; cbn [sum_in] in H; [injection H as <-; reflexivity|].
  destruct (add_in conv a b) as [a'| |] eqn:E; cbn [bind] in H; try discriminate. rewrite (IH _ _ H). exact (add_in_com _ _ _ _ E).
Qed.
Definition own_commodity (comm : bytes -> commodity) (m : balances) : Prop := forall x b, bget x m = Some b -> a_com b = comm x.
Lemma bset_own comm a b m : own_commodity comm m -> a_com b = comm a -> own_commodity comm (bset a b m).
Proof.
  intros H Hb x v. destruct (eqb_bytes x a) eqn:E.
  - apply eqb_bytes_iff in E. subst x. rewrite bget_set_same. intros [= <-]. exact Hb.
  - apply eqb_bytes_no in E. rewrite bget_set_other by congruence. apply H.
Qed.
Theorem C37_own_commodity : forall fuel conv comm T sel account totals cum,
  balance_report fuel conv comm T sel account = Ok (totals, cum) ->
  forall x b, bget x totals = Some b \/ bget x cum = Some b -> a_com b = comm x.
Proof.
  intros fuel conv comm T sel account totals cum H. unfold balance_report in H.
  destruct (own_totals conv comm sel (with_children fuel (t_children T) account) []) as [t| |] eqn:E1; cbn [bind] in H; try discriminate.
  destruct (cumulate conv T (first_with_children fuel (t_children T) account) t) as [c| |] eqn:E2; cbn [bind] in H; try discriminate.
  injection H as <- <-.
  assert (H1 : own_commodity comm t).
  { clear E2. revert E1. assert (H0 : own_commodity comm []) by (intros x b Hx; discriminate). revert H0. generalize (@nil (bytes * amount)).
    induction (with_children fuel (t_children T) account) as [|a l IH]; intros m Hm E; cbn [own_totals] in E; [injection E as <-; exact Hm|].
    destruct (sum_in conv (zero_amount (comm a)) (sel a)) as [s| |] eqn:Es; cbn [bind] in E; try discriminate.
    apply (IH _ (bset_own comm a s m Hm (sum_in_com _ _ _ _ Es)) E). }
  assert (H2 : own_commodity comm c).
  { clear E1. revert H1 E2. generalize t. induction (first_with_children fuel (t_children T) account) as [|a l IH]; intros m Hm E; cbn [cumulate] in E; [injection E as <-; exact Hm|].
    destruct (t_parent T a) as [p|]; [|apply (IH m Hm E)]. destruct (bget p m) as [cp|] eqn:Ep; [|apply (IH m Hm E)].
    destruct (bget a m) as [ca|]; [|discriminate]. destruct (add_in conv cp ca) as [s| |] eqn:Es; cbn [bind] in E; try discriminate.
    apply (IH (bset p s m)); [|exact E]. apply bset_own; [exact Hm|]. rewrite (add_in_com _ _ _ _ Es). apply Hm. exact Ep. }
  intros x b [Hx|Hx]; [apply (H1 x b Hx)|apply (H2 x b Hx)].
Qed.
Print Assumptions C37_own_commodity.
(** dollars below an account kept in euros: the parent's total is in euros *)
Example C37_own_commodity_example : let eur := mkCommodity 1 (B "EUR") 2 in let usd := mkCommodity 2 (B "USD") 2 in
  let T := mkTree (fun a => if eqb_bytes a (B "A:B") then Some (B "A") else None) (fun a => if eqb_bytes a (B "A") then [B "A:B"] else []) in
  match balance_report 5 (fun target am cur => Ok (mkAmount (2 * a_int am) target)) (fun a => if eqb_bytes a (B "A") then eur else usd) T
          (fun a => if eqb_bytes a (B "A:B") then [mkAmount 100 usd] else []) (B "A") with
  | Ok (_, cum) => bget (B "A") cum = Some (mkAmount 200 eur) /\ bget (B "A:B") cum = Some (mkAmount 100 usd)
  | _ => False end.
Proof. vm_compute. auto. Qed.
