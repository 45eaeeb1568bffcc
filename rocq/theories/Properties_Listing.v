(** C93-C96: the tags, stats, accounts and commodities commands. *)
From Coq Require Import Sorted Permutation.
From Verif Require Import Base M_Amount M_Convert M_Regex M_Parser M_Names M_Tags M_Date M_Ledger M_Report M_Output M_Listing
  S_Amount S_Convert S_Names S_Books S_Listing L_Dec L_Amount L_Sort L_Names L_Tags L_Rules L_Listing L_Listing2 L_Listing3
  L_Resolve L_Load L_Report L_Convert Properties_Convert Properties_Ledger Properties_Report.
Local Open Scope Z_scope.

(** ** C93 *)
Theorem C93_tags : forall L xs vs rex fv fa order, visits L xs vs ->
  let shown k := match rex with None => True | Some m => m k = true end in
  NoDup order -> (forall k, In k order <-> shown k /\ exists v, tagged L xs k v) ->
  exists names vals,
    ascending names /\ (forall k, In k names <-> shown k /\ exists v, tagged L xs k v) /\
    (forall k, In k names -> ascending (vals k) /\ forall v, In v (vals k) <-> v <> [] /\ tagged L xs k v) /\
    tags_command rex fv fa vs order = Ok (flat_map (fun k => tag_row fv fa k (vals k) (firsts (uses L xs k))) names).
Proof.
  intros L xs vs rex fv fa order V shown N D.
  assert (Sh : forall k, shown k <-> ok_name rex k = true). { intros k. unfold shown, ok_name. destruct rex; intuition. }
  unfold tags_command. set (st := collect rex fa vs ([], [])).
  assert (R : forall k, shown k -> sget k (fst st) = firsts (flat_map (visit_vals k) vs)).
  { intros k Hk. apply Sh in Hk. destruct (collect_results rex fa k vs ([], [])) as (E & _). fold st in E. rewrite Hk in E. cbn [fst sget] in E.
    rewrite E. apply fold_firsts_nil. }
  destruct (clean_all_spec order (fst st) N) as (m & Em & K).
  { intros k I. apply D in I as (Hk & v & T). rewrite (R k Hk). split; [apply firsts_nodup|]. intros E.
    apply (visit_tagged L k v xs vs V) in T. apply firsts_in in T. rewrite E in T. destruct T. }
  rewrite Em. cbn [bind]. exists (sort_strings order), (fun k => sget k m).
  assert (NI : forall k, In k (sort_strings order) <-> In k order).
  { intros k. split; apply Permutation_in; [apply Permutation_sym|]; apply sort_strings_perm. }
  assert (Vk : forall k, In k order -> ascending (sget k m) /\ forall v, In v (sget k m) <-> v <> [] /\ tagged L xs k v).
  { intros k I. pose proof (proj1 (K k) I) as Ec. pose proof (proj1 (D k) I) as (Hk & w & T). rewrite (R k Hk) in Ec.
    destruct (clean_spec (firsts (flat_map (visit_vals k) vs))) as (r & Er & A & Ir).
    { apply firsts_nodup. } { intros E. apply (visit_tagged L k w xs vs V), firsts_in in T. rewrite E in T. destruct T. }
    assert (r = sget k m) by congruence. subst r. split; [exact A|]. intros v. rewrite Ir, firsts_in, (visit_tagged L k v xs vs V). reflexivity. }
  split; [apply nodup_ascending, N|]. split; [intros k; rewrite NI; apply D|]. split; [intros k I; apply Vk, NI, I|].
  f_equal. assert (G : forall l, (forall k, In k l -> In k order) ->
    flat_map (fun k => tag_lines fv fa k (sget k m) (sget k (snd st))) l = flat_map (fun k => tag_row fv fa k (sget k m) (firsts (uses L xs k))) l).
  { induction l as [|k l IH]; intros H; [reflexivity|]. cbn [flat_map]. rewrite IH by (intros k' I; apply H; right; exact I). f_equal.
    pose proof (H k (or_introl eq_refl)) as I. destruct (Vk k I) as (_ & Vi).
    rewrite tag_lines_row by (apply Forall_forall; intros v Iv; apply Vi in Iv; tauto).
    destruct fa eqn:Efa; [|reflexivity]. unfold tag_row. destruct (collect_results rex true k vs ([], [])) as (_ & E). fold st in E.
    apply D in I as (Hk & _). apply Sh in Hk. rewrite Hk in E. cbn [andb snd sget] in E. rewrite E, fold_firsts_nil, (visit_uses L k xs vs V). reflexivity. }
  apply G. intros k I. apply NI, I.
Qed.
Print Assumptions C93_tags.
(** the names and values listed are determined by these conditions, and the accounts are the ones used with the tag, once *)
Theorem C93_accounts : forall L xs k, NoDup (firsts (uses L xs k)) /\ forall a, In a (firsts (uses L xs k)) <-> used_with L xs k a.
Proof. intros L xs k. split; [apply firsts_nodup|]. intros a. rewrite firsts_in. apply uses_iff. Qed.
Print Assumptions C93_accounts.
Lemma ascending_unique l : forall l', ascending l -> ascending l' -> (forall x, In x l <-> In x l') -> l = l'.
Proof.
  intros l' A A' H. assert (N : forall l, ascending l -> NoDup l).
  { clear. induction 1 as [|a l A IH F]; constructor; [|exact IH]. intros I. pose proof (proj1 (Forall_forall _ _) F a I) as G. cbv beta in G. rewrite less_bytes_irrefl in G. discriminate. }
  assert (P : Permutation l l') by (apply NoDup_Permutation; auto).
  assert (S : forall l, ascending l -> sorted_by less_bytes l).
  { clear. induction 1 as [|a l A IH F]; constructor; [exact IH|]. eapply Forall_impl; [|exact F]. intros b E. cbv beta in E.
    destruct (less_bytes b a) eqn:E'; [|reflexivity]. pose proof (less_bytes_trans a b a E E') as Q. rewrite less_bytes_irrefl in Q. discriminate. }
  pose proof (sort_strings_unique _ _ P) as E. unfold sort_strings in E. rewrite !stable_sort_id in E by (apply S; assumption). exact E.
Qed.
Theorem C93_iteration_order : forall L xs vs vs' rex fv fa order order', visits L xs vs -> visits L xs vs' ->
  (let shown k := match rex with None => True | Some m => m k = true end in
   NoDup order /\ NoDup order' /\ forall k, (In k order <-> shown k /\ exists v, tagged L xs k v) /\ (In k order' <-> shown k /\ exists v, tagged L xs k v)) ->
  tags_command rex fv fa vs order = tags_command rex fv fa vs' order'.
Proof.
  intros L xs vs vs' rex fv fa order order' V V' (N & N' & D).
  destruct (C93_tags L xs vs rex fv fa order V N (fun k => proj1 (D k))) as (ns & vals & A & I & Hv & ->).
  destruct (C93_tags L xs vs' rex fv fa order' V' N' (fun k => proj2 (D k))) as (ns' & vals' & A' & I' & Hv' & ->).
  assert (E : ns = ns') by (apply ascending_unique; [exact A|exact A'|intros x; rewrite I, I'; reflexivity]). subst ns'. f_equal.
  assert (G : forall l, (forall k, In k l -> In k ns) -> flat_map (fun k => tag_row fv fa k (vals k) (firsts (uses L xs k))) l = flat_map (fun k => tag_row fv fa k (vals' k) (firsts (uses L xs k))) l).
  { induction l as [|k l IH]; intros H; [reflexivity|]. cbn [flat_map]. rewrite IH by (intros k' Ik; apply H; right; exact Ik).
    pose proof (H k (or_introl eq_refl)) as Ik. destruct (Hv k Ik) as (B1 & B2), (Hv' k Ik) as (B1' & B2').
    rewrite (ascending_unique (vals k) (vals' k)); [reflexivity|exact B1|exact B1'|intros v; rewrite B2, B2'; reflexivity]. }
  apply G. auto.
Qed.
Print Assumptions C93_iteration_order.
(** the map the command really builds has exactly these names *)
Theorem C93_names : forall L xs vs rex fa, visits L xs vs -> let m := map fst (fst (collect rex fa vs ([], []))) in
  NoDup m /\ forall k, In k m <-> (match rex with None => True | Some r => r k = true end) /\ exists v, tagged L xs k v.
Proof.
  intros L xs vs rex fa V m. destruct (collect_keys_all rex fa vs ([], [])) as (N & K); [constructor|]. split; [exact N|]. intros k. unfold m. rewrite K.
  cbn [fst map In]. assert (Sh : ok_name rex k = true <-> match rex with None => True | Some r => r k = true end) by (unfold ok_name; destruct rex; intuition).
  rewrite Sh. split.
  - intros [[]|(H1 & v & Iv & H2)]. split; [exact H1|]. destruct H2 as [H2|(tp & It & H2)]; apply in_fst_vals in H2 as (w & Iw); exists w; apply (visit_tagged L k w xs vs V); apply in_flat_map; exists v; (split; [exact Iv|]); unfold visit_vals; apply in_app_iff.
    + right. apply vals_in_iff, Iw.
    + left. apply in_flat_map. exists tp. split; [exact It|]. apply vals_in_iff, Iw.
  - intros (H1 & w & T). right. split; [exact H1|]. apply (visit_tagged L k w xs vs V) in T. apply in_flat_map in T as (v & Iv & Iw). exists v. split; [exact Iv|].
    unfold visit_vals in Iw. apply in_app_iff in Iw as [Iw|Iw].
    + right. apply in_flat_map in Iw as (tp & It & Iw). exists tp. split; [exact It|]. apply in_fst_vals. exists w. apply vals_in_iff, Iw.
    + left. apply in_fst_vals. exists w. apply vals_in_iff, Iw.
Qed.
Print Assumptions C93_names.
Definition l_ts : list transaction :=
  [mkTransaction 10 [] (B "x") [B "#trip: rome"] [mkPosting (B "A") (Some (mkAmount 5 cad)) None [B "#pet"]; mkPosting (B "B") None None []] 1;
   mkTransaction 12 [] (B "y") [B "#pet"] [mkPosting (B "A") (Some (mkAmount 5 cad)) None [B "#trip: paris"]; mkPosting (B "A") None None []] 5].
Definition l_load := load_transactions ex_find ex_comm ex_conv ex_accounts true empty_ledger l_ts.
Example C93_example : match l_load with Ok (L, _, xs) =>
    let vs := map (fun x => mkVisit (tx_tags x) (map (fun p => (post_tags L p, rp_acc (heap L p))) (x_posts x))) xs in
    tags_command None true true vs [B "trip"; B "pet"] =
      Ok (B "pet" ++ [nl] ++ chr 9 :: B "A" ++ [nl] ++ B "trip: ""paris"", ""rome""" ++ [nl] ++ chr 9 :: B "A" ++ [nl] ++ chr 9 :: B "B" ++ [nl]) | _ => False end.
Proof. vm_compute. reflexivity. Qed.

(** ** C94 *)
Lemma sorted_by_date L xs : in_ledger_order L xs -> StronglySorted (fun x y => x_posted x <= x_posted y) xs.
Proof. induction 1 as [|x l S IH F]; constructor; [exact IH|]. eapply Forall_impl; [|exact F]. cbv beta. intros y [H|(H & _)]; lia. Qed.
Lemma filter_sorted {A} (R : A -> A -> Prop) (f : A -> bool) l : StronglySorted R l -> StronglySorted R (filter f l).
Proof. induction 1 as [|x l S IH F]; cbn [filter]; [constructor|]. destruct (f x); [constructor; [exact IH|]|exact IH]. apply Forall_forall. intros y I. apply filter_In in I as (I & _). exact (proj1 (Forall_forall _ _) F y I). Qed.
(** the transactions the command looks at *)
Theorem C94_window : forall find comm conv accounts chk ts L ws xs b e, NoDup accounts ->
  load_transactions find comm conv accounts chk empty_ledger ts = Ok (L, ws, xs) ->
  trim no_tx x_posted xs b e =
    filter (fun x => match b with Some b => b <=? x_posted x | None => true end && match e with Some e => x_posted x <? e | None => true end) xs.
Proof.
  intros find comm conv accounts chk ts L ws xs b e Na H. destruct (C39_transaction_order _ _ _ _ _ _ _ _ _ _ empty_ok Na H) as (_ & _ & _ & S & _).
  apply C43_range, (sorted_by_date L), S.
Qed.
Print Assumptions C94_window.
(** -d reports exactly the pairs of transactions that look the same, each pair once, and nothing else *)
Theorem C94_duplicates : forall find comm conv accounts chk ts L ws xs b e fu fc n1 n2 n3 items, NoDup accounts ->
  load_transactions find comm conv accounts chk empty_ledger ts = Ok (L, ws, xs) ->
  stats_command L true fu fc b e n1 n2 n3 xs = Ok items ->
  let w := trim no_tx x_posted xs b e in let tx i := nth i w no_tx in
  exists P, (forall i j, P (i, j) = true <-> same_tx L (tx j) (tx i)) /\
    items = map (fun ij => Duplicate (tx (fst ij)) (tx (snd ij))) (filter P (pairs_before (List.length w))).
Proof.
  intros find comm conv accounts chk ts L ws xs b e fu fc n1 n2 n3 items Na H Hs w tx.
  assert (S : StronglySorted (fun x y => x_posted x <= x_posted y) w).
  { unfold w. rewrite (C94_window _ _ _ _ _ _ _ _ _ b e Na H). apply filter_sorted.
    destruct (C39_transaction_order _ _ _ _ _ _ _ _ _ _ empty_ok Na H) as (_ & _ & _ & S & _). apply (sorted_by_date L), S. }
  unfold stats_command in Hs. fold w in Hs. exists (fun ij => alike L (tx (snd ij)) (tx (fst ij))). split; [intros i j; apply alike_iff|].
  rewrite (dupes_loop_spec L w [] [] items Hs); [|auto|intros d d' []|exact S|intros o t []]. cbn [app].
  rewrite (dups_from_pos L w w []) by reflexivity. cbn [List.length].
  unfold pairs_before. exact (flat_map_pairs (fun ij => Duplicate (tx (fst ij)) (tx (snd ij))) (fun ij => alike L (tx (snd ij)) (tx (fst ij))) (seq 0 (List.length w))).
Qed.
Print Assumptions C94_duplicates.
Theorem C94_pairs : forall n i j, In (i, j) (pairs_before n) <-> (i < j < n)%nat.
Proof. exact in_pairs. Qed.
Print Assumptions C94_pairs.
(** the other checks *)
Theorem C94_checks : forall L fu fc b e n1 n2 n3 xs items, stats_command L false fu fc b e n1 n2 n3 xs = Ok items ->
  let w := trim no_tx x_posted xs b e in
  exists P, (forall t, P t = true <-> fc = true /\ bad_conversion L t) /\
    items = flat_map (fun t => (if P t then [BadConversion t] else []) ++
              flat_map (fun p => if fu && eqb_bytes (rp_acc (heap L p)) (B "Unbalanced") then [UnbalancedTx t] else []) (x_posts t)) w
            ++ [Counts n1 n2 n3 (List.length w)].
Proof.
  intros L fu fc b e n1 n2 n3 xs items H w. unfold stats_command in H. fold w in H. apply L_Entries.bind_ok in H as (l & E & H). injection H as <-.
  exists (fun t => fc && mis L t). split; [intros t; rewrite andb_true_iff, mis_iff; reflexivity|]. rewrite (checks_spec _ _ _ _ _ E). reflexivity.
Qed.
Print Assumptions C94_checks.
(** a loaded ledger never makes the command fail *)
Theorem C94_total : forall find comm conv accounts chk ts L ws xs b e fd fu fc n1 n2 n3, NoDup accounts ->
  load_transactions find comm conv accounts chk empty_ledger ts = Ok (L, ws, xs) ->
  (forall x p q, In x xs -> In p (x_posts x) -> rp_qty (heap L p) = Some q -> (c_dec (a_com q) <= 50)%nat) ->
  exists items, stats_command L fd fu fc b e n1 n2 n3 xs = Ok items.
Proof.
  intros find comm conv accounts chk ts L ws xs b e fd fu fc n1 n2 n3 Na H Hd.
  destruct (C33_loaded_transactions_balance _ _ _ _ _ _ _ _ _ _ empty_ok Na H) as (ys & P & R).
  assert (C : countable L (trim no_tx x_posted xs b e)).
  { rewrite (C94_window _ _ _ _ _ _ _ _ _ b e Na H). intros x p I Ip. apply filter_In in I as (I & _).
    assert (Iy : In x ys) by (eapply Permutation_in; [apply Permutation_sym, P|exact I]).
    assert (Q : exists q, rp_qty (heap L p) = Some q).
    { clear - R Iy Ip. induction R as [|t y ts ys Rt R IH]; [destruct Iy|]. destruct Iy as [-> |Iy]; [|auto].
      destruct Rt as (_ & _ & _ & _ & F & _). clear - F Ip. induction F as [|s p' ss ps (_ & _ & _ & _ & (q & Q & _) & _) F IH]; [destruct Ip|]. destruct Ip as [-> |Ip]; [eauto|auto]. }
    destruct Q as (q & Q). exists q. split; [exact Q|]. exact (Hd x p q I Ip Q). }
  unfold stats_command. destruct fd; [apply (dupes_total L _ C); auto; intros x []|].
  destruct (checks_total L fu fc _ C) as (l & ->). cbn [bind]. eauto.
Qed.
Print Assumptions C94_total.
Definition dup_ts : list transaction :=
  [mkTransaction 10 [] (B "x") [] [mkPosting (B "A") (Some (mkAmount 500 cad)) None []; mkPosting (B "U") (Some (mkAmount (-500) usd)) None []] 1;
   mkTransaction 10 [] (B "y") [] [mkPosting (B "A") (Some (mkAmount 500 usd)) None []; mkPosting (B "U") (Some (mkAmount (-500) cad)) None []] 5;
   mkTransaction 11 [] (B "z") [] [mkPosting (B "A") (Some (mkAmount 500 cad)) None []; mkPosting (B "Unbalanced") (Some (mkAmount (-500) cad)) None []] 9].
Definition dup_load := load_transactions ex_find ex_comm (fun _ a _ => Ok a) [B "A"; B "U"; B "Unbalanced"] false empty_ledger dup_ts.
Lemma dup_fact : match dup_load with Ok (L, ws, xs) =>
    match stats_command L true false false None None 0 0 0 xs with
    | Ok [Duplicate t2 t] => option_map (fun p => rp_qty (heap L p)) (nth_error (x_posts t2) 0) = Some (Some (mkAmount 500 cad)) /\
                             option_map (fun p => rp_qty (heap L p)) (nth_error (x_posts t) 0) = Some (Some (mkAmount 500 usd))
    | _ => False end | _ => False end.
Proof. vm_compute. auto. Qed.
(** transactions in different currencies are reported as duplicates *)
Theorem C94_commodity_refuted : exists ts L ws xs t2 t q2 q,
  load_transactions ex_find ex_comm (fun _ a _ => Ok a) [B "A"; B "U"; B "Unbalanced"] false empty_ledger ts = Ok (L, ws, xs) /\
  stats_command L true false false None None 0 0 0 xs = Ok [Duplicate t2 t] /\
  option_map (fun p => rp_qty (heap L p)) (nth_error (x_posts t2) 0) = Some (Some q2) /\
  option_map (fun p => rp_qty (heap L p)) (nth_error (x_posts t) 0) = Some (Some q) /\ a_com q2 <> a_com q.
Proof.
  exists dup_ts. pose proof dup_fact as F.
  destruct dup_load as [[[L ws] xs]| |] eqn:E; [|destruct F|destruct F].
  destruct (stats_command L true false false None None 0 0 0 xs) as [its| |] eqn:E2; [|destruct F|destruct F].
  destruct its as [|[t2 t| | |] [|]]; try destruct F.
  exists L, ws, xs, t2, t, (mkAmount 500 cad), (mkAmount 500 usd). split; [rewrite <- E; unfold dup_load; reflexivity|]. split; [exact E2|]. split; [assumption|]. split; [assumption|discriminate].
Qed.
Print Assumptions C94_commodity_refuted.
Example C94_example : match dup_load with Ok (L, _, xs) =>
    match stats_command L false true true None None 2 0 3 xs with
    | Ok [BadConversion a; BadConversion b; UnbalancedTx c; Counts 2 0 3 3] => (x_desc a, x_desc b, x_desc c) = (B "x", B "y", B "z")
    | _ => False end | _ => False end.
Proof. vm_compute. reflexivity. Qed.

(** ** C95 *)
Theorem C95_accounts : forall fc rex closed get order, NoDup order ->
  let shown n := match rex with None => True | Some m => m n = true end in
  exists names w, ascending names /\
    (forall n, In n names <-> In n order /\ shown n /\ (fc = true \/ closed n = false)) /\
    (forall n, In n order -> shown n -> (List.length n <= w)%nat) /\
    (w = O \/ exists n, In n order /\ shown n /\ List.length n = w) /\
    accounts_command fc rex closed get order =
      flat_map (fun n => n ++ repeat " "%char (w - rune_count n) ++ B " | " ++
                         ai_commodity (get n) ++ repeat " "%char (10 - rune_count (ai_commodity (get n))) ++ B " | " ++ ai_desc (get n) ++ [nl]) names.
Proof.
  intros fc rex closed get order N shown. unfold accounts_command, accounts_do.
  set (mt := fun a => match rex with None => true | Some m => m a end).
  assert (Sh : forall n, mt n = true <-> shown n) by (intros n; unfold mt, shown; destruct rex; intuition).
  set (step := fun (mx : nat) (a : bytes) => if mt a then (if (mx <? List.length a)%nat then List.length a else mx) else mx).
  assert (M : forall l m0, let w := fold_left step l m0 in (m0 <= w)%nat /\ (forall n, In n l -> shown n -> (List.length n <= w)%nat) /\
     (w = m0 \/ exists n, In n l /\ shown n /\ List.length n = w)).
  { induction l as [|a l IH]; intros m0; cbn [fold_left]; [split; [lia|]; split; [intros n []|auto]|].
    destruct (IH (step m0 a)) as (I1 & I2 & I3). cbv zeta in *. assert (Hs : (m0 <= step m0 a)%nat /\ (shown a -> (List.length a <= step m0 a)%nat) /\
      (step m0 a = m0 \/ (shown a /\ step m0 a = List.length a))).
    { unfold step. destruct (mt a) eqn:E; [|split; [lia|]; split; [intros Ha; apply Sh in Ha; congruence|auto]].
      apply Sh in E. destruct (m0 <? List.length a)%nat eqn:F; [apply Nat.ltb_lt in F|apply Nat.ltb_ge in F]; split; try lia; split; try lia; auto. }
    destruct Hs as (H1 & H2 & H3). split; [lia|]. split.
    - intros n [<-|I] Hn; [specialize (H2 Hn); lia|auto].
    - destruct I3 as [I3|(n & In_ & Hn & El)]; [|right; exists n; split; [right; exact In_|auto]].
      destruct H3 as [H3|(Ha & H3)]; [left; congruence|right; exists a; split; [left; reflexivity|]; split; [exact Ha|congruence]]. }
  destruct (M (sort_strings order) O) as (_ & M2 & M3). set (w := fold_left step (sort_strings order) O) in *.
  assert (NI : forall k, In k (sort_strings order) <-> In k order) by (intros k; split; apply Permutation_in; [apply Permutation_sym|]; apply sort_strings_perm).
  exists (filter (fun a => negb (negb fc && closed a) && mt a) (sort_strings order)), w.
  split; [apply filter_sorted, nodup_ascending, N|]. split.
  { intros n. rewrite filter_In, NI, andb_true_iff, Sh. destruct fc, (closed n); cbn; intuition; discriminate. }
  split; [intros n I; apply M2, NI, I|]. split. { destruct M3 as [M3|(n & I & Hn)]; [left; exact M3|right; exists n; split; [apply NI, I|exact Hn]]. }
  assert (G : forall l, flat_map (fun a => if negb fc && closed a then [] else if negb (mt a) then []
                     else padr w a ++ B " | " ++ padr 10 (ai_commodity (get a)) ++ B " | " ++ ai_desc (get a) ++ [nl]) l =
     flat_map (fun n => n ++ repeat " "%char (w - rune_count n) ++ B " | " ++
                         ai_commodity (get n) ++ repeat " "%char (10 - rune_count (ai_commodity (get n))) ++ B " | " ++ ai_desc (get n) ++ [nl])
              (filter (fun a => negb (negb fc && closed a) && mt a) l)).
  { intros l. induction l as [|a l IH]; [reflexivity|]. cbn [flat_map filter]. rewrite IH.
    destruct (negb fc && closed a); cbn [negb andb]; [reflexivity|]. destruct (mt a); cbn [negb flat_map]; [|reflexivity].
    unfold padr, rep. rewrite <- !app_assoc. reflexivity. }
  exact (G (sort_strings order)).
Qed.
Print Assumptions C95_accounts.
Example C95_example : accounts_command false None (fun a => eqb_bytes a (B "Old:Account")) (fun a => mkAinfo a (B "CAD") (B "d"))
    [B "B"; B "Old:Account"; B "A:B"] =
  B "A:B         | CAD        | d" ++ [nl] ++ B "B           | CAD        | d" ++ [nl].
Proof. vm_compute. reflexivity. Qed.

(** ** C96 *)
Theorem C96_commodities : forall get order, NoDup order ->
  exists ids, ascending ids /\ (forall c, In c ids <-> In c order) /\
    commodities_command get order =
      flat_map (fun id => repeat " "%char (10 - rune_count id) ++ id ++ B " | " ++
        repeat " "%char (10 - rune_count (ci_symbol (get id))) ++ ci_symbol (get id) ++ B " | " ++
        (if negb (ci_nomarket (get id)) && negb (eqb_bytes (ci_symbol (get id)) []) then B "Q" else B " ") ++ B " | " ++ ci_name (get id) ++ [nl]) ids.
Proof.
  intros get order N. exists (sort_strings order). split; [apply nodup_ascending, N|].
  split; [intros k; split; apply Permutation_in; [apply Permutation_sym|]; apply sort_strings_perm|].
  unfold commodities_command. generalize (sort_strings order). intros l. induction l as [|id l IH]; [reflexivity|]. cbn [flat_map]. rewrite IH. f_equal.
  unfold commodity_line, padl, rep. rewrite <- !app_assoc. destruct (ci_symbol (get id)); cbn [eqb_bytes negb andb]; [rewrite andb_false_r; reflexivity|].
  destruct (ci_nomarket (get id)); reflexivity.
Qed.
Print Assumptions C96_commodities.
Lemma assoc_keys {A} (m : list (commodity * A)) c : In c (map fst m) <-> exists v, assoc c m = Some v.
Proof.
  induction m as [|[k v] m IH]; cbn [map fst In assoc]; [split; [intros []|intros (v & H); discriminate]|].
  destruct (eq_commodity c k) eqn:E; [apply eq_commodity_eq in E; subst; split; [eauto|auto]|]. apply eq_commodity_neq in E. rewrite <- IH. intuition. congruence.
Qed.
(** the prices of a commodity: every one of them, currency by currency, in each currency newest first *)
Theorem C96_price_list_partial : forall find ps db' ps' c order, resolve_prices find ps db' ps' ->
  Permutation order (map fst (prices_of db' c)) ->
  price_list db' c order = flat_map (pair_prices db' c) order /\
  (forall cur, sort_slice (fun x y => p_time y <? p_time x) (recorded find ps c cur) (pair_prices db' c cur)) /\
  (forall cur, ~ In cur order -> pair_prices db' c cur = []) /\
  ((List.length order <= 1)%nat -> forall order', Permutation order' (map fst (prices_of db' c)) -> price_list db' c order' = price_list db' c order).
Proof.
  intros find ps db' ps' c order R P. split; [reflexivity|]. split; [intros cur; exact (C14_lists_complete _ _ _ _ c cur R)|]. split.
  - intros cur N. unfold pair_prices. destruct (assoc cur (prices_of db' c)) eqn:E; [|reflexivity]. exfalso. apply N.
    eapply Permutation_in; [apply Permutation_sym, P|]. apply assoc_keys. eauto.
  - intros Hl order' P'. assert (P2 : Permutation order order') by (etransitivity; [exact P|apply Permutation_sym, P']).
    destruct order as [|o [|]]; cbn in Hl; try lia; [apply Permutation_nil in P2|apply Permutation_length_1_inv in P2]; subst; reflexivity.
Qed.
Print Assumptions C96_price_list_partial.
(** with prices in two currencies the list comes out in either order *)
Theorem C96_price_order_refuted : exists find ps db ps' c order order', resolve_prices find ps db ps' /\
  Permutation order (map fst (prices_of db c)) /\ Permutation order' (map fst (prices_of db c)) /\
  price_list db c order <> price_list db c order'.
Proof.
  pose (q1 := mkPrice (B "A") (B "B") (mkAmount 100 kb) 5). pose (q2 := mkPrice (B "A") (B "A") (mkAmount 120 ka) 9).
  exists exfind, [q1; q2], [(ka, [(kb, [q1]); (ka, [q2])])], [q1; q2], ka, [ka; kb], [kb; ka].
  split.
  - exists [(ka, [(kb, [q1]); (ka, [q2])])]. split; [vm_compute; reflexivity|]. split.
    + constructor; [|constructor]. split; [reflexivity|]. constructor; [|constructor; [|constructor]]; (split; [reflexivity|]); split; try reflexivity; repeat constructor.
    + split; [reflexivity|]. constructor; [constructor; [constructor|constructor]|]. constructor; [reflexivity|constructor].
  - split; [apply perm_swap|]. split; [reflexivity|]. vm_compute. discriminate.
Qed.
Print Assumptions C96_price_order_refuted.
(** -p : the newest price in each currency and how many there are *)
Theorem C96_price_stats : forall find ps db' ps' c order, resolve_prices find ps db' ps' ->
  (forall cur, In cur order <-> pair_prices db' c cur <> []) ->
  exists rows, price_stats (prices_of db' c) order = Ok rows /\ map (fun r => fst (fst r)) rows = order /\
    forall cur p n, In (cur, p, n) rows -> n = List.length (recorded find ps c cur) /\
      In p (recorded find ps c cur) /\ forall q, In q (recorded find ps c cur) -> p_time q <= p_time p.
Proof.
  intros find ps db' ps' c order R H. assert (H' : forall cur, In cur order -> pair_prices db' c cur <> []) by (intros cur I; apply H, I). clear H.
  induction order as [|cur order IH]; cbn [price_stats]; [exists []; repeat split; intros; contradiction|].
  destruct IH as (rows & E & M & K); [intros x I; apply H'; right; exact I|].
  pose proof (H' cur (or_introl eq_refl)) as Ne. pose proof (C14_lists_complete _ _ _ _ c cur R) as (Pm & _).
  pose proof (C14_first_price_is_latest find ps db' ps' c cur) as La. unfold pair_prices in Ne, Pm, La.
  destruct (assoc cur (prices_of db' c)) as [[|p l]|]; try contradiction. rewrite E. cbn [bind].
  exists ((cur, p, S (List.length l)) :: rows). split; [reflexivity|]. split; [cbn; rewrite M; reflexivity|].
  intros cur' p' n [Eq|I]; [|exact (K _ _ _ I)]. injection Eq as <- <- <-. split; [symmetry; exact (Permutation_length Pm)|].
  exact (La p l R eq_refl).
Qed.
Print Assumptions C96_price_stats.
Example C96_example : price_stats (prices_of [(ka, [(kb, [p2; p1])])] ka) [kb] = Ok [(kb, p2, 2%nat)] /\
  commodities_command (fun _ => mkCinfo (B "VTI") false (B "n")) [B "VTI"] = B "       VTI |        VTI | Q | n" ++ [nl].
Proof. split; vm_compute; reflexivity. Qed.
