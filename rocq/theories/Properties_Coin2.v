(** C124: coin register, from the files to the text. *)
From Coq Require Import Permutation Sorted.
From Verif Require Import Base M_Amount M_Convert M_Date M_Names M_Tags M_Parser M_Ledger M_Report M_Database M_Output M_Coin
  S_Decimal S_Amount S_Names S_Books S_Report S_Database S_Output S_Coin L_Dec L_Sort L_Amount L_Tree L_Tree2 L_Balance L_Registers L_Resolve L_Load L_Recheck L_Database L_Database2 L_Output L_Output2 L_Entries L_Report L_Coin L_Coin2
  Properties_Parser Properties_Names Properties_Ledger Properties_Tree Properties_Report Properties_Database Properties_Output Properties_Coin.
Local Open Scope Z_scope.

Lemma concat_map {A C} (f : A -> list C) l : concat (map f l) = flat_map f l.
Proof. symmetry. apply flat_map_concat_map. Qed.
Lemma filter_flat {A C} (f : A -> list C) (P : C -> bool) l : filter P (flat_map f l) = flat_map (fun x => filter P (f x)) l.
Proof. induction l as [|x l IH]; [reflexivity|]. cbn [flat_map]. rewrite filter_app, IH. reflexivity. Qed.
Lemma flat_map_ext_in' {A C} (f g : A -> list C) l : (forall x, In x l -> f x = g x) -> flat_map f l = flat_map g l.
Proof. induction l as [|x l IH]; intros H; [reflexivity|]. cbn [flat_map]. rewrite (H x), IH by (intros; try apply H; cbn [In]; auto). reflexivity. Qed.
Lemma sorted_in {A} (R R' : A -> A -> Prop) l : (forall x y, In x l -> In y l -> R x y -> R' x y) -> StronglySorted R l -> StronglySorted R' l.
Proof.
  intros H S. induction S as [|x l S IH F]; constructor; [apply IH; intros; apply H; cbn [In]; auto|]. rewrite Forall_forall in *. intros y I. apply H; cbn [In]; auto.
Qed.
Lemma sorted_map {A C} (f : A -> C) (R : C -> C -> Prop) l : StronglySorted (fun x y => R (f x) (f y)) l -> StronglySorted R (map f l).
Proof. induction 1 as [|x l S IH F]; cbn [map]; constructor; [exact IH|]. apply Forall_map. exact F. Qed.
Lemma sorted_filter {A} (R : A -> A -> Prop) P l : StronglySorted R l -> StronglySorted R (filter P l).
Proof.
  induction 1 as [|x l S IH F]; cbn [filter]; [constructor|]. destruct (P x); [constructor|]; try exact IH. rewrite Forall_forall in *. intros y I. apply filter_In in I as [I _]. auto.
Qed.
Lemma nth_map {A C} (f : A -> C) l i x : nth_error (map f l) i = Some x -> exists y, nth_error l i = Some y /\ x = f y.
Proof. revert i. induction l as [|y l IH]; intros [|i] E; try discriminate; cbn [map nth_error] in *; [injection E as <-; eauto|apply IH, E]. Qed.
Lemma map_nth {A C} (f : A -> C) l i x : nth_error l i = Some x -> nth_error (map f l) i = Some (f x).
Proof. intros E. rewrite nth_error_map, E. reflexivity. Qed.

Section Selection.
Context (find : bytes -> res bytes) (comm : bytes -> commodity) (conv : conversion) (rexm : bytes -> bytes -> bool) (L : ledger) (tx_of : nat -> rtx).
Context (ts : list transaction) (xs : list rtx).
Hypothesis HR : Forall2 (resolved find comm conv L) ts xs.
Hypothesis HN : NoDup (flat_map x_posts xs).
Hypothesis HX : forall x p, In x xs -> In p (x_posts x) -> tx_of p = x.
Hypothesis HQ : forall t, In t ts -> in_account_commodity find comm t.
Hypothesis HD : forall a, dated_version (dates L) (made_to L a xs) (reg L a).
Context (phi : nat -> row).
Hypothesis HP : map phi (flat_map x_posts xs) = rows_of ts.
Hypothesis HF : forall p, In p (flat_map x_posts xs) -> row_at find comm conv L ts xs p (phi p).
Lemma reg_known a p : In p (reg L a) -> In p (flat_map x_posts xs).
Proof. intros I. eapply Permutation_in in I; [|apply Permutation_sym, (dated_perm _ _ _ (HD a))]. unfold made_to in I. apply filter_In in I. apply I. Qed.
Lemma date_at p : In p (flat_map x_posts xs) -> dates L p = row_date (phi p) /\ x_posted (tx_of p) = row_date (phi p).
Proof.
  intros I. destruct (row_facts find comm conv L tx_of ts xs HX HQ p _ (HF p I)) as (x & s & -> & _ & _ & R & _ & _ & _ & (Rd & _) & _).
  split; [exact Rd|]. destruct R as [R _]. exact R.
Qed.
Lemma selection_ok fuel T begin end_ tag payee (recurse : bool) acc : (recurse = true -> forall r, payee <> B "!" ++ r) ->
  let accs := if recurse then with_children fuel (t_children T) acc else [acc] in
  let ps := register_selection fuel rexm L tx_of T begin end_ tag payee recurse acc in
  let shown := map phi ps in
  (forall p, In p ps -> In p (flat_map x_posts xs)) /\ StronglySorted (fun r r' => row_date r <= row_date r') shown /\
  (forall d, filter (fun r => row_date r =? d) shown =
     flat_map (fun x => filter (fun r => (row_date r =? d) && row_chosen rexm begin end_ tag payee find x r) (rows_of ts)) accs) /\
  (forall p, In p ps -> exists x, In x accs /\ row_chosen rexm begin end_ tag payee find x (phi p) = true).
Proof.
  intros Hp accs ps shown. set (sel := selected rexm (dates L) (posting_info L tx_of) begin end_ tag payee).
  set (ps0 := flat_map (fun a => filter sel (reg L a)) accs).
  assert (E0 : concat (trim_each rexm (dates L) (posting_info L tx_of) begin end_ tag payee (map (reg L) accs)) = ps0).
  { rewrite C69_selection_partial.
    - rewrite map_map, concat_map. reflexivity.
    - apply Forall_forall. intros l I. apply in_map_iff in I as (a & <- & _). apply HD.
    - intros r Er. unfold accs. destruct recurse; [exfalso; eapply Hp; [reflexivity|exact Er]|cbn [map List.length]; lia]. }
  assert (K0 : forall p, In p ps0 -> In p (flat_map x_posts xs)).
  { intros p I. apply in_flat_map in I as (a & _ & I). apply filter_In in I as [I _]. eapply reg_known, I. }
  assert (W : weak_order (fun p q => x_posted (tx_of p) <? x_posted (tx_of q))) by (split; intros; lia).
  assert (H : Permutation ps0 ps /\ StronglySorted (fun p q => x_posted (tx_of p) <= x_posted (tx_of q)) ps /\ forall d, filter (fun p => x_posted (tx_of p) =? d) ps = filter (fun p => x_posted (tx_of p) =? d) ps0).
  { unfold ps, register_selection. fold accs. rewrite E0. destruct recurse.
    - split; [apply stable_sort_perm|]. split.
      + assert (S := stable_sort_sorted _ ps0 W). eapply sorted_in; [|exact S]. cbv beta. intros x y _ _ E. lia.
      + intros d. apply stable_sort_stable. intros x y _ _ Hx Hy. cbv beta in *. lia.
    - split; [reflexivity|]. split; [|reflexivity]. unfold ps0, accs. cbn [flat_map]. rewrite app_nil_r. apply sorted_filter. eapply sorted_in; [|apply HD].
      intros x y Ix Iy E. apply reg_known in Ix, Iy. rewrite (proj2 (date_at x Ix)), (proj2 (date_at y Iy)), <- (proj1 (date_at x Ix)), <- (proj1 (date_at y Iy)). exact E. }
  destruct H as (P & S & D).
  assert (K : forall p, In p ps -> In p (flat_map x_posts xs)) by (intros p I; apply K0; eapply Permutation_in; [apply Permutation_sym, P|exact I]).
  split; [exact K|]. split; [|split].
  - apply sorted_map. eapply sorted_in; [|exact S]. cbv beta. intros x y Ix Iy E. rewrite (proj2 (date_at x (K x Ix))), (proj2 (date_at y (K y Iy))) in E. exact E.
  - intros d. unfold shown. rewrite filter_map_comm.
    rewrite (filter_ext_in _ (fun p => x_posted (tx_of p) =? d) ps) by (intros p I; rewrite (proj2 (date_at p (K p I))); reflexivity).
    rewrite D. unfold ps0. rewrite filter_flat, map_flat_map. apply flat_map_ext_in'. intros a _.
    rewrite <- HP, filter_map_comm. f_equal. rewrite filter_filter.
    transitivity (filter sel (of_day (dates L) d (made_to L a xs))).
    + destruct (HD a) as [_ Hd]. rewrite <- (Hd d). unfold of_day. rewrite filter_filter. apply filter_ext_in. intros p I. apply reg_known in I. rewrite (proj2 (date_at p I)), (proj1 (date_at p I)). apply andb_comm.
    + unfold of_day, made_to. rewrite !filter_filter. apply filter_ext_in. intros p I. rewrite (chosen_at find comm conv rexm L tx_of ts xs HX HQ _ _ _ _ _ p _ (HF p I)), (proj1 (date_at p I)).
      fold sel. destruct (eqb_bytes _ a), (row_date (phi p) =? d), (sel p); reflexivity.
  - intros p I. eapply Permutation_in in I; [|apply Permutation_sym, P]. apply in_flat_map in I as (a & Ia & I). apply filter_In in I as [I Is]. exists a. split; [exact Ia|].
    rewrite (chosen_at find comm conv rexm L tx_of ts xs HX HQ _ _ _ _ _ p _ (HF p (reg_known _ _ I))). fold sel. rewrite Is.
    eapply Permutation_in in I; [|apply Permutation_sym, (dated_perm _ _ _ (HD a))]. unfold made_to in I. apply filter_In in I as [_ I]. exact I.
Qed.
End Selection.

Lemma register_from : forall limit w files compile rexm fuel comm b es, load_from limit w files compile fuel comm b ->
  all_entries w [] files es ->
  forall tx_of, (forall x p, In x (b_txs b) -> In p (x_posts x) -> tx_of p = x) ->
  (forall t, In t (map snd (ev_txs es)) -> in_account_commodity (must_find_account compile (b_names b)) comm t) ->
  exists N, forall o fuel' pattern acc begin end_ tag payee (recurse : bool) size notes com, (N <= fuel')%nat ->
    must_find_account compile (b_names b) pattern = Ok acc -> 0 <= size ->
    (* -p with ! for several accounts: C69_selection_refuted *)
    (recurse = true -> forall r, payee <> B "!" ++ r) ->
    let parent := t_parent (b_tree b) in
    let listed x := if recurse then under parent acc x else x = acc in
    (forall x, listed x -> comm x = com) ->
    let find := must_find_account compile (b_names b) in
    let rows := rows_of (map snd (ev_txs es)) in
    let chosen := row_chosen rexm begin end_ tag payee find in
    (* no transaction with a single posting is listed: C124_single_posting_refuted *)
    (forall x r, In r rows -> chosen x r = true -> listed x -> (2 <= List.length (t_postings (fst r)))%nat) ->
    exists accs shown, NoDup accs /\ (forall x, In x accs <-> listed x) /\
    (forall x y, In x accs -> In y accs -> under parent x y -> x <> y -> comes_before accs x y) /\
    StronglySorted (fun r r' => row_date r <= row_date r') shown /\
    (forall d, filter (fun r => row_date r =? d) shown = flat_map (fun x => filter (fun r => (row_date r =? d) && chosen x r) rows) accs) /\
    let total i := zsum (map row_value (firstn (S i) shown)) in
    let lw := if size =? 0 then 15 else size in
    (* numbers that can be printed *)
    ((forall i r, nth_error shown i = Some r -> printable (mkAmount (row_value r) com) /\ printable (mkAmount (total i) com)) ->
     exists lines, coin_register fuel' compile rexm o comm b tx_of pattern begin end_ tag payee recurse size notes
                     = Ok (acc ++ B " " ++ c_id com ++ [chr 10] ++ register_text lines) /\
       List.length lines = List.length shown /\
       (forall i r, nth_error shown i = Some r -> exists line, nth_error lines i = Some line /\
          file_line find com (commodity_id (b_db b)) recurse acc lw notes r (total i) line) /\
       ((forall r s a, In r shown -> In s (t_postings (fst r)) -> find (ps_account s) = Ok a ->
           0 <= year_of (row_date r) <= 9999 /\ (rune_count (t_desc (fst r)) <= 50)%nat /\ fits lw acc a) ->
        aligned rune_count (map (fun l => removelast (fst l)) lines))).
Proof.
  intros limit w files compile rexm fuel comm b es Hload Hes tx_of Htx Hq.
  destruct (book_facts_from _ _ _ _ _ _ _ _ Hload Hes) as (o0 & xs & Ho & HT & _ & Hfind & Px & Rx & Nd & Hd & Hin & _). clear Hload.
  set (N := S (bound (b_names b))). exists N. intros o fuel' pattern acc begin end_ tag payee recurse size notes com Hf Hacc Hs Hpay parent listed Hcom find rows chosen Htwo.
  assert (Ia : In acc (b_names b)) by (eapply Hfind, Hacc).
  assert (HX : forall x p, In x xs -> In p (x_posts x) -> tx_of p = x) by (intros x p Ix; apply Htx; eapply Permutation_in; eassumption).
  destruct (rows_fun find comm (book_conv (b_prices b) o0) (b_ledger b) (map snd (ev_txs es)) xs Rx Nd) as (phi & HP & HF).
  destruct (selection_ok find comm (book_conv (b_prices b) o0) rexm (b_ledger b) tx_of (map snd (ev_txs es)) xs HX Hq Hd phi HP HF fuel' (b_tree b) begin end_ tag payee recurse acc Hpay) as (Kn & Sd & Dd & Ch).
  set (accs := if recurse then with_children fuel' (t_children (b_tree b)) acc else [acc]) in *.
  set (ps := register_selection fuel' rexm (b_ledger b) tx_of (b_tree b) begin end_ tag payee recurse acc) in *.
  assert (Mem : forall x, In x accs <-> listed x).
  { intros x. unfold accs, listed. destruct recurse; [apply (reach_under _ _ HT); [unfold N in Hf; lia|exact Ia]|]. split; [intros [<- |[]]; reflexivity|intros ->; left; reflexivity]. }
  exists accs, (map phi ps). split; [unfold accs; destruct recurse; [apply (reach_nodup _ _ HT)|constructor; [intros []|constructor]]|].
  split; [exact Mem|]. split.
  { unfold accs. destruct recurse; [|intros x y [<- |[]] [<- |[]] _ E; congruence]. intros x y Ix Iy U Ne. eapply (wc_before _ _ HT fuel'); [unfold N in Hf; lia|exact Ia|exact Ix|exact Iy|exact U|exact Ne]. }
  split; [exact Sd|]. split; [exact Dd|]. intros total lw Hpr.
  assert (Fact : forall p, In p ps -> exists x s, tx_of p = x /\ In x xs /\ In (fst (phi p)) (map snd (ev_txs es)) /\ resolved find comm (book_conv (b_prices b) o0) (b_ledger b) (fst (phi p)) x /\ In p (x_posts x) /\
    nth_error (x_posts x) (snd (phi p)) = Some p /\ posting_of (phi p) = Some s /\ resolves find (b_ledger b) (row_date (phi p)) s p /\ rp_qty (heap (b_ledger b) p) = Some (mkAmount (row_value (phi p)) com) /\ comm (rp_acc (heap (b_ledger b) p)) = com).
  { intros p I. destruct (Ch p I) as (y & Iy & Cy). destruct (row_facts find comm _ (b_ledger b) tx_of (map snd (ev_txs es)) xs HX Hq p _ (HF p (Kn p I))) as (x & s & F1 & F2 & F3 & F4 & F5 & F6 & F7 & F8 & F9).
    assert (Ey : comm (rp_acc (heap (b_ledger b) p)) = com).
    { apply Hcom, Mem. unfold row_chosen in Cy. rewrite F7 in Cy. apply andb_true_iff in Cy as [_ Cy]. unfold goes_to in Cy. destruct F8 as (_ & _ & F8 & _). rewrite F8 in Cy. apply eqb_bytes_iff in Cy. rewrite Cy. exact Iy. }
    exists x, s. rewrite Ey in F9. auto 12. }
  assert (Ecm : comm acc = com) by (apply Hcom; unfold listed; destruct recurse; [constructor|reflexivity]).
  set (qs := map (fun p => mkAmount (row_value (phi p)) com) ps).
  set (tot := map (fun i => mkAmount (total i) com) (seq 0 (List.length ps))).
  destruct (C121_register_listing (book_conv (b_prices b) o) comm (commodity_id (b_db b)) (b_ledger b) tx_of recurse size notes None acc ps qs tot Hs) as (lines & El & Ll & Hl & Al).
  { unfold qs. assert (G : forall l, (forall p, In p l -> In p ps) -> Forall2 (fun p q => rp_qty (heap (b_ledger b) p) = Some q /\ printable q /\ a_com q = comm (rp_acc (heap (b_ledger b) p)) /\ exists o0, first_other (x_posts (tx_of p)) p o0) l (map (fun p => mkAmount (row_value (phi p)) com) l)).
    { induction l as [|p l IH]; intros I; cbn [map]; constructor; [|apply IH; intros; apply I; right; assumption]. specialize (I p (or_introl eq_refl)).
      destruct (Fact p I) as (x & s & Ex & Ix & It & _ & Ip & _ & _ & _ & Eq & Ec). split; [exact Eq|]. split.
      - apply In_nth_error in I as (k & I). apply (Hpr k (phi p)). apply map_nth, I.
      - split; [cbn [a_com]; symmetry; exact Ec|]. eapply (two_other find comm (book_conv (b_prices b) o0) (b_ledger b) tx_of (map snd (ev_txs es)) xs Nd HX Hq); [apply HF, Kn, I|].
        destruct (Ch p I) as (y & Iy & Cy). apply (Htwo y); [unfold rows; rewrite <- HP; apply in_map, Kn, I|exact Cy|apply Mem, Iy]. }
    apply G. auto. }
  { unfold tot, qs. rewrite !map_length, seq_length. reflexivity. }
  { intros i t Et. unfold tot in Et. apply nth_map in Et as (j & Ej & ->).
    assert (Hj : (i < List.length ps)%nat) by (rewrite <- (seq_length (List.length ps) 0); apply nth_error_Some; rewrite Ej; discriminate).
    assert (j = i) by (pose proof (nth_error_nth (seq 0 (List.length ps)) i 0%nat Ej) as E; rewrite seq_nth in E by exact Hj; cbn in E; congruence). subst j. split.
    - rewrite Ecm. rewrite add_all_same.
      + unfold zero_amount. cbn [a_com a_int]. f_equal. f_equal. unfold total, qs. rewrite !firstn_map, !map_map. reflexivity.
      + apply Forall_forall. intros q I. unfold qs in I. rewrite firstn_map in I. apply in_map_iff in I as (p & <- & _). reflexivity.
    - destruct (nth_error ps i) as [p|] eqn:Ep; [|apply nth_error_None in Ep; lia]. apply (Hpr i (phi p)). apply map_nth, Ep. }
  exists lines. split.
  { unfold coin_register. rewrite Hacc. cbn [bind]. fold ps. rewrite El, Ecm. reflexivity. }
  split; [rewrite map_length; exact Ll|]. split.
  - intros i r Er. apply nth_map in Er as (p & Ep & ->).
    assert (Hi : (i < List.length ps)%nat) by (apply nth_error_Some; rewrite Ep; discriminate).
    assert (Et : nth_error tot i = Some (mkAmount (total i) com)).
    { unfold tot. apply (map_nth (fun i => mkAmount (total i) com)). rewrite (nth_error_nth' _ 0%nat) by (rewrite seq_length; exact Hi). rewrite seq_nth by exact Hi. reflexivity. }
    destruct (Hl i p _ Ep Et) as (line & El' & q & qty & r1 & l1 & r2 & l2 & tq & tt' & cd & ca & co & cq & ct & Fo & Eq & Rd & N1 & A1 & R1 & N2 & A2 & R2 & S1 & RS1 & S2 & RS2 & F1 & F2).
    exists line. split; [exact El'|]. pose proof (nth_error_In _ _ Ep) as Ip.
    destruct (Fact p Ip) as (x & s & Ex & Ix & It & R & Ipx & _ & Es & Rs & Ev & Ec). rewrite Ev in Eq. injection Eq as <-.
    destruct (other_at find comm (book_conv (b_prices b) o0) (b_ledger b) tx_of (map snd (ev_txs es)) xs Nd HX Hq p _ q (HF p (Kn p Ip)) Fo) as (so & Eso & Fso).
    destruct R as (Rp & _ & Rdesc & Rn & _). destruct Rs as (_ & _ & Rf & Rnp & _ & _ & Ras). rewrite Ex in *.
    rewrite Rp, Rn, Rnp, Ras in F2. rewrite Rp in F1. rewrite Rdesc in Rd.
    assert (Erv : row_value (phi p) = value_of (fst (phi p)) s) by (unfold row_value; rewrite Es; reflexivity). rewrite Erv in S1.
    exists s, so, (rp_acc (heap (b_ledger b) p)), (rp_acc (heap (b_ledger b) q)), r1, l1, r2, l2, tq, tt', cd, ca, co, cq, ct.
    repeat (split; [assumption|]). rewrite F2. destruct (ps_balance s); reflexivity.
  - intros Hal. apply Al. intros p Ip. destruct (Fact p Ip) as (x & s & Ex & Ix & It & R & Ipx & _ & Es & Rs & _). rewrite Ex.
    assert (I' : In (phi p) (map phi ps)) by (apply in_map, Ip). destruct Rs as (_ & _ & Rf & _).
    destruct (Hal (phi p) s _ I' (nth_error_In _ _ Es) Rf) as (Hy & Hru & Hfit). destruct R as (Rp & _ & Rdesc & _). rewrite Rp, Rdesc. split; [exact Hy|]. split; [exact Hru|]. split; [exact Hfit|].
    intros q Fo. rewrite <- Ex in Fo. destruct (other_at find comm (book_conv (b_prices b) o0) (b_ledger b) tx_of (map snd (ev_txs es)) xs Nd HX Hq p _ q (HF p (Kn p Ip)) Fo) as (so & Eso & Fso).
    apply (Hal (phi p) so _ I' (nth_error_In _ _ Eso) Fso).
Qed.
(** The register lists the selected postings of the account (with -r of the accounts below it) by date, those of a day in the
    order of the files (with -r account by account), each with the account of the first other posting, its quantity as written
    or left over, and the sum of the quantities so far. The books may have several commodities, if every written amount is in
    the commodity of its account and the accounts listed have one. *)
Theorem C126_register : forall limit w DB compile rexm fuel comm b es, load_all limit w DB compile fuel comm b ->
  all_entries w [] (database_files w DB) es ->
  forall tx_of, (forall x p, In x (b_txs b) -> In p (x_posts x) -> tx_of p = x) ->
  (forall t, In t (map snd (ev_txs es)) -> in_account_commodity (must_find_account compile (b_names b)) comm t) ->
  exists N, forall o fuel' pattern acc begin end_ tag payee (recurse : bool) size notes com, (N <= fuel')%nat ->
    must_find_account compile (b_names b) pattern = Ok acc -> 0 <= size ->
    (* -p with ! for several accounts: C69_selection_refuted *)
    (recurse = true -> forall r, payee <> B "!" ++ r) ->
    let parent := t_parent (b_tree b) in
    let listed x := if recurse then under parent acc x else x = acc in
    (forall x, listed x -> comm x = com) ->
    let find := must_find_account compile (b_names b) in
    let rows := rows_of (map snd (ev_txs es)) in
    let chosen := row_chosen rexm begin end_ tag payee find in
    (* no transaction with a single posting is listed: C124_single_posting_refuted *)
    (forall x r, In r rows -> chosen x r = true -> listed x -> (2 <= List.length (t_postings (fst r)))%nat) ->
    exists accs shown, NoDup accs /\ (forall x, In x accs <-> listed x) /\
    (forall x y, In x accs -> In y accs -> under parent x y -> x <> y -> comes_before accs x y) /\
    StronglySorted (fun r r' => row_date r <= row_date r') shown /\
    (forall d, filter (fun r => row_date r =? d) shown = flat_map (fun x => filter (fun r => (row_date r =? d) && chosen x r) rows) accs) /\
    let total i := zsum (map row_value (firstn (S i) shown)) in
    let lw := if size =? 0 then 15 else size in
    (* numbers that can be printed *)
    ((forall i r, nth_error shown i = Some r -> printable (mkAmount (row_value r) com) /\ printable (mkAmount (total i) com)) ->
     exists lines, coin_register fuel' compile rexm o comm b tx_of pattern begin end_ tag payee recurse size notes
                     = Ok (acc ++ B " " ++ c_id com ++ [chr 10] ++ register_text lines) /\
       List.length lines = List.length shown /\
       (forall i r, nth_error shown i = Some r -> exists line, nth_error lines i = Some line /\
          file_line find com (commodity_id (b_db b)) recurse acc lw notes r (total i) line) /\
       ((forall r s a, In r shown -> In s (t_postings (fst r)) -> find (ps_account s) = Ok a ->
           0 <= year_of (row_date r) <= 9999 /\ (rune_count (t_desc (fst r)) <= 50)%nat /\ fits lw acc a) ->
        aligned rune_count (map (fun l => removelast (fst l)) lines))).
Proof. intros limit w DB compile rexm fuel comm b es H. exact (register_from limit w (database_files w DB) compile rexm fuel comm b es (proj1 (load_all_from _ _ _ _ _ _ _) H)). Qed.
Print Assumptions C126_register.
(** In books with one commodity this holds for all accounts. *)
Theorem C124_register_from_files : forall limit w DB compile rexm fuel comm b es c, load_all limit w DB compile fuel comm b ->
  all_entries w [] (database_files w DB) es -> ev_comms es = [c] ->
  forall tx_of, (forall x p, In x (b_txs b) -> In p (x_posts x) -> tx_of p = x) ->
  exists N, forall o fuel' pattern acc begin end_ tag payee (recurse : bool) size notes, (N <= fuel')%nat ->
    must_find_account compile (b_names b) pattern = Ok acc -> 0 <= size ->
    (* -p with ! for several accounts: C69_selection_refuted *)
    (recurse = true -> forall r, payee <> B "!" ++ r) ->
    let parent := t_parent (b_tree b) in
    let com := mkCommodity 0 (pc_id c) (pc_dec c) in
    let find := must_find_account compile (b_names b) in
    let rows := rows_of (map snd (ev_txs es)) in
    let chosen := row_chosen rexm begin end_ tag payee find in
    (* no transaction with a single posting is listed: C124_single_posting_refuted *)
    (forall x r, In r rows -> chosen x r = true -> (if recurse then under parent acc x else x = acc) -> (2 <= List.length (t_postings (fst r)))%nat) ->
    exists accs shown, NoDup accs /\ (forall x, In x accs <-> if recurse then under parent acc x else x = acc) /\
    (forall x y, In x accs -> In y accs -> under parent x y -> x <> y -> comes_before accs x y) /\
    StronglySorted (fun r r' => row_date r <= row_date r') shown /\
    (forall d, filter (fun r => row_date r =? d) shown = flat_map (fun x => filter (fun r => (row_date r =? d) && chosen x r) rows) accs) /\
    let total i := zsum (map row_value (firstn (S i) shown)) in
    let lw := if size =? 0 then 15 else size in
    (* numbers that can be printed *)
    ((forall i r, nth_error shown i = Some r -> printable (mkAmount (row_value r) com) /\ printable (mkAmount (total i) com)) ->
     exists lines, coin_register fuel' compile rexm o comm b tx_of pattern begin end_ tag payee recurse size notes
                     = Ok (acc ++ B " " ++ pc_id c ++ [chr 10] ++ register_text lines) /\
       List.length lines = List.length shown /\
       (forall i r, nth_error shown i = Some r -> exists line, nth_error lines i = Some line /\ file_line find com (fun _ => pc_id c) recurse acc lw notes r (total i) line) /\
       ((forall r s a, In r shown -> In s (t_postings (fst r)) -> find (ps_account s) = Ok a ->
           0 <= year_of (row_date r) <= 9999 /\ (rune_count (t_desc (fst r)) <= 50)%nat /\ fits lw acc a) ->
        aligned rune_count (map (fun l => removelast (fst l)) lines))).
Proof.
  intros limit w DB compile rexm fuel comm b es c Hload Hes Hc tx_of Htx. destruct (one_facts _ _ _ _ _ _ _ _ _ Hload Hes Hc) as (Hcm & HT & Hfind & Hq).
  destruct (C126_register _ _ _ _ rexm _ _ _ _ Hload Hes tx_of Htx Hq) as (N & H). exists N.
  intros o fuel' pattern acc begin end_ tag payee recurse size notes Hf Hacc Hs Hpay parent com find rows chosen Htwo.
  assert (Hu : forall x, (if recurse then under parent acc x else x = acc) -> comm x = com).
  { intros x Hx. apply Hcm. destruct recurse; [apply (in_names _ _ acc x HT); [eapply Hfind, Hacc|exact Hx]|subst; eapply Hfind, Hacc]. }
  destruct (H o fuel' pattern acc begin end_ tag payee recurse size notes com Hf Hacc Hs Hpay Hu Htwo) as (accs & shown & K1 & K2 & K3 & K4 & K5 & K). exists accs, shown.
  split; [exact K1|]. split; [exact K2|]. split; [exact K3|]. split; [exact K4|]. split; [exact K5|]. intros total lw Hp. destruct (K Hp) as (lines & E & Ll & Hl & Al). exists lines.
  split; [exact E|]. split; [exact Ll|]. split; [|exact Al]. intros i r Er. destruct (Hl i r Er) as (line & En & s & other & a & ao & r1 & l1 & r2 & l2 & tq & t' & cd & ca & co & cq & ct & F).
  exists line. split; [exact En|]. exists s, other, a, ao, r1, l1, r2, l2, tq, t', cd, ca, co, cq, ct. rewrite (proj2 (Hcm a (Hfind (ps_account s) a ltac:(tauto)))) in F. exact F.
Qed.
Print Assumptions C124_register_from_files.
(** the database of C77, C123_hypotheses: all hypotheses hold for it *)
Definition xregister := coin_register 20 xcompile (fun p s => eqb_bytes p s) xo xcomm xbook xtx_of.
Definition reg_lines (lines : list (list string * string)) : bytes := register_text (map (fun l => (map B (fst l), B (snd l) ++ [chr 10])) lines).
Example C124_example :
  xregister (B "Assets:Bank") None None [] [] false 12 true = Ok (B "Assets:Bank CAD" ++ [chr 10] ++ reg_lines
    [(["2020/01/01"; "early"; "Expense:Food"; "-1.00"; "-1.00"], " CAD "); (["2020/01/02"; " late"; "Expense:Food"; "-2.50"; "-3.50"], " CAD ")]%string) /\
  xregister (B "Expenses") None None [] [] true 0 false = Ok (B "Expenses CAD" ++ [chr 10] ++ reg_lines
    [(["2020/01/01"; "early"; ":Food"; "Assets:Bank"; "1.00"; "1.00"], " CAD "); (["2020/01/02"; " late"; ":Food"; "Assets:Bank"; "2.50"; "3.50"], " CAD ")]%string) /\
  xregister (B "Assets:Bank") None None [] (B "!early") false 12 false = Ok (B "Assets:Bank CAD" ++ [chr 10] ++ reg_lines
    [(["2020/01/02"; "late"; "Expense:Food"; "-2.50"; "-2.50"], " CAD ")]%string).
Proof. split; [|split]; vm_compute; reflexivity. Qed.
(** the condition on listed transactions is met there: every one has two postings *)
Example C124_hypotheses : forallb (fun t => (2 <=? List.length (t_postings t))%nat) (map snd (d_txs xdb_db)) = true /\
  must_find_account xcompile (b_names xbook) (B "Assets:Bank") = Ok (B "Assets:Bank") /\ must_find_account xcompile (b_names xbook) (B "Expenses") = Ok (B "Expenses").
Proof. split; [|split]; vm_compute; reflexivity. Qed.

(** A transaction with one posting of zero is accepted, but listing it ends the program. *)
Definition zdb : world := small_world
  [(B "commodities.coin", nls ["commodity CAD"; "  format 1.00 CAD"]%string);
   (B "accounts.coin", nls ["account Assets:Bank"; "  commodity CAD"; ""; "account Expenses:Food"]%string);
   (B "transactions.coin", nls ["2020/01/02 checked"; "  Assets:Bank  0 CAD = 0 CAD"]%string)] [].
Definition zdb_db : db := match load_files_all 5 zdb [] with Some (Ok d) => d | _ => empty_db end.
Lemma zdb_loaded : load_files_all 5 zdb [] = Some (Ok zdb_db).
Proof. vm_compute. reflexivity. Qed.
Definition zorder : list bytes := base_accounts (map fst (d_accounts zdb_db)).
Definition ztree : tree := match resolve_accounts 5 (map fst (d_accounts zdb_db)) zorder xnames xnames with Ok (T, _) => T | _ => mkTree (fun _ => None) (fun _ => []) end.
Definition zbook : book := load_book xcompile xcomm zdb_db ztree xnames.
Theorem C124_single_posting_refuted : load_all 5 zdb [] xcompile 5 xcomm zbook /\ b_warned zbook = [] /\
  (forall x p, In x (b_txs zbook) -> In p (x_posts x) -> tx_in (b_txs zbook) p = x) /\
  forall fuel size notes, coin_register fuel xcompile xcompile xo xcomm zbook (tx_in (b_txs zbook)) (B "Assets:Bank") None None [] [] false size notes = Panic.
Proof.
  split; [|split; [vm_compute; reflexivity|split]].
  - apply (load_book_ok 5 zdb [] xcompile xcomm zdb_db 5 ztree xnames zorder); [exact zdb_loaded|vm_compute; reflexivity|reflexivity| | |vm_compute; reflexivity].
    + destruct (ok_pair (resolve_accounts 5 (map fst (d_accounts zdb_db)) zorder xnames xnames) xnames) as [T ET]; [vm_compute; reflexivity|]. unfold ztree. rewrite ET. reflexivity.
    + intros n I. unfold xnames in I. repeat (destruct I as [<-|I]; [vm_compute; reflexivity|]). destruct I.
  - apply tx_in_ok; [vm_compute; reflexivity|]. replace (map x_desc (b_txs zbook)) with [B "checked"] by (vm_compute; reflexivity). constructor; [intros []|constructor].
  - intros fuel size notes. unfold coin_register. replace (must_find_account xcompile (b_names zbook) (B "Assets:Bank")) with (Ok (B "Assets:Bank")) by (vm_compute; reflexivity). cbn [bind].
    replace (register_selection fuel xcompile (b_ledger zbook) (tx_in (b_txs zbook)) (b_tree zbook) None None [] [] false (B "Assets:Bank")) with [0%nat] by (vm_compute; reflexivity).
    unfold full_register, items. replace (other (tx_in (b_txs zbook) 0) 0) with (@None nat) by (vm_compute; reflexivity). reflexivity.
Qed.
Print Assumptions C124_single_posting_refuted.
