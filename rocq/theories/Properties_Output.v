(** C120-C122: the text the commands balance and register print. *)
From Coq Require Import Permutation Sorted.
From Verif Require Import Base M_Amount M_Date M_Names M_Parser M_Ledger M_Report M_Json M_Output S_Decimal S_Amount S_Names S_Books S_Output
  L_Dec L_Names L_Amount L_Tree L_Tree2 L_Balance L_DateText L_Resolve L_Report L_Output L_Output2 L_Printed Properties_Tree Properties_Ledger.
Local Open Scope Z_scope.

(** the number of characters as fmt counts them *)
Theorem C120_characters : (forall l, Forall character l -> rune_count (utf8_text l) = List.length l) /\
  forall w s, (rune_count s <= w)%nat -> rune_count (padl w s) = w /\ rune_count (padr w s) = w.
Proof. split; [exact rune_count_text|]. intros w s H. split; [apply padl_count, H|apply padr_count, H]. Qed.
Print Assumptions C120_characters.

(** ** C120: the balance listing *)
(** the line of account [x] *)
Definition balance_row (totals cum : balances) (cid : bytes -> bytes) (x : bytes) (l : list bytes) : Prop :=
  exists own total t1 t2 c1 c2 c3, bget x totals = Some own /\ bget x cum = Some total /\ shows_amount t1 own /\ shows_amount t2 total /\
    right_set t1 c1 /\ right_set t2 c2 /\ left_set (cid x) c3 /\ l = [c1; c2 ++ B " " ++ c3; x].
Definition kept (fuel : nat) (T : tree) (level : Z) (zero : bool) (cum : balances) (x : bytes) : bool :=
  ((level =? 0) || (Z.of_nat (depth fuel T x) <=? level)) && (zero || match bget x cum with Some c => negb (is_zero c) | None => false end).
Lemma balance_lines_ok fuel T level zero cid totals cum w cw uw : forall accs,
  (forall x, In x accs -> exists own total, bget x totals = Some own /\ bget x cum = Some total /\
     (exists s, format_amount own (a_dec own) = Ok s /\ shows_amount s own /\ (rune_count s <= w)%nat) /\
     (exists s, format_amount total (a_dec total) = Ok s /\ shows_amount s total /\ (rune_count s <= cw)%nat)) ->
  exists lines, balance_lines fuel T level zero cid totals cum w cw uw accs = Ok (table_text lines) /\
    Forall2 (balance_row totals cum cid) (filter (kept fuel T level zero cum) accs) lines /\
    ((forall x, In x accs -> (rune_count (cid x) <= uw)%nat) -> forall l, In l lines -> map rune_count (firstn 2 l) = [w; cw + 1 + uw]%nat).
Proof.
  induction accs as [|x accs IH]; intros H; [exists []; repeat split; [constructor|intros _ l []]|].
  destruct IH as (lines & E & F & W); [intros y Iy; apply H; right; exact Iy|].
  destruct (H x (or_introl eq_refl)) as (own & total & B1 & B2 & (s1 & F1 & S1 & R1) & (s2 & F2 & S2 & R2)).
  assert (W' : (forall y, In y (x :: accs) -> (rune_count (cid y) <= uw)%nat) -> forall l, In l lines -> map rune_count (firstn 2 l) = [w; cw + 1 + uw]%nat)
    by (intros R; apply W; intros y Iy; apply R; right; exact Iy).
  cbn [balance_lines filter]. unfold kept at 1. rewrite B1, B2.
  assert (Lv : negb (level =? 0) && (level <? Z.of_nat (depth fuel T x)) = negb ((level =? 0) || (Z.of_nat (depth fuel T x) <=? level))).
  { destruct (level =? 0); cbn [negb andb orb]; [reflexivity|]. lia. }
  rewrite Lv. destruct ((level =? 0) || (Z.of_nat (depth fuel T x) <=? level)); cbn [negb andb]; [|exists lines; auto].
  destruct (zero || negb (is_zero total)); [|exists lines; auto].
  unfold balance_line. rewrite (star_amount_ok w own s1 F1), (star_amount_ok cw total s2 F2). cbn [bind]. rewrite E. cbn [bind].
  exists ([padl w s1; padl cw s2 ++ B " " ++ padr uw (cid x); x] :: lines). split; [|split].
  - f_equal. unfold table_text. cbn [flat_map]. f_equal. unfold table_line. cbn [join]. rewrite <- !app_assoc. reflexivity.
  - constructor; [|exact F]. exists own, total, s1, s2, (padl w s1), (padl cw s2), (padr uw (cid x)). repeat (split; [assumption|]).
    split; [apply padl_right|]. split; [apply padl_right|]. split; [apply padr_left|reflexivity].
  - intros R l [<- |I]; [|apply (W' R), I]. pose proof (R x (or_introl eq_refl)) as R3. cbn [firstn map]. rewrite (padl_count w s1 R1). f_equal. f_equal.
    change (padl cw s2 ++ B " " ++ padr uw (cid x)) with (padl cw s2 ++ " "%char :: padr uw (cid x)). rewrite rune_count_app, rune_count_ascii by reflexivity.
    rewrite (padl_count cw s2 R2), (padr_count uw (cid x) R3). lia.
Qed.
Theorem C120_balance_listing : forall names known o1 o2, NoDup names ->
  Permutation known (base_accounts names) -> let all := with_parents known (base_accounts names) in
  Permutation o1 all -> Permutation o2 all ->
  exists N, forall fuel T, (N <= fuel)%nat -> resolve_accounts fuel names known o1 o2 = Ok (T, all) ->
  forall conv comm cid (sel : bytes -> list amount) account level zero totals cum, In account all ->
    (* own and cumulative totals (C37), small enough to be printed *)
    balance_report fuel conv comm T sel account = Ok (totals, cum) ->
    (forall x b, bget x totals = Some b \/ bget x cum = Some b -> printable b) ->
    exists shown lines, balance_command fuel conv comm cid T sel level zero account = Ok (table_text lines) /\
      Forall2 (balance_row totals cum cid) shown lines /\
      (* if accounts name their commodity by its id, the first two of the three columns take the same number of characters
         on every line *)
      ((forall x, under (t_parent T) account x -> cid x = c_id (comm x)) -> aligned rune_count (map (firstn 2) lines)) /\
      (* the accounts shown *)
      NoDup shown /\
      (forall x, In x shown <-> under (t_parent T) account x /\
         (level = 0 \/ exists n, at_level (t_parent T) x n /\ Z.of_nat n <= level) /\
         (zero = true \/ exists c, bget x cum = Some c /\ a_int c <> 0)) /\
      (* an account comes before those below it *)
      (forall x y, In x shown -> In y shown -> under (t_parent T) x y -> x <> y -> comes_before shown x y).
Proof.
  intros names known o1 o2 Nn Pk all P1 P2. exists (S (S (bound all))). intros fuel T Hf E conv comm cid sel account level zero totals cum Ha Hr Hp.
  destruct (resolve_tree fuel names known o1 o2 Nn Pk P1 P2) as (T' & E' & HT & _). fold all in E', HT. assert (T' = T) by congruence. subst T'.
  pose proof (C37_own_commodity _ _ _ _ _ _ _ _ Hr) as Own.
  assert (Keys : (NoDup (map fst totals) /\ forall x, In x (map fst totals) <-> In x (with_children fuel (t_children T) account)) /\
                 (NoDup (map fst cum) /\ forall x, In x (map fst cum) <-> In x (with_children fuel (t_children T) account))).
  { unfold balance_report in Hr. destruct (own_totals conv comm sel (with_children fuel (t_children T) account) []) as [t| |] eqn:E1; cbn [bind] in Hr; try discriminate.
    destruct (cumulate conv T (first_with_children fuel (t_children T) account) t) as [c| |] eqn:E2; cbn [bind] in Hr; try discriminate. injection Hr as <- <-.
    destruct (own_keys _ _ _ _ _ _ E1 (NoDup_nil _)) as [N1 K1]. destruct (cum_keys _ _ _ _ _ E2 N1) as [N2 K2].
    assert (K3 : forall x, In x (map fst t) <-> In x (with_children fuel (t_children T) account)) by (intros x; rewrite K1; cbn; tauto).
    split; (split; [assumption|]); [exact K3|]. intros x. rewrite K2. apply K3. }
  destruct Keys as [[N1 K1] [N2 K2]].
  destruct (max_width_ok comm totals) as (w & Ew & Lw). { intros x v I. apply (bget_in _ _ _ N1) in I. split; [apply (Hp x v); auto|apply (Own x v); auto]. }
  destruct (max_width_ok comm cum) as (cw & Ecw & Lcw). { intros x v I. apply (bget_in _ _ _ N2) in I. split; [apply (Hp x v); auto|apply (Own x v); auto]. }
  destruct (balance_lines_ok fuel T level zero cid totals cum w cw (cur_width cum) (with_children fuel (t_children T) account)) as (lines & El & Fl & Wl).
  { intros x I. destruct (in_bget totals x (proj2 (K1 x) I)) as (own & B1). destruct (in_bget cum x (proj2 (K2 x) I)) as (total & B2). exists own, total.
    split; [exact B1|]. split; [exact B2|]. split.
    - destruct (amount_text own) as (s & F & Sh & _); [apply (Hp x own); auto|]. exists s. split; [exact F|]. split; [exact Sh|]. exact (Lw x own s (bget_some_in _ _ _ B1) F).
    - destruct (amount_text total) as (s & F & Sh & _); [apply (Hp x total); auto|]. exists s. split; [exact F|]. split; [exact Sh|]. exact (Lcw x total s (bget_some_in _ _ _ B2) F). }
  exists (filter (kept fuel T level zero cum) (with_children fuel (t_children T) account)), lines.
  assert (Ru : forall x, In x (with_children fuel (t_children T) account) <-> under (t_parent T) account x) by (intros x; apply (reach_under all T HT fuel ltac:(lia)); exact Ha).
  split; [|split; [|split; [|split; [|split]]]].
  - unfold balance_command. rewrite Hr. cbn [bind fst snd]. unfold balance_print. rewrite Ew, Ecw. cbn [bind]. exact El.
  - exact Fl.
  - intros Hc. exists [w; cw + 1 + cur_width cum]%nat. intros l I. apply in_map_iff in I as (l' & <- & I). apply Wl; [|exact I].
    intros x Ix. destruct (in_bget cum x (proj2 (K2 x) Ix)) as (total & B2).
    eapply Nat.le_trans; [apply rune_count_le|]. rewrite (Hc x (proj1 (Ru x) Ix)), <- (Own x total (or_intror B2)). exact (cur_width_ok cum x total (bget_some_in _ _ _ B2)).
  - apply NoDup_filter. apply (reach_nodup all T HT).
  - intros x. rewrite filter_In, Ru. unfold kept. rewrite andb_true_iff, !orb_true_iff, Z.eqb_eq, Z.leb_le.
    split; intros (U & Lv & Z0); (split; [exact U|]).
    + assert (Ix : In x all) by (eapply (reach_in all T HT); [exact Ha|apply Ru, U]).
      assert (D : at_level (t_parent T) x (depth fuel T x)) by (apply (depth_level all T HT); [exact Ix|pose proof (msr_bound all x Ix); lia]).
      split; [destruct Lv as [Lv|Lv]; [left; exact Lv|right; eauto]|]. destruct Z0 as [Z0|Z0]; [left; exact Z0|right]. destruct (bget x cum) as [c|]; [|discriminate]. exists c. split; [reflexivity|]. apply negb_true_iff in Z0. unfold is_zero in Z0. apply Z.eqb_neq in Z0. exact Z0.
    + assert (Ix : In x all) by (eapply (reach_in all T HT); [exact Ha|apply Ru, U]).
      assert (D : at_level (t_parent T) x (depth fuel T x)) by (apply (depth_level all T HT); [exact Ix|pose proof (msr_bound all x Ix); lia]).
      split; [destruct Lv as [Lv|(n & Lv & L)]; [left; exact Lv|right; rewrite (level_unique _ _ _ D _ Lv); exact L]|].
      destruct Z0 as [Z0|(c & Bc & Z0)]; [left; exact Z0|right]. rewrite Bc. apply negb_true_iff. unfold is_zero. apply Z.eqb_neq. exact Z0.
  - intros x y Ix Iy U N. apply filter_In in Ix as [Ix Kx], Iy as [Iy Ky]. apply filter_before; [|exact Kx|exact Ky].
    apply (wc_before all T HT (S (bound all)) ltac:(lia) fuel account x y Ha Ix Iy U N).
Qed.
Print Assumptions C120_balance_listing.
(** the level is the number of segments of the name, unless the first one is empty or Root *)
Theorem C120_level : forall names known o1 o2, NoDup names ->
  Permutation known (base_accounts names) -> let all := with_parents known (base_accounts names) in
  Permutation o1 all -> Permutation o2 all ->
  forall fuel T, resolve_accounts fuel names known o1 o2 = Ok (T, all) ->
  forall x segs, In x all -> segments x segs -> hd [] segs <> [] -> hd [] segs <> B "Root" -> at_level (t_parent T) x (List.length segs).
Proof.
  intros names known o1 o2 Nn Pk all P1 P2 fuel T E.
  destruct (resolve_tree fuel names known o1 o2 Nn Pk P1 P2) as (T' & E' & HT & _). fold all in E', HT. assert (T' = T) by congruence. subst T'.
  intros x segs Ix S H1 H2. exact (segments_level all T HT segs x Ix S H1 H2).
Qed.
Print Assumptions C120_level.
Definition ex_selected (x : bytes) : list amount :=
  if eqb_bytes x (B "Assets:Bank") then [mkAmount 70000 cad; mkAmount (-1250) cad] else if eqb_bytes x (B "Assets:A") then [mkAmount 30000 cad]
  else if eqb_bytes x (B "A") then [mkAmount 500 cad] else if eqb_bytes x (B "A:Z") then [mkAmount (-500) cad] else [].
Definition ex_balance (cid : bytes -> bytes) (level : Z) (zero : bool) (account : bytes) : res bytes :=
  match ex_tree with
  | Ok (T, _) => balance_command 30 ex_conv (fun _ => cad) cid T ex_selected level zero account
  | _ => Fail end.
Definition ex_table : list (list bytes) := map (map B)
  [["  0.00"; "987.50 CAD"; "Root"]; [" -5.00"; " -5.00 CAD"; "A:Z"]; ["  0.00"; "987.50 CAD"; "Assets"];
   ["300.00"; "300.00 CAD"; "Assets:A"]; ["687.50"; "687.50 CAD"; "Assets:Bank"]]%string.
Example C120_example : ex_balance (fun _ => B "CAD") 0 false (B "Root") = Ok (table_text ex_table) /\
  ex_balance (fun _ => B "CAD") 1 false (B "Root") = Ok (table_text (map (map B) [["  0.00"; "987.50 CAD"; "Root"]; ["  0.00"; "987.50 CAD"; "Assets"]])%string).
Proof. split; vm_compute; reflexivity. Qed.
(** not every account with postings that do not cancel out is shown: one whose total is the opposite of the totals below
    it (A: 5.00) is not, so that the own totals shown do not add up to the total of the account asked for *)
Theorem C120_every_own_total_refuted :
  sum_in ex_conv (zero_amount cad) (ex_selected (B "A")) = Ok (mkAmount 500 cad) /\
  ex_balance (fun _ => B "CAD") 0 false (B "Root") = Ok (table_text ex_table) /\ ~ In (B "A") (map (fun l => nth 2 l []) ex_table).
Proof.
  split; [vm_compute; reflexivity|]. split; [exact (proj1 C120_example)|]. vm_compute.
  intros [H|[H|[H|[H|[H|[]]]]]]; discriminate.
Qed.
(** the level is not counted from the account asked for: with level 1 the account Assets:Bank itself is not shown *)
Theorem C120_relative_level_refuted : ex_balance (fun _ => B "CAD") 1 false (B "Assets:Bank") = Ok [] /\
  exists t, ex_balance (fun _ => B "CAD") 2 false (B "Assets:Bank") = Ok t /\ t <> [].
Proof.
  split; [vm_compute; reflexivity|]. exists (table_text [map B ["687.50"; "687.50 CAD"; "Assets:Bank"]]%string).
  split; [vm_compute; reflexivity|]. vm_compute. discriminate.
Qed.
(** columns are not aligned when an account names its commodity by a symbol longer than its id *)
Theorem C120_symbols_refuted : exists t,
  ex_balance (fun x => if eqb_bytes x (B "Assets:A") then B "DOLLAR" else B "CAD") 0 false (B "Assets") = Ok (table_text t) /\
  ~ aligned rune_count (map (firstn 2) t).
Proof.
  exists (map (map B) [["  0.00"; "987.50 CAD"; "Assets"]; ["300.00"; "300.00 DOLLAR"; "Assets:A"]; ["687.50"; "687.50 CAD"; "Assets:Bank"]]%string).
  split; [vm_compute; reflexivity|]. intros (ws & H).
  pose proof (H _ (or_introl eq_refl)) as H1. pose proof (H _ (or_intror (or_introl eq_refl))) as H2. rewrite <- H2 in H1. vm_compute in H1. discriminate.
Qed.

(** ** C121: the register *)
(** the totals column fits: no running total is longer than the last one *)
Definition last_longest (ts : list amount) : Prop := forall t s s' d, In t ts -> format_amount t (a_dec t) = Ok s ->
  format_amount (last ts d) (a_dec (last ts d)) = Ok s' -> (List.length s <= List.length s')%nat.
Theorem C121_register_listing : forall conv comm cid L tx_of long size notes loc acc ps qs ts, 0 <= size ->
  let lw := if size =? 0 then 15 else size in
  (* the selected postings have quantities in the commodity of their account and there is another posting *)
  Forall2 (fun p q => rp_qty (heap L p) = Some q /\ printable q /\ a_com q = comm (rp_acc (heap L p)) /\ exists o, first_other (x_posts (tx_of p)) p o) ps qs ->
  (* the running totals *)
  List.length ts = List.length qs -> (forall i t, nth_error ts i = Some t -> add_all conv (zero_amount (comm acc)) (firstn (S i) qs) = Ok t /\ printable t) ->
  exists lines, full_register conv comm cid L tx_of long size notes loc acc ps = Ok (acc ++ B " " ++ c_id (comm acc) ++ [chr 10] ++ register_text lines) /\
    (* one line per posting, in order *)
    List.length lines = List.length ps /\
    (forall i p t, nth_error ps i = Some p -> nth_error ts i = Some t ->
       exists line, nth_error lines i = Some line /\ register_row L tx_of cid long acc lw notes loc p t line) /\
    (* columns are aligned if years have four digits, descriptions at most 50 characters and account names can be
       abbreviated enough, the last one if no total is longer than the last *)
    ((forall p, In p ps -> 0 <= year_of (x_posted (tx_of p)) <= 9999 /\ (rune_count (x_desc (tx_of p)) <= 50)%nat /\
        fits lw acc (rp_acc (heap L p)) /\ forall o, first_other (x_posts (tx_of p)) p o -> fits lw acc (rp_acc (heap L o))) ->
     aligned rune_count (map (fun l => removelast (fst l)) lines) /\ (last_longest ts -> aligned rune_count (map fst lines))).
Proof.
  intros conv comm cid L tx_of long size notes loc acc ps qs ts Hs lw HF Hlen HT.
  set (o := mkOpts acc 0 size (Some (comm acc)) notes loc).
  assert (Ho : forall p q, In p ps -> first_other (x_posts (tx_of p)) p q -> other (tx_of p) p = Some q).
  { intros p q _ (N & l & r & E & Fl). unfold other. rewrite E. clear E. induction Fl as [|k l <- Fl IH]; cbn [app List.find].
    - apply Nat.eqb_neq in N. rewrite N. reflexivity.
    - rewrite Nat.eqb_refl. exact IH. }
  destruct (items_ok L tx_of comm cid o ps) as (is & Ei & Fi).
  { intros p I. destruct (forall2_in_l _ _ _ _ HF I) as (q & Iq & Q & _ & _ & (ot & O)). exists ot, q. split; [apply Ho; assumption|exact Q]. }
  assert (Eq : map i_qty is = qs).
  { clear -Fi HF. revert is Fi. induction HF as [|p q ps qs (Q & _) HF IH]; intros is Fi; inversion Fi; subst; [reflexivity|]. cbn [map]. f_equal; [|apply IH; assumption].
    destruct H1 as (o' & a & _ & Q' & ->). cbn [i_qty]. congruence. }
  assert (Hi : forall k i, nth_error is k = Some i -> exists p q, nth_error ps k = Some p /\ other (tx_of p) p = Some q /\ printable (i_qty i) /\ i_dec i = c_dec (a_com (i_qty i)) /\
    rp_qty (heap L p) = Some (i_qty i) /\ i_date i = x_posted (tx_of p) /\ i_desc i = x_desc (tx_of p) /\ i_acc i = rp_acc (heap L p) /\ i_other i = rp_acc (heap L q) /\
    i_cid i = cid (rp_acc (heap L p)) /\ i_asserted i = rp_asserted (heap L p) /\ i_notes i = rp_notes (heap L p) ++ x_notes (tx_of p) /\
    i_loc i = (match loc with Some f => f (tx_of p) | None => [] end)).
  { clear -Fi HF. revert is Fi. induction HF as [|p q ps qs (Q & P & C & _) HF IH]; intros is Fi; inversion Fi; subst; [intros [|k]; discriminate|].
    intros [|k] i E; cbn [nth_error] in *; [|apply (IH _ H3), E]. injection E as <-. destruct H1 as (o' & a & O & Q' & ->). assert (a = q) by congruence. subst a.
    exists p, o'. cbn. rewrite C. auto 20. }
  assert (Hin : forall i, In i is -> printable (i_qty i) /\ i_dec i = c_dec (a_com (i_qty i))).
  { intros i I. apply nth_in in I as (k & I). destruct (Hi _ _ I) as (p & q & _ & _ & P & D & _). auto. }
  destruct (max_qty_ok is Hin) as (mq & Eq2 & Mq).
  assert (Lis : List.length is = List.length qs) by (rewrite <- Eq, map_length; reflexivity).
  destruct (running_total conv qs (zero_amount (comm acc))) as (ts' & Er).
  { intros i Hlt. rewrite <- Hlen in Hlt. destruct (nth_error ts i) as [t|] eqn:E; [|apply nth_error_None in E; lia]. exists t. apply (HT i t E). }
  assert (ts' = ts) as ->.
  { destruct (running_all _ _ _ _ Er) as [L1 R1]. apply nth_error_same. intros i. destruct (nth_error ts' i) as [t|] eqn:E, (nth_error ts i) as [t'|] eqn:E'; try reflexivity.
    - pose proof (R1 _ _ E) as R2. pose proof (proj1 (HT _ _ E')) as R3. congruence.
    - apply nth_error_None in E'. assert (i < List.length ts')%nat by (apply nth_error_Some; congruence). lia.
    - apply nth_error_None in E. assert (i < List.length ts)%nat by (apply nth_error_Some; congruence). lia. }
  assert (Pt : forall t, In t ts -> printable t) by (intros t I; apply nth_in in I as (k & I); apply (HT _ _ I)).
  destruct is as [|i0 is0].
  { (* nothing selected *)
    assert (ps = []) as -> by (inversion Fi; reflexivity). exists []. split.
    { unfold full_register. fold o. rewrite Ei. cbn [bind print_listing]. reflexivity. }
    split; [reflexivity|]. split; [intros [|i]; discriminate|]. intros _. split; [exists []; intros l []|intros _; exists []; intros l []]. }
  set (is := i0 :: is0) in *.
  assert (Nts : ts <> []) by (intros ->; cbn in Hlen; rewrite <- Lis in Hlen; discriminate Hlen).
  set (tl := last ts (zero_amount (comm acc))).
  assert (Itl : nth_error ts (List.length ts - 1) = Some tl) by (apply last_nth, Nts).
  assert (Ctl : a_com tl = comm acc).
  { destruct (HT _ _ Itl) as [A _]. rewrite (proj1 (add_all_shift _ _ _ _ A)). reflexivity. }
  destruct (amount_width tl (Pt _ (nth_error_In _ _ Itl))) as (sl & Fl & _ & _ & Wl). rewrite Ctl in Wl.
  set (w0 := Nat.min (max_len i_desc is) 50). set (w1 := Nat.min (max_len (fun i => trim_prefix acc (i_acc i)) is) (Z.to_nat lw)).
  set (w3 := Nat.min (max_len i_other is) (Z.to_nat lw)).
  destruct (listing_lines_ok long o w0 w1 mq w3 (List.length sl) is ts) as (lines & El & Ll & Hl).
  { rewrite Hlen, <- Lis. reflexivity. }
  { intros i I. apply Hin in I as [[I _] _]. exact I. }
  { intros t I. apply Pt in I as [I _]. exact I. }
  exists lines.
  assert (Lps : List.length ps = List.length is) by (rewrite Lis; exact (forall2_len _ _ _ HF)).
  assert (Mx : max_acct o = lw) by reflexivity.
  assert (Hlw : 0 <= lw) by (clear -Hs; unfold lw; destruct (size =? 0); lia).
  split; [|split; [|split]].
  - unfold full_register. fold o. rewrite Ei. cbn [bind]. unfold print_listing, is at 1. fold is. rewrite Eq2. cbn [bind]. cbn [lo_com o]. rewrite Eq, Er. cbn [bind].
    change (last ts (zero_amount (comm acc))) with tl. rewrite Wl. cbn [bind]. change (lo_prefix o) with acc. rewrite Mx. change (max_desc o) with 50.
    replace (Z.min (Z.of_nat (max_len i_desc is)) 50) with (Z.of_nat w0) by (unfold w0; rewrite Nat2Z.inj_min; reflexivity).
    replace (Z.min (Z.of_nat (max_len (fun i => trim_prefix acc (i_acc i)) is)) lw) with (Z.of_nat w1) by (unfold w1; rewrite Nat2Z.inj_min, Z2Nat.id by exact Hlw; reflexivity).
    replace (Z.min (Z.of_nat (max_len i_other is)) lw) with (Z.of_nat w3) by (unfold w3; rewrite Nat2Z.inj_min, Z2Nat.id by exact Hlw; reflexivity). rewrite El. reflexivity.
  - congruence.
  - intros k p t Ep Et. destruct (nth_error is k) as [i|] eqn:Ek; [|apply nth_error_None in Ek; assert (k < List.length ps)%nat by (apply nth_error_Some; congruence); lia].
    destruct (Hl k i t Ek Et) as (line & En & (sq & st & Fq & Ft & R1 & R2)). exists line. split; [exact En|].
    destruct (Hi _ _ Ek) as (p' & q & Ep' & O & P & D & Q & X1 & X2 & X3 & X4 & X5 & X6 & X7 & X8). assert (p' = p) by congruence. subst p'.
    destruct (amount_text (i_qty i) (proj1 P)) as (sq' & Fq' & Sq & _). assert (sq' = sq) by congruence. subst sq'.
    destruct (amount_text t (proj1 (Pt _ (nth_error_In _ _ Et)))) as (st' & Ft' & St & _). assert (st' = st) by congruence. subst st'.
    exists q, (i_qty i), (trim_prefix acc (rp_acc (heap L p))), (account_label o (i_acc i)), (trim_prefix acc (rp_acc (heap L q))), (account_label o (i_other i)), sq, st,
      (padl w0 (i_desc i)), (padl w1 (account_label o (i_acc i))), (padl w3 (account_label o (i_other i))), (padl mq sq), (padl (List.length sl) st).
    split; [apply other_first, O|]. split; [exact Q|]. rewrite X2. split; [apply padl_right|]. unfold account_label. rewrite X3, X4, Mx. change (lo_prefix o) with acc.
    split; [apply trim_prefix_after|]. split; [apply shorten_abbreviated|]. split; [apply padl_right|]. split; [apply trim_prefix_after|]. split; [apply shorten_abbreviated|].
    split; [apply padl_right|]. split; [exact Sq|]. split; [apply padl_right|]. split; [exact St|]. split; [apply padl_right|].
    rewrite R1, R2, X1, X2, X5, X6, X7. unfold account_label. rewrite X3, X4, Mx. split; [reflexivity|].
    change (lo_loc o) with loc. change (lo_notes o) with notes. rewrite X8. destruct loc; reflexivity.
  - intros HA.
    assert (Row : forall l, In l lines -> exists i t sq st, In t ts /\ format_amount t (a_dec t) = Ok st /\ rune_count (padl mq sq) = mq /\
       rune_count (padl w0 (i_desc i)) = w0 /\ rune_count (format_date (i_date i)) = 10%nat /\ rune_count (padl w1 (account_label o (i_acc i))) = w1 /\
       rune_count (padl w3 (account_label o (i_other i))) = w3 /\
       fst l = [format_date (i_date i); padl w0 (i_desc i)] ++ (if long then [padl w1 (account_label o (i_acc i))] else [])
               ++ [padl w3 (account_label o (i_other i)); padl mq sq; padl (List.length sl) st]).
    { intros l I. apply nth_in in I as (k & El'). assert (Hk : (k < List.length lines)%nat) by (apply nth_error_Some; congruence).
      destruct (nth_error is k) as [i|] eqn:Ek; [|apply nth_error_None in Ek; lia]. destruct (nth_error ts k) as [t|] eqn:Et; [|apply nth_error_None in Et; lia].
      destruct (Hl k i t Ek Et) as (line & En & (sq & st & Fq & Ft & R1 & R2)). assert (line = l) by congruence. subst line.
      destruct (Hi _ _ Ek) as (p & q & Ep & O & P & D & Q & X1 & X2 & X3 & X4 & _). assert (Ip := nth_error_In _ _ Ep). destruct (HA p Ip) as (Y & Dl & F1 & F2). specialize (F2 q (other_first _ _ _ O)).
      assert (Ii := nth_error_In _ _ Ek). exists i, t, sq, st. split; [exact (nth_error_In _ _ Et)|]. split; [exact Ft|].
      split. { apply padl_count. eapply Nat.le_trans; [apply rune_count_le|]. exact (Mq i sq Ii Fq). }
      split. { apply padl_count. unfold w0. apply Nat.min_glb; [eapply Nat.le_trans; [apply rune_count_le|exact (max_len_ok i_desc is i Ii)]|rewrite X2; exact Dl]. }
      split; [rewrite X1; apply format_date_len, Y|].
      split. { apply padl_count. eapply Nat.le_trans; [apply rune_count_le|]. unfold account_label. rewrite Mx. change (lo_prefix o) with acc. unfold w1. apply Nat.min_glb.
        - eapply Nat.le_trans; [apply shorten_len|]. exact (max_len_ok (fun i => trim_prefix acc (i_acc i)) is i Ii).
        - rewrite X3. apply shorten_fits, F1. }
      split; [|exact R1].
      apply padl_count. eapply Nat.le_trans; [apply rune_count_le|]. unfold account_label. rewrite Mx. change (lo_prefix o) with acc. unfold w3. apply Nat.min_glb.
        - eapply Nat.le_trans; [apply shorten_len|]. eapply Nat.le_trans; [apply trim_prefix_len|]. exact (max_len_ok i_other is i Ii).
        - rewrite X4. apply shorten_fits, F2. }
    split.
    + exists ([10; w0] ++ (if long then [w1] else []) ++ [w3; mq])%nat. intros c I. apply in_map_iff in I as (l & <- & I).
      destruct (Row l I) as (i & t & sq & st & _ & _ & W1 & W2 & W3 & W4 & W5 & ->). destruct long; cbn [app removelast map]; rewrite ?W1, ?W2, ?W3, ?W4, ?W5; reflexivity.
    + intros HL. exists ([10; w0] ++ (if long then [w1] else []) ++ [w3; mq; List.length sl])%nat. intros c I. apply in_map_iff in I as (l & <- & I).
      destruct (Row l I) as (i & t & sq & st & It & Ft & W1 & W2 & W3 & W4 & W5 & ->).
      assert (W6 : rune_count (padl (List.length sl) st) = List.length sl) by (apply padl_count; eapply Nat.le_trans; [apply rune_count_le|]; exact (HL t st sl (zero_amount (comm acc)) It Ft Fl)).
      destruct long; cbn [app map]; rewrite ?W1, ?W2, ?W3, ?W4, ?W5, ?W6; reflexivity.
Qed.
Print Assumptions C121_register_listing.
Definition ex_register (accounts : list bytes) (ts : list transaction) (long : bool) (size : Z) (notes : bool) (acc : bytes) (sel : list bytes) : res bytes :=
  match load_transactions ex_find (fun _ => cad) ex_conv accounts true empty_ledger ts with
  | Ok (L, _, xs) => let tx_of p := match List.find (fun x => existsb (Nat.eqb p) (x_posts x)) xs with Some x => x | None => mkTx 0 [] [] [] [] 0 end in
      full_register ex_conv (fun _ => cad) (fun _ => B "CAD") L tx_of long size notes None acc (flat_map (reg L) sel)
  | _ => Fail end.
Definition entry (d : Z) (desc : string) (l : list posting) : transaction := mkTransaction (go_date 2024 3 d) [] (B desc) [] l 1.
Definition reg_ts := [entry 1 "pay" [ps "Bank" (Some 250000) (Some 250000); ps "Income:Job" None None];
                      entry 2 "groceries" [mkPosting (B "Food") (Some (mkAmount 8050 cad)) None []; mkPosting (B "Bank") None None [B "cash"]];
                      entry 9 "rent" [ps "Rent:Home:Main:Long" (Some 120000) None; ps "Bank" None None]].
Definition reg_accounts := [B "Bank"; B "Income:Job"; B "Food"; B "Rent:Home:Main:Long"].
Example C121_example : ex_register reg_accounts reg_ts false 12 true (B "Bank") [B "Bank"] =
  Ok (B "Bank CAD" ++ [chr 10] ++ register_text [(map B ["2024/03/01"; "      pay"; "  Income:Job"; " 2500.00"; "2500.00"]%string, B " CAD*" ++ [chr 10]);
                                                (map B ["2024/03/02"; "groceries"; "        Food"; "  -80.50"; "2419.50"]%string, B " CAD " ++ [chr 10] ++ B "           ; cash" ++ [chr 10]);
                                                (map B ["2024/03/09"; "     rent"; "R:H:Mai:Long"; "-1200.00"; "1219.50"]%string, B " CAD " ++ [chr 10])]).
Proof. vm_compute. reflexivity. Qed.
(** aligning all columns fails without the conditions: totals are padded to the last one, and long descriptions are not cut *)
Theorem C121_aligned_totals_refuted : exists lines,
  ex_register reg_accounts [entry 1 "pay" [ps "Bank" (Some 250000) None; ps "Income:Job" None None]; entry 2 "rent" [ps "Bank" (Some (-250000)) None; ps "Food" None None]]
    false 12 false (B "Bank") [B "Bank"] = Ok (B "Bank CAD" ++ [chr 10] ++ register_text lines) /\ ~ aligned rune_count (map fst lines).
Proof.
  exists [(map B ["2024/03/01"; " pay"; "Income:Job"; " 2500.00"; "2500.00"]%string, B " CAD " ++ [chr 10]); (map B ["2024/03/02"; "rent"; "      Food"; "-2500.00"; "0.00"]%string, B " CAD " ++ [chr 10])].
  split; [vm_compute; reflexivity|]. intros (ws & H).
  pose proof (H _ (or_introl eq_refl)) as H1. pose proof (H _ (or_intror (or_introl eq_refl))) as H2. rewrite <- H2 in H1. vm_compute in H1. discriminate.
Qed.
Definition long_text : string := "a payment with a description of more than fifty characters".
Theorem C121_aligned_descriptions_refuted : exists lines,
  ex_register reg_accounts [entry 1 "pay" [ps "Bank" (Some 250000) None; ps "Income:Job" None None]; entry 2 long_text [ps "Bank" (Some 250000) None; ps "Food" None None]]
    false 12 false (B "Bank") [B "Bank"] = Ok (B "Bank CAD" ++ [chr 10] ++ register_text lines) /\ ~ aligned rune_count (map (fun l => firstn 2 (fst l)) lines).
Proof.
  exists [(map B ["2024/03/01"; "                                               pay"; "Income:Job"; "2500.00"; "2500.00"]%string, B " CAD " ++ [chr 10]); (map B ["2024/03/02"; long_text; "      Food"; "2500.00"; "5000.00"]%string, B " CAD " ++ [chr 10])].
  split; [vm_compute; reflexivity|]. intros (ws & H).
  pose proof (H _ (or_introl eq_refl)) as H1. pose proof (H _ (or_intror (or_introl eq_refl))) as H2. rewrite <- H2 in H1. vm_compute in H1. discriminate.
Qed.
(** the shown name does not tell the account: the beginning of a name is cut even inside a segment, so that in the register
    of Income the accounts IncomeTax and Tax look the same *)
Theorem C121_account_shown_refuted : exists lines1 lines2,
  let book other := [entry 1 "pay" [ps "Income" (Some (-250000)) None; ps other None None]] in
  let accounts := [B "Income"; B "IncomeTax"; B "Tax"] in
  ex_register accounts (book "IncomeTax"%string) false 12 false (B "Income") [B "Income"] = Ok (B "Income CAD" ++ [chr 10] ++ register_text lines1) /\
  ex_register accounts (book "Tax"%string) false 12 false (B "Income") [B "Income"] = Ok (B "Income CAD" ++ [chr 10] ++ register_text lines2) /\
  (exists c d, map (fun l => nth 2 (fst l) []) lines1 = [c] /\ map (fun l => nth 2 (fst l) []) lines2 = [d] /\ right_set (B "Tax") c /\ right_set (B "Tax") d).
Proof.
  exists [(map B ["2024/03/01"; "pay"; "      Tax"; "-2500.00"; "-2500.00"]%string, B " CAD " ++ [chr 10])], [(map B ["2024/03/01"; "pay"; "Tax"; "-2500.00"; "-2500.00"]%string, B " CAD " ++ [chr 10])].
  cbv zeta. split; [vm_compute; reflexivity|]. split; [vm_compute; reflexivity|].
  exists (B "      Tax"), (B "Tax"). split; [reflexivity|]. split; [reflexivity|]. split; [exists 6%nat; reflexivity|exists 0%nat; reflexivity].
Qed.
