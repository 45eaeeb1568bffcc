(** C43-C49, C67, C69-C72: selections, registers, aggregated registers. *)
From Coq Require Import Permutation Sorted.
From Verif Require Import Base M_Amount M_Parser M_Names M_Tags M_Date M_Ledger M_Report S_Names S_Amount S_Books S_Report L_Dec L_Sort L_Names L_Amount L_Registers L_Resolve L_Resolve2 L_Load L_Tags L_Tree L_Tree2 L_Balance L_Totals L_Propagate L_Aggregate L_Cumulative L_Register L_Report Properties_Date Properties_Ledger Properties_Tree.
Local Open Scope Z_scope.

(** ** C43: -b and -e keep the postings with begin <= date < end, in their order *)
Theorem C43_range : forall A (dflt : A) (date : A -> Z) ps b e,
  StronglySorted (fun p q => date p <= date q) ps ->
  trim dflt date ps b e =
    filter (fun p => match b with Some b => b <=? date p | None => true end && match e with Some e => date p <? e | None => true end) ps.
Proof. intros A dflt date ps b e H. exact (trim_filter dflt date ps b e H). Qed.
Print Assumptions C43_range.
Theorem C43_consecutive_ranges : forall A (dflt : A) (date : A -> Z) ps b m e,
  StronglySorted (fun p q => date p <= date q) ps -> (forall x, b = Some x -> x <= m) -> (forall x, e = Some x -> m <= x) ->
  trim dflt date ps b (Some m) ++ trim dflt date ps (Some m) e = trim dflt date ps b e /\
  forall f, zsum (map f (trim dflt date ps b (Some m))) + zsum (map f (trim dflt date ps (Some m) e)) = zsum (map f (trim dflt date ps b e)).
Proof.
  intros A dflt date ps b m e H Hb He.
  assert (E : trim dflt date ps b (Some m) ++ trim dflt date ps (Some m) e = trim dflt date ps b e).
  { rewrite !(trim_filter dflt date ps) by exact H. apply partition_filter; auto. }
  split; [exact E|]. intros f. rewrite <- E, map_app, zsum_app. reflexivity.
Qed.
Print Assumptions C43_consecutive_ranges.
(** the registers of a loaded ledger are sorted *)
Theorem C43_register : forall find comm conv accounts chk ts L ws sorted a b e, NoDup accounts ->
  load_transactions find comm conv accounts chk empty_ledger ts = Ok (L, ws, sorted) ->
  forall p, In p (trim O (dates L) (reg L a) b e) <->
    In p (reg L a) /\ (forall x, b = Some x -> x <= dates L p) /\ (forall x, e = Some x -> dates L p < x).
Proof.
  intros find comm conv accounts chk ts L ws sorted a b e Na H p.
  destruct (C34_registers _ _ _ _ _ _ _ _ _ _ empty_ok Na H) as (Hok & _). destruct (Hok a) as (Od & _).
  rewrite (trim_filter O (dates L) (reg L a) b e Od), filter_In. unfold in_range. rewrite andb_true_iff. split.
  - intros (I & Hb & He). split; [exact I|]. split; intros x ->; [apply Z.leb_le, Hb|apply Z.ltb_lt, He].
  - intros (I & Hb & He). split; [exact I|]. split; [destruct b; [apply Z.leb_le, Hb; reflexivity|reflexivity]|destruct e; [apply Z.ltb_lt, He; reflexivity|reflexivity]].
Qed.
Print Assumptions C43_register.
Example C43_example : let date := fun p => nth p [10; 20; 20; 30; 40] 0 in
  trim O date [0; 1; 2; 3; 4]%nat (Some 20) (Some 40) = [1; 2; 3]%nat /\ trim O date [0; 1; 2; 3; 4]%nat (Some 41) None = [] /\
  trim O date [0; 1; 2; 3; 4]%nat None (Some 20) = [0]%nat.
Proof. vm_compute. auto. Qed.

(** ** C44: line i of a register shows the sum of the first i postings *)
Theorem C44_running_total : forall conv c qs ts, running conv (zero_amount c) qs = Ok ts ->
  List.length ts = List.length qs /\
  forall i t, nth_error ts i = Some t -> add_all conv (zero_amount c) (firstn (S i) qs) = Ok t.
Proof. intros conv c qs ts H. exact (running_all conv qs _ ts H). Qed.
Print Assumptions C44_running_total.
Theorem C44_one_commodity : forall conv c qs, Forall (fun q => a_com q = c) qs ->
  exists ts, running conv (zero_amount c) qs = Ok ts /\ List.length ts = List.length qs /\
    forall i, (i < List.length qs)%nat -> nth_error ts i = Some (mkAmount (zsum (map a_int (firstn (S i) qs))) c).
Proof.
  intros conv c qs F. eexists. split; [exact (running_same conv c qs (zero_amount c) eq_refl F)|]. split; [rewrite map_length, seq_length; reflexivity|].
  intros i Hi. rewrite nth_error_map, (nth_error_nth' _ O) by (rewrite seq_length; exact Hi). rewrite seq_nth by exact Hi. reflexivity.
Qed.
Print Assumptions C44_one_commodity.
Example C44_example : running ex_conv (zero_amount cad) [mkAmount 10 cad; mkAmount (-3) cad] = Ok [mkAmount 10 cad; mkAmount 7 cad].
Proof. reflexivity. Qed.

(** ** C45: aggregating by period and category *)
Theorem C45_aggregation : forall conv bt bc com es, reducer_ok bt -> entries_in_order es -> entries_in com es ->
  exists ts, tt_add_all conv (mkTts bt bc []) es = Ok ts /\
    (* periods strictly increase *)
    StronglySorted Z.lt (map c_time (cells ts)) /\ NoDup (map fst (lines bc (cells ts))) /\
    (* a line for every period (and category) with a posting, with the sum of these *)
    (forall t k q, In (t, k, q) (lines bc (cells ts)) <->
       has_line bt bc t k es = true /\ (bc = false -> k = []) /\ q = mkAmount (line_sum bt bc t k es) com) /\
    (* the grand total *)
    zsum (map (fun l => a_int (snd l)) (lines bc (cells ts))) = zsum (map (fun e => a_int (e_qty e)) es).
Proof.
  intros conv bt bc com es Hr Ho Hc. destruct (add_all_rep conv bt bc com Hr es (mkTts bt bc []) []) as (ts & E & (T & _ & V)); [apply empty_rep|exact Ho|exact Hc|].
  cbn [app] in V. exists ts. split; [exact E|]. destruct T as (_ & _ & L & _). split; [apply times_sorted, L|]. split; [apply (lines_nodup bc com), L|].
  assert (In' : forall t k q, In (t, k, q) (lines bc (cells ts)) <-> has_line bt bc t k es = true /\ (bc = false -> k = []) /\ q = mkAmount (line_sum bt bc t k es) com).
  { intros t k q. rewrite (lines_in bc com _ t k q L), V. destruct (has_line bt bc t k es); split.
    - intros [J K]. injection J as <-. auto.
    - intros (_ & K & ->). auto.
    - intros [J _]. discriminate.
    - intros [J _]. discriminate. }
  split; [exact In'|]. rewrite <- (sum_over_lines bt bc (map fst (lines bc (cells ts))) es).
  - rewrite map_map. f_equal. apply map_ext_in. intros [[t k] q] I. cbn [fst snd]. apply In' in I as (_ & _ & ->). reflexivity.
  - apply (lines_nodup bc com), L.
  - intros t k I. apply in_map_iff in I as ([[t' k'] q] & J & I). cbn in J. injection J as -> ->. apply In' in I. tauto.
  - intros e Ie. apply in_map_iff. exists (key_of bt bc e, mkAmount (line_sum bt bc (fst (key_of bt bc e)) (snd (key_of bt bc e)) es) com). split; [reflexivity|].
    destruct (key_of bt bc e) as [t k] eqn:Ek. apply In'. cbn [fst snd]. unfold key_of in Ek. injection Ek as Et Ek.
    assert (Hk : bc = false -> k = []) by (intros ->; congruence). split; [|auto]. apply existsb_exists. exists e. split; [exact Ie|].
    rewrite belongs_key by exact Hk. apply eq_line_iff. unfold key_of. rewrite Et, Ek. reflexivity.
Qed.
Print Assumptions C45_aggregation.
(** the program's periods are such reducers *)
Theorem C45_periods : forall r, In r [reduce_week; reduce_month; reduce_quarter; reduce_year] -> reducer_ok (Some r).
Proof. intros r H. exact (proj2 (C20_idempotent_monotone r H)). Qed.
Print Assumptions C45_periods.
Definition ex_entries : list entry :=
  [(5, B "Shop", mkAmount 100 cad); (8, B "Gas", mkAmount 20 cad); (9, B "Shop", mkAmount (-30) cad); (400, B "Gas", mkAmount 7 cad)].
Example C45_example : entries_in_order ex_entries /\ entries_in cad ex_entries /\
  match tt_add_all ex_conv (mkTts (Some reduce_year) true []) ex_entries with
  | Ok ts => lines true (cells ts) = [(reduce_year 5, B "Shop", mkAmount 70 cad); (reduce_year 5, B "Gas", mkAmount 20 cad); (reduce_year 400, B "Gas", mkAmount 7 cad)]
  | _ => False end.
Proof.
  split; [repeat (constructor; [|repeat (constructor; [cbn; lia|]); constructor]); constructor|].
  split; [repeat (constructor; [reflexivity|]); constructor|]. vm_compute. reflexivity.
Qed.

(** ** C46: merging timelines *)
Theorem C46_merge_partial : forall conv bt bc com ts ts2, bt <> None \/ bc = true ->
  timeline_ok bt bc com ts -> timeline_ok bt bc com ts2 ->
  exists ts', merge_totals conv false ts ts2 = Ok ts' /\ timeline_ok bt bc com ts' /\
    forall t k, amount_on bc (cells ts') t k =
      match amount_on bc (cells ts) t k, amount_on bc (cells ts2) t k with
      | Some x, Some y => Some (mkAmount (a_int x + a_int y) com)
      | Some x, None => Some x
      | None, y => y
      end.
Proof.
  intros conv bt bc com ts ts2 H H1 H2. destruct (merge_spec conv bt bc com false ts ts2 H H1 H2) as (ts' & E & O & V). exists ts'. split; [exact E|]. split; [exact O|].
  intros t k. rewrite V. unfold comb. destruct (amount_on bc (cells ts) t k), (amount_on bc (cells ts2) t k); reflexivity.
Qed.
Print Assumptions C46_merge_partial.
Theorem C46_merge_keys_partial : forall conv bt bc com ts ts2, bt <> None \/ bc = true ->
  timeline_ok bt bc com ts -> timeline_ok bt bc com ts2 ->
  exists ts', merge_totals conv true ts ts2 = Ok ts' /\ timeline_ok bt bc com ts' /\
    forall t k, amount_on bc (cells ts') t k =
      match amount_on bc (cells ts) t k, amount_on bc (cells ts2) t k with
      | Some x, _ => Some x
      | None, Some _ => Some (mkAmount 0 com)
      | None, None => None
      end.
Proof.
  intros conv bt bc com ts ts2 H H1 H2. destruct (merge_spec conv bt bc com true ts ts2 H H1 H2) as (ts' & E & O & V). exists ts'. split; [exact E|]. split; [exact O|].
  intros t k. rewrite V. unfold comb. destruct (amount_on bc (cells ts) t k), (amount_on bc (cells ts2) t k); reflexivity.
Qed.
Print Assumptions C46_merge_keys_partial.
Definition ex_line (l : list (Z * Z)) : tts := mkTts (Some reduce_month) false (map (fun tv => mkCell (fst tv) (Some (mkAmount (snd tv) cad)) []) l).
Definition shows (r : res tts) (l : list (Z * Z)) : Prop :=
  match r with Ok ts => lines false (cells ts) = map (fun tv => (fst tv, [], mkAmount (snd tv) cad)) l | _ => False end.
Lemma ex_line_ok l : StronglySorted (fun a b => fst a < fst b) l -> timeline_ok (Some reduce_month) false cad (ex_line l).
Proof.
  intros H. split; [reflexivity|]. split; [reflexivity|]. split; [|discriminate]. split; cbn [cells ex_line].
  - unfold times_up. induction H as [|a l H IH F]; cbn [map]; constructor; [exact IH|]. apply Forall_map. exact F.
  - apply Forall_map, Forall_forall. intros x _. split; [|reflexivity]. eexists. split; reflexivity.
Qed.
Example C46_example : timeline_ok (Some reduce_month) false cad (ex_line [(10, 1); (30, 2)]) /\ timeline_ok (Some reduce_month) false cad (ex_line [(20, 4); (30, 8); (40, 16)]) /\
  shows (merge_totals ex_conv false (ex_line [(10, 1); (30, 2)]) (ex_line [(20, 4); (30, 8); (40, 16)])) [(10, 1); (20, 4); (30, 10); (40, 16)] /\
  shows (merge_totals ex_conv true (ex_line [(10, 1); (30, 2)]) (ex_line [(20, 4); (30, 8); (40, 16)])) [(10, 1); (20, 0); (30, 2); (40, 0)].
Proof.
  split; [|split; [|split; vm_compute; reflexivity]]; apply ex_line_ok; repeat (constructor; [|repeat (constructor; [cbn; lia|]); constructor]); constructor.
Qed.
(** Without a price for it, an amount in another commodity is left out of the sum, and nothing is said. *)
Definition usd_line : tts := mkTts (Some reduce_month) false [mkCell 10 (Some (mkAmount 500 usd)) []].
Theorem C46_other_commodity_refuted :
  shows (merge_totals ex_conv false (ex_line [(10, 1)]) usd_line) [(10, 1)] /\
  shows (merge_totals ex_conv false (ex_line [(20, 1)]) usd_line) [(10, 0); (20, 1)].
Proof. split; vm_compute; reflexivity. Qed.
Print Assumptions C46_other_commodity_refuted.

(** ** C47: the top n accounts and the others *)
Theorem C47_top_keeps_totals_partial : forall conv bt bc com m order n, bt <> None \/ bc = true ->
  NoDup order -> ~ In None order -> (forall a, In a order -> exists ts, aget a m = Some ts /\ timeline_ok bt bc com ts) ->
  List.length order <> S n ->
  exists m', top conv (Z.of_nat n) m order = Ok (m', shown_cols n order) /\
    forall t k, zsum (map (amount_of bc m' t k) (shown_cols n order)) = zsum (map (amount_of bc m t k) order).
Proof. intros conv bt bc com m order n H. apply top_total, H. Qed.
Print Assumptions C47_top_keeps_totals_partial.
Definition ex_map : atotals := [(Some (B "A"), ex_line [(10, 100); (20, 50)]); (Some (B "B"), ex_line [(10, 7)]); (Some (B "C"), ex_line [(10, -1)])].
Example C47_example : top_order ex_conv ex_map [Some (B "A"); Some (B "B"); Some (B "C")] /\
  match top ex_conv 1 ex_map [Some (B "A"); Some (B "B"); Some (B "C")] with
  | Ok (m', shown) => shown = [Some (B "A"); None] /\ amount_of false m' 10 [] None = 6
  | _ => False end.
Proof.
  split; [|vm_compute; auto].
  exists (fun a => if eq_key a (Some (B "A")) then mkAmount 150 cad else if eq_key a (Some (B "B")) then mkAmount 7 cad else mkAmount (-1) cad). split; [|split; [|split]].
  - intros a ts H _. apply L_Aggregate.aget_in in H. destruct H as [E|[E|[E|[]]]]; injection E as <- <-; reflexivity.
  - repeat (constructor; [cbn; intuition discriminate|]). constructor.
  - intros a. split.
    + intros [<-|[<-|[<-|[]]]]; eexists; (split; [reflexivity|discriminate]).
    + intros (ts & H & _). apply L_Aggregate.aget_in in H. destruct H as [E|[E|[E|[]]]]; injection E as <- _; cbn; auto.
  - repeat (constructor; [|repeat (constructor; [reflexivity|]); constructor]). constructor.
Qed.
(** When exactly one account is left over, it is not shown at all. *)
Theorem C47_one_left_over_refuted :
  match top ex_conv 2 ex_map [Some (B "A"); Some (B "B"); Some (B "C")] with
  | Ok (m', shown) => shown = [Some (B "A"); Some (B "B")] /\ zsum (map (amount_of false m' 10 []) shown) = 107
  | _ => False end /\
  zsum (map (amount_of false ex_map 10 []) [Some (B "A"); Some (B "B"); Some (B "C")]) = 106.
Proof. split; vm_compute; auto. Qed.
Print Assumptions C47_one_left_over_refuted.

(** ** C49: -c *)
Theorem C49_cumulative : forall conv bt com ts, bt <> None -> timeline_ok bt false com ts ->
  exists ts', make_cumulative conv ts = Ok ts' /\ timeline_ok bt false com ts' /\ map c_time (cells ts') = map c_time (cells ts) /\
    forall t, In t (map c_time (cells ts)) ->
      amount_on false (cells ts') t [] =
        Some (mkAmount (zsum (map (fun l => a_int (snd l)) (filter (fun l => fst (fst l) <=? t) (lines false (cells ts))))) com).
Proof.
  intros conv bt com ts Hb T. assert (T0 := T). destruct T as (T1 & T2 & L & T3). unfold make_cumulative. rewrite T2. destruct (last_cell (cells ts)) as [c|] eqn:El.
  - assert (Oc : cell_ok false com c) by (destruct L as [_ O]; rewrite Forall_forall in O; apply O, last_some, El). rewrite (cell_com false com c Oc).
    destruct (cumulative_cells_spec conv com (cells ts) (zero_amount com) eq_refl L) as (l' & E & Et & Ol & V). rewrite E. cbn [bind]. eexists. split; [reflexivity|]. cbn [cells with_cells].
    split; [|split; [exact Et|]].
    + split; [exact T1|]. split; [exact T2|]. cbn [cells with_cells]. split; [|congruence]. split; [|exact Ol]. destruct L as [U _]. apply times_sorted in U. rewrite <- Et in U.
      clear - U. unfold times_up. induction l' as [|a l IH]; [constructor|]. cbn [map] in U. inversion U as [|? ? U1 U2]; subst. constructor; [auto|]. rewrite Forall_map in U2. exact U2.
    + intros t I. rewrite (V t I). cbn [a_int zero_amount]. f_equal. f_equal. rewrite Z.add_0_l. destruct L as [_ O]. clear - O. unfold lines. induction (cells ts) as [|x l IH]; [reflexivity|].
      apply Forall_cons_iff in O as [Ox O]. cbn [flat_map filter]. destruct Ox as ((a & Ea & _) & _). rewrite Ea. cbn [app filter fst]. specialize (IH O).
      destruct (c_time x <=? t); [|exact IH]. cbn [map snd]. rewrite !zsum_cons, IH. unfold tot at 1. rewrite Ea. reflexivity.
  - exists ts. split; [reflexivity|]. split; [exact T0|]. split; [reflexivity|]. apply last_none in El. rewrite El. intros t [].
Qed.
Print Assumptions C49_cumulative.
(** with categories (-g), -c is refused: no amounts are shown rather than wrong ones *)
Theorem C49_not_with_categories : forall conv ts, by_cat ts = true -> make_cumulative conv ts = Fail.
Proof. intros conv ts H. unfold make_cumulative. rewrite H. reflexivity. Qed.
Print Assumptions C49_not_with_categories.
Example C49_example : shows (make_cumulative ex_conv (ex_line [(10, 5); (20, -2); (30, 4)])) [(10, 5); (20, 3); (30, 7)].
Proof. vm_compute. reflexivity. Qed.

(** ** C70: the lines and columns of an aggregated register *)
Theorem C70_aggregated_register : forall names known o1 o2, NoDup names ->
  Permutation known (base_accounts names) -> let all := with_parents known (base_accounts names) in
  Permutation o1 all -> Permutation o2 all ->
  exists N, forall fuel T, (N <= fuel)%nat -> resolve_accounts fuel names known o1 o2 = Ok (T, all) ->
  forall conv bt bc com account recurse cumulative (sel : bytes -> list entry), In account all ->
    bt <> None \/ bc = true -> reducer_ok bt -> (cumulative = true -> bc = false) ->
    (forall x, under (t_parent T) account x ->
       entries_in_order (sel x) /\ entries_in com (sel x) /\ (bc = true -> Forall (fun e => e_cat e <> []) (sel x))) ->
    exists below m,
      (forall x, under (t_parent T) account x -> NoDup (below x) /\ forall y, In y (below x) <-> under (t_parent T) x y) /\
      aggregated fuel conv T account bt bc recurse sel = Ok m /\ (exists order, top_order conv m order) /\
      forall n order, top_order conv m order ->
        (* there is a column for every account with postings in or below it *)
        (forall k, In k order <-> exists x, k = Some x /\ under (t_parent T) account x /\ flat_map sel (below x) <> []) /\
        let V := col_entries n order (counted_by recurse sel below) in
        (In (Some account) (shown_cols n order) ->
         exists rs, aggregated_rows conv account cumulative (Z.of_nat n) m order = Ok (shown_cols n order, rs) /\
           (* lines in order, one for each period and category with a posting *)
           StronglySorted line_before (map fst rs) /\
           (forall t k, In (t, k) (map fst rs) <-> has_line bt bc t k (flat_map sel (below account)) = true /\ (bc = false -> k = [])) /\
           (* each column shows the sum of its postings on that line, or up to that period *)
           forall t k xs, In (t, k, xs) rs ->
             xs = map (fun c => mkAmount (if cumulative then sum_upto bt t (V c) else line_sum bt bc t k (V c)) com) (shown_cols n order)).
Proof.
  intros names known o1 o2 Nn Pk all P1 P2. exists (S (bound all)). intros fuel T Hf E conv bt bc com account recurse cumulative sel Ha Hagg Hred Hcum Hs.
  destruct (resolve_tree fuel names known o1 o2 Nn Pk P1 P2) as (T' & E' & HT & _). fold all in E', HT. assert (T' = T) by congruence. subst T'.
  pose proof (fun a x Ia => reach_under all T HT fuel ltac:(lia) a x Ia) as R. set (below := with_children fuel (t_children T)).
  assert (Hs' : forall x, In x (below account) -> entries_in_order (sel x) /\ entries_in com (sel x) /\ (bc = true -> Forall (fun e => e_cat e <> []) (sel x))) by (intros x I; apply Hs, R; auto).
  destruct (aggregated_spec conv bt bc com Hagg Hred all T fuel account recurse sel HT Ha ltac:(lia) (fun x I => conj (proj1 (Hs' x I)) (proj1 (proj2 (Hs' x I))))) as (m & Em & Nm & Mn & M1 & M2). fold below in M1, M2.
  exists below, m. split.
  { intros x Ux. assert (Ix : In x all) by (apply (reach_in all T HT fuel account); auto; apply R; auto). split; [apply (reach_nodup all T HT)|]. intros y. apply R, Ix. }
  split; [exact Em|]. split.
  { apply (order_exists conv bt bc com Hagg m Nm). intros a ts I. destruct a as [x|].
    - assert (G := in_aget m (Some x) ts Nm I). destruct (M2 _ _ G) as [Ix Nx]. destruct (M1 x Ix Nx) as (ts' & G' & S). assert (ts' = ts) by congruence. subst ts'. split; [apply S|].
      intros Ez. apply (sums_nil bt bc com Hagg ts _ _ S) in Ez. tauto.
    - exfalso. assert (G := in_aget m None ts Nm I). congruence. }
  intros n order Ho. split.
  - destruct (tree_order conv bt bc com Hagg Hred all T fuel account recurse sel m order HT Ha ltac:(lia) (fun x I => conj (proj1 (Hs' x I)) (proj1 (proj2 (Hs' x I)))) Em Ho) as (_ & Io & _).
    intros k. rewrite Io. fold below. split; intros (x & H1 & H2 & H3); exists x; (split; [exact H1|]); (split; [apply R; auto|exact H3]).
  - intros V Ia. exact (register_spec conv bt bc com Hagg Hred all T fuel account recurse cumulative n sel m order HT Ha ltac:(lia) Hcum Hs' Em Ho Ia).
Qed.
Print Assumptions C70_aggregated_register.
Definition ex_sel (x : bytes) : list entry :=
  if eqb_bytes x (B "Assets:Bank") then [(5, B "Shop", mkAmount 100 cad); (40, B "Gas", mkAmount 20 cad)]
  else if eqb_bytes x (B "Assets:A") then [(6, B "Pay", mkAmount (-7) cad)] else [].
Example C70_example : match ex_tree with
  | Ok (T, all) => match aggregated 30 ex_conv T (B "Assets") (Some reduce_month) false true ex_sel with
      | Ok m => match aggregated_rows ex_conv (B "Assets") false 5 m [Some (B "Assets:Bank"); Some (B "Assets"); Some (B "Assets:A")] with
          | Ok (order, rs) => rs = [(reduce_month 5, [], [mkAmount 100 cad; mkAmount 93 cad; mkAmount (-7) cad]); (reduce_month 40, [], [mkAmount 20 cad; mkAmount 20 cad; mkAmount 0 cad])]
          | _ => False end
      | _ => False end
  | _ => False end.
Proof. vm_compute. reflexivity. Qed.

(** ** C48: the aggregated register never crashes *)
Theorem C48_prints_partial : forall names known o1 o2, NoDup names ->
  Permutation known (base_accounts names) -> let all := with_parents known (base_accounts names) in
  Permutation o1 all -> Permutation o2 all ->
  exists N, forall fuel T, (N <= fuel)%nat -> resolve_accounts fuel names known o1 o2 = Ok (T, all) ->
  forall conv bt bc com account recurse cumulative (sel : bytes -> list entry) n, In account all ->
    bt <> None \/ bc = true -> reducer_ok bt -> (cumulative = true -> bc = false) ->
    (forall x, under (t_parent T) account x -> entries_in_order (sel x) /\ entries_in com (sel x) /\ (bc = true -> Forall (fun e => e_cat e <> []) (sel x))) ->
    (* what is missing from the full property: *)
    (exists x, under (t_parent T) account x /\ sel x <> []) -> (List.length all <= n)%nat ->
    exists m, aggregated fuel conv T account bt bc recurse sel = Ok m /\
      forall order, top_order conv m order -> exists shown rs, aggregated_rows conv account cumulative (Z.of_nat n) m order = Ok (shown, rs) /\ rs <> [].
Proof.
  intros names known o1 o2 Nn Pk all P1 P2. destruct (C70_aggregated_register names known o1 o2 Nn Pk P1 P2) as (N & H). exists N.
  intros fuel T Hf E conv bt bc com account recurse cumulative sel n Ha Hagg Hred Hcum Hs (x & Ux & Nx) Hn.
  destruct (H fuel T Hf E conv bt bc com account recurse cumulative sel Ha Hagg Hred Hcum Hs) as (below & m & B1 & Em & _ & K).
  exists m. split; [exact Em|]. intros order Ho. destruct (K n order Ho) as [Io R]. assert (Us : under (t_parent T) account account) by constructor.
  assert (Nf : flat_map sel (below account) <> []).
  { destruct (B1 account Us) as [_ B2]. apply B2 in Ux. intros Ez. apply Nx. destruct (sel x) as [|e l] eqn:Es; [reflexivity|]. exfalso.
    assert (I : In e (flat_map sel (below account))) by (apply in_flat_map; exists x; rewrite Es; split; [exact Ux|left; reflexivity]). rewrite Ez in I. exact I. }
  assert (Ia : In (Some account) order) by (apply Io; eauto).
  destruct (resolve_tree fuel names known o1 o2 Nn Pk P1 P2) as (T' & E' & HT & _). assert (T' = T) by (fold all in E'; congruence). subst T'.
  assert (Len : (List.length order <= n)%nat).
  { apply Nat.le_trans with (List.length (map (@Some bytes) all)); [|rewrite map_length; exact Hn]. destruct Ho as (_ & _ & No & _). apply NoDup_incl_length; [exact No|].
    intros k Ik. apply Io in Ik as (y & -> & Uy & _). apply in_map. clear - HT Ha Uy. induction Uy as [|c q Ec U IH]; [exact Ha|]. destruct HT as (_ & _ & _ & _ & H5 & _).
    destruct (in_dec (list_eq_dec Ascii.ascii_dec) c all) as [I|I]; [exact I|]. rewrite (H5 c I) in Ec. discriminate. }
  assert (Sh : shown_cols n order = order) by (unfold shown_cols; replace (List.length order <=? n)%nat with true by (symmetry; apply Nat.leb_le; exact Len); reflexivity).
  destruct R as (rs & Er & _ & Il & _); [rewrite Sh; exact Ia|]. exists (shown_cols n order), rs. split; [exact Er|].
  destruct (flat_map sel (below account)) as [|e l] eqn:Ef; [congruence|]. intros ->. cbn in Il.
  apply (Il (period_of bt (e_date e)) (if bc then e_cat e else [])). split; [|intros ->; reflexivity]. unfold belongs. rewrite Z.eqb_refl. destruct bc; [rewrite eqb_bytes_refl|]; reflexivity.
Qed.
Print Assumptions C48_prints_partial.
(** It crashes when the account is not among the top n, when nothing is selected, when a category is empty (csv and json), and
    for a negative n. *)
Definition ex_report (n : Z) (sel : bytes -> list entry) (order : list (option bytes)) (bt : option (Z -> Z)) (bc : bool) : res bool :=
  match ex_tree with
  | Ok (T, _) => do m <- aggregated 30 ex_conv T (B "Assets") bt bc true sel;
                 do x <- aggregated_rows ex_conv (B "Assets") false n m order; Ok true
  | _ => Ok false
  end.
Definition ex_order := [Some (B "Assets:Bank"); Some (B "Assets"); Some (B "Assets:A")].
Theorem C48_crashes_refuted :
  ex_report 3 ex_sel ex_order (Some reduce_month) false = Ok true /\
  (* the account is not among the top 1 *)
  ex_report 1 ex_sel ex_order (Some reduce_month) false = Panic /\
  (* no postings *)
  ex_report 3 (fun _ => []) [] (Some reduce_month) false = Panic /\
  (* a transaction without a description, by payee *)
  ex_report 3 (fun x => if eqb_bytes x (B "Assets") then [(5, [], mkAmount 100 cad)] else []) [Some (B "Assets")] None true = Panic /\
  ex_report (-1) ex_sel ex_order (Some reduce_month) false = Panic.
Proof. repeat split; vm_compute; reflexivity. Qed.
Print Assumptions C48_crashes_refuted.
(** the order used is the one by size *)
Example C48_order : match ex_tree with
  | Ok (T, _) => match aggregated 30 ex_conv T (B "Assets") (Some reduce_month) false true ex_sel with
      | Ok m => map (fun a => match aget a m with Some ts => cum_magnitude ex_conv ts | None => Fail end) ex_order =
                map (fun z => Ok (Some (mkAmount z cad))) [120; 113; -7] /\ map fst m = map (fun x => Some (B x)) ["Assets"; "Assets:A"; "Assets:Bank"]%string
      | _ => False end
  | _ => False end.
Proof. vm_compute. auto. Qed.

(** ** C67: listing postings *)
Lemma other_exists x p : NoDup (x_posts x) -> In p (x_posts x) -> (2 <= List.length (x_posts x))%nat -> exists o, other x p = Some o /\ In o (x_posts x) /\ o <> p.
Proof.
  intros N I L. unfold other. destruct (List.find (fun q => negb (q =? p)%nat) (x_posts x)) as [o|] eqn:E.
  - apply List.find_some in E as [Io E]. exists o. split; [reflexivity|]. split; [exact Io|]. intros ->. rewrite Nat.eqb_refl in E. discriminate.
  - exfalso. assert (Only : forall q, In q (x_posts x) -> q = p).
    { intros q Iq. apply (List.find_none _ _ E) in Iq. apply negb_false_iff, Nat.eqb_eq in Iq. exact Iq. }
    destruct (x_posts x) as [|a [|b l]]; cbn in L; try lia. inversion N as [|? ? N1 _]; subst. apply N1. rewrite (Only a), (Only b) by (cbn; auto). left. reflexivity.
Qed.
Lemma nodup_app_inv {A} (l l' : list A) : NoDup (l ++ l') -> NoDup l /\ NoDup l'.
Proof.
  induction l as [|x l IH]; intros N; [split; [constructor|exact N]|]. cbn [app] in N. inversion N as [|? ? N1 N2]; subst. destruct (IH N2) as [K1 K2]. split; [|exact K2].
  constructor; [|exact K1]. intros I. apply N1, in_or_app. left. exact I.
Qed.
Lemma flat_nodup_one (xs : list rtx) x : NoDup (flat_map x_posts xs) -> In x xs -> NoDup (x_posts x).
Proof.
  induction xs as [|y xs IH]; intros N I; [destruct I|]. cbn [flat_map] in N. apply nodup_app_inv in N as [N1 N2]. destruct I as [->|I]; auto.
Qed.
Theorem C67_listing_partial : forall find comm conv accounts chk ts L ws sorted tx_of c sel, NoDup accounts ->
  load_transactions find comm conv accounts chk empty_ledger ts = Ok (L, ws, sorted) ->
  (forall x p, In x sorted -> In p (x_posts x) -> tx_of p = x) ->
  (* what is missing from the full property: *) (forall t, In t ts -> (2 <= List.length (t_postings t))%nat) ->
  (forall p, In p sel -> exists a, In p (reg L a)) -> Forall (fun q => a_com q = c) (quantities L sel) ->
  exists rows, listing conv L tx_of (zero_amount c) sel = Ok rows /\
    (* every posting with its quantity, the running totals, and the account of another posting of its transaction *)
    map (fun r => snd (fst r)) rows = quantities L sel /\
    running conv (zero_amount c) (quantities L sel) = Ok (map snd rows) /\
    Forall2 (fun p r => exists x o, In x sorted /\ In p (x_posts x) /\ In o (x_posts x) /\ o <> p /\ fst (fst r) = rp_acc (heap L o)) sel rows.
Proof.
  intros find comm conv accounts chk ts L ws sorted tx_of c sel Na H Ht H2 Hs Hq.
  destruct (C34_registers _ _ _ _ _ _ _ _ _ _ empty_ok Na H) as (Hok & xs & Px & R & Nd & Hreg).
  assert (Each : forall p, In p sel -> exists x o q, In x sorted /\ In p (x_posts x) /\ In o (x_posts x) /\ o <> p /\ other (tx_of p) p = Some o /\ rp_qty (heap L p) = Some q).
  { intros p Ip. destruct (Hs p Ip) as (a & Ia). destruct (Hreg a) as [_ Pm]. cbn [reg empty_ledger app] in Pm. apply (Permutation_in _ (Permutation_sym Pm)) in Ia. unfold made_to in Ia. apply filter_In in Ia as [Ia _].
    apply in_flat_map in Ia as (x & Ix & Ipx). assert (Is : In x sorted) by (apply (Permutation_in _ Px), Ix). rewrite (Ht x p Is Ipx).
    assert (Rx : exists t, In t ts /\ resolved find comm conv L t x).
    { clear - R Ix. induction R as [|t y ts xs Ry R IH]; [destruct Ix|]. destruct Ix as [->|Ix]; [exists t; split; [left; auto|auto]|].
      destruct (IH Ix) as (t' & I & K). exists t'. split; [right; auto|auto]. }
    destruct Rx as (t & It & Rx). destruct Rx as (_ & _ & _ & _ & Rx & _). assert (Len : List.length (t_postings t) = List.length (x_posts x)) by (eapply Forall2_length, Rx). specialize (H2 t It).
    destruct (other_exists x p (flat_nodup_one xs x Nd Ix) Ipx ltac:(lia)) as (o & Eo & Io & Do).
    assert (Q : exists q, rp_qty (heap L p) = Some q).
    { clear - Rx Ipx. induction Rx as [|s y ss ys K Rx IH]; [destruct Ipx|]. destruct Ipx as [->|I]; [|auto]. destruct K as (_ & _ & _ & _ & (q & Q & _) & _). eauto. }
    destruct Q as (q & Q). exists x, o, q. auto 7. }
  clear - Each Hq. revert Hq. change (zero_amount c) with (mkAmount 0 c). generalize 0 as z0. induction sel as [|p sel IH]; intros z0 Hq.
  - exists []. repeat split. constructor.
  - destruct (Each p (or_introl eq_refl)) as (x & o & q & Ix & Ip & Io & Do & Eo & Q). cbn [listing]. rewrite Eo, Q.
    change (quantities L (p :: sel)) with ((match rp_qty (heap L p) with Some q => [q] | None => [] end) ++ quantities L sel) in *. rewrite Q in *. cbn [app] in *.
    apply Forall_cons_iff in Hq as [Hq1 Hq2]. cbn [running]. rewrite add_in_same by (cbn; congruence). cbn [bind a_int a_com].
    destruct (IH (fun p I => Each p (or_intror I)) (z0 + a_int q) Hq2) as (rows & E & M & Ru & F). rewrite E. cbn [bind]. eexists. split; [reflexivity|]. cbn [map fst snd].
    rewrite M, Ru. split; [reflexivity|]. split; [reflexivity|]. constructor; [|exact F]. cbn [fst snd]. eauto 8.
Qed.
Print Assumptions C67_listing_partial.
Example C67_example : match ex_load with
  | Ok (L, _, xs) => let tx_of p := match List.find (fun x => existsb (Nat.eqb p) (x_posts x)) xs with Some x => x | None => mkTx 0 [] [] [] [] 0 end in
      match listing ex_conv L tx_of (zero_amount cad) (reg L (B "A")) with
      | Ok rows => List.length rows = List.length (reg L (B "A")) /\ (2 <= List.length rows)%nat
      | _ => False end
  | _ => False end.
Proof. vm_compute. split; [reflexivity|]. repeat constructor. Qed.
(** A transaction with a single posting loads (its amount is zero) but cannot be listed. *)
Theorem C67_listing_refuted : match load_transactions ex_find ex_comm ex_conv ex_accounts true empty_ledger [tr 10 [ps "A" None None]] with
  | Ok (L, ws, [x]) => ws = [] /\ reg L (B "A") = x_posts x /\ listing ex_conv L (fun _ => x) (zero_amount cad) (reg L (B "A")) = Panic
  | _ => False end.
Proof. vm_compute. auto. Qed.
Print Assumptions C67_listing_refuted.

(** ** C69: the payee and tag options *)
Theorem C69_selection_partial : forall compile date info b e tag payee regs, Forall (in_date_order date) regs ->
  (* what is missing from the full property: several registers with an inverted payee *)
  (forall r, payee = B "!" ++ r -> (List.length regs <= 1)%nat) ->
  trim_each compile date info b e tag payee regs = map (filter (selected compile date info b e tag payee)) regs.
Proof.
  intros compile date info b e tag payee regs F H. destruct (payee) as [|c r] eqn:Ep; [apply trim_each_spec; [discriminate|exact F]|]. rewrite <- Ep in *.
  destruct (eqc c "!"%char) eqn:Ec.
  - apply Ascii.eqb_eq in Ec. subst c. specialize (H r Ep). destruct regs as [|ps [|ps' regs]]; [reflexivity| |cbn in H; lia]. apply Forall_cons_iff in F as [F _]. cbn [trim_each map].
    rewrite <- (register_trim_spec compile date info b e tag payee ps F). destruct (register_trim compile date info b e tag payee ps). reflexivity.
  - apply trim_each_spec; [|exact F]. rewrite Ep. intros c' r' E. congruence.
Qed.
Print Assumptions C69_selection_partial.
Theorem C69_balance_selection : forall compile date info b e tag payee ps, in_date_order date ps ->
  balance_trim compile date info b e tag payee ps =
    filter (fun p => in_range b e (date p) && match payee with [] => true | _ => compile payee (pi_desc (info p)) end && tag_ok compile tag (info p)) ps.
Proof.
  intros compile date info b e tag payee ps H. unfold balance_trim. rewrite trim_filter by exact H.
  assert (Tag : forall l, tag_filter compile info tag l = filter (fun p => tag_ok compile tag (info p)) l).
  { intros l. unfold tag_filter, tag_ok. destruct (new_tag_matcher compile tag); [reflexivity|]. symmetry. apply filter_all. reflexivity. }
  rewrite Tag. destruct payee as [|c r]; [|rewrite !filter_filter; apply filter_ext; intros p; rewrite andb_assoc; reflexivity]. rewrite filter_filter. apply filter_ext. intros p. rewrite andb_true_r. reflexivity.
Qed.
Print Assumptions C69_balance_selection.
Definition c69_compile (p s : bytes) : bool := eqb_bytes p s.
Definition c69_info (p : nat) : pinfo := mkInfo (if Nat.even p then B "rent" else B "food") [] [].
Example C69_example : trim_each c69_compile (fun p => 10 * Z.of_nat p) c69_info (Some 10) None [] (B "rent") [[0; 1; 2]; [3; 4]]%nat = [[2]; [4]]%nat /\
  trim_each c69_compile (fun p => 10 * Z.of_nat p) c69_info (Some 10) None [] (B "!rent") [[0; 1; 2]]%nat = [[1]]%nat.
Proof. split; vm_compute; reflexivity. Qed.
(** With several accounts -p '!...' is inverted for the first one only. *)
Theorem C69_selection_refuted : exists regs, Forall (in_date_order (fun p => Z.of_nat p)) regs /\
  trim_each c69_compile (fun p => Z.of_nat p) c69_info None None [] (B "!rent") regs <>
    map (filter (selected c69_compile (fun p => Z.of_nat p) c69_info None None [] (B "!rent"))) regs.
Proof.
  exists [[0; 1]; [2; 3]]%nat. split; [|vm_compute; discriminate].
  repeat (constructor; [repeat (constructor; [|repeat (constructor; [lia|]); constructor]); constructor|]). constructor.
Qed.
Print Assumptions C69_selection_refuted.

(** ** C71: aggregating by tags: two postings share a category iff they have the same tags, the posting's own before its transaction's *)
Definition effective (xnotes pnotes : list bytes) (k : bytes) : option bytes :=
  match tag_get k (parse_tags pnotes) with Some v => Some v | None => tag_get k (parse_tags xnotes) end.
Theorem C71_tag_category : forall xn pn xn' pn',
  tag_category (parse_tags xn) (parse_tags pn) = tag_category (parse_tags xn') (parse_tags pn') <->
  forall k, effective xn pn k = effective xn' pn' k.
Proof.
  intros xn pn xn' pn'. rewrite category_spec by apply parse_tags_ok. unfold effective. split; intros H k; specialize (H k).
  - rewrite !tags_with_get in H by apply parse_tags_ok. exact H.
  - rewrite !tags_with_get by apply parse_tags_ok. exact H.
Qed.
Print Assumptions C71_tag_category.
(** the category does not depend on the order in which maps are iterated, and is never empty *)
Theorem C71_map_order : forall xn pn x p, Permutation x (parse_tags xn) -> Permutation p (parse_tags pn) ->
  tag_category x p = tag_category (parse_tags xn) (parse_tags pn) /\ tag_category x p <> [].
Proof.
  assert (Pt : forall n x, Permutation x (parse_tags n) -> tags_ok x /\ forall k, tag_get k x = tag_get k (parse_tags n)).
  { intros n x P. destruct (parse_tags_ok n) as [N F]. assert (N' : NoDup (map fst x)) by (eapply Permutation_NoDup; [apply Permutation_map, Permutation_sym, P|exact N]).
    split; [split; [exact N'|eapply Permutation_Forall; [apply Permutation_sym, P|exact F]]|]. intros k. destruct (tag_get k (parse_tags n)) as [v|] eqn:E.
    - apply tag_get_in; [exact N'|]. apply (Permutation_in _ (Permutation_sym P)), tag_get_in; auto.
    - destruct (tag_get k x) as [v|] eqn:E'; [|reflexivity]. apply tag_get_in, (Permutation_in _ P), tag_get_in in E'; auto. congruence. }
  intros xn pn x p Px Pp. destruct (Pt _ _ Px) as [Ox Gx], (Pt _ _ Pp) as [Op Gp]. split.
  - apply category_spec; auto using parse_tags_ok. intros k. rewrite !tags_with_get by (try apply parse_tags_ok; try apply Ox; apply Op). rewrite Gx, Gp. reflexivity.
  - unfold tag_category. destruct (tags_with x p) as [|kv t] eqn:E; [discriminate|]. rewrite <- E. assert (Ow := tags_with_ok _ _ Ox Op).
    destruct (category_head (tags_with x p) Ow) as (c & r & Ec & _); [rewrite E; discriminate|]. rewrite Ec. discriminate.
Qed.
Print Assumptions C71_map_order.
Example C71_example : tag_category (parse_tags [B "#trip: Rome, #a"]) (parse_tags [B "#trip: Oslo"]) = B "a,trip:Oslo" /\ tag_category [] [] = B "<no-tags>".
Proof. split; vm_compute; reflexivity. Qed.

(** ** C72: the register with -r lists the postings of all accounts below in date order, those of a day in the order of the accounts *)
Theorem C72_recursive_register : forall date (sel : bytes -> list nat) accs,
  let ps := recursive_postings date sel accs in
  Permutation (flat_map sel accs) ps /\ in_date_order date ps /\ forall d, of_day date d ps = of_day date d (flat_map sel accs).
Proof.
  intros date sel accs ps. unfold ps, recursive_postings. split; [apply stable_sort_perm|]. split.
  - assert (W : weak_order (fun p q => date p <? date q)) by (split; intros; lia). assert (S := stable_sort_sorted _ (flat_map sel accs) W).
    unfold sorted_by in S. unfold in_date_order. clear - S. induction S as [|x l S IH F]; constructor; [exact IH|]. rewrite Forall_forall in *. intros y I. specialize (F y I). cbn in F. lia.
  - intros d. unfold of_day. apply stable_sort_stable. intros x y _ _ Hx Hy. lia.
Qed.
Print Assumptions C72_recursive_register.
Example C72_example : recursive_postings (fun p => nth p [30; 10; 20; 10] 0) (fun a => if eqb_bytes a (B "A") then [1; 0]%nat else [3; 2]%nat) [B "A"; B "B"] = [1; 3; 2; 0]%nat.
Proof. reflexivity. Qed.
