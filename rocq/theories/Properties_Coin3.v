(** C125, C126: the aggregated coin register, from the files to the table. *)
From Coq Require Import Permutation Sorted.
From Verif Require Import Base M_Amount M_Convert M_Date M_Names M_Tags M_Parser M_Ledger M_Report M_Database M_Output M_Coin
  S_Decimal S_Amount S_Names S_Books S_Report S_Database S_Output S_Coin L_Dec L_Sort L_Amount L_Tree L_Tree2 L_Balance L_Registers L_Resolve L_Load L_Recheck L_Database L_Database2 L_Output L_Output2 L_Entries L_Date L_Report L_Aggregate L_Coin L_Coin2
  Properties_Parser Properties_Names Properties_Ledger Properties_Tree Properties_Report Properties_Database Properties_Output Properties_Table Properties_Coin Properties_Coin2.
Local Open Scope Z_scope.

Lemma find_combine {A} (f : bytes -> A) l x : In x l -> List.find (fun e => eqb_bytes x (fst e)) (combine l (map f l)) = Some (x, f x).
Proof.
  induction l as [|y l IH]; intros I; [destruct I|]. cbn [map combine List.find fst]. destruct (eqb_bytes x y) eqn:E; [apply eqb_bytes_iff in E; subst; reflexivity|].
  destruct I as [-> |I]; [rewrite eqb_bytes_refl in E; discriminate|auto].
Qed.
Lemma zsum_ext {A} (f g : A -> Z) l : (forall x, In x l -> f x = g x) -> zsum (map f l) = zsum (map g l).
Proof. intros H. f_equal. apply map_ext_in, H. Qed.
Definition row_entry (com : commodity) (cat : option (row -> bytes)) (r : row) : S_Report.entry :=
  (row_date r, match cat with Some c => c r | None => [] end, mkAmount (row_value r) com).
Definition category_of (c : category) : row -> bytes := row_category (match c with ByTags => true | ByPayee => false end).

Section Sums.
Context (com : commodity) (bt : option (Z -> Z)) (cat : option (row -> bytes)).
Let bc := match cat with Some _ => true | None => false end.
Let ent := row_entry com cat.
Lemma belongs_line t k r : belongs bt bc t k (ent r) = on_line bt cat t k r.
Proof. unfold belongs, on_line, ent, row_entry, period_of, e_date, e_cat, bc. cbn [fst snd]. destruct cat; reflexivity. Qed.
Lemma line_sum_rows t k R rows (ch : row -> bool) : Permutation R (filter ch rows) -> line_sum bt bc t k (map ent R) = sum_of rows (fun r => on_line bt cat t k r && ch r).
Proof.
  intros P. unfold line_sum, sum_of. rewrite filter_map_comm, map_map. change (fun x => a_int (e_qty (ent x))) with row_value.
  rewrite (filter_ext _ (on_line bt cat t k)) by (intros r; apply belongs_line). rewrite (zsum_perm _ _ (Permutation_map row_value (perm_filter (on_line bt cat t k) _ _ P))).
  rewrite filter_filter. f_equal. f_equal. apply filter_ext. intros r. apply andb_comm.
Qed.
Lemma upto_rows t R rows (ch : row -> bool) : Permutation R (filter ch rows) -> sum_upto bt t (map ent R) = sum_of rows (fun r => up_to bt t r && ch r).
Proof.
  intros P. unfold sum_upto, sum_of. rewrite filter_map_comm, map_map. change (fun x => a_int (e_qty (ent x))) with row_value.
  rewrite (zsum_perm _ _ (Permutation_map row_value (perm_filter _ _ _ P))).
  rewrite filter_filter. f_equal. f_equal. apply filter_ext. intros r. rewrite andb_comm. reflexivity.
Qed.
End Sums.
Lemma line_sum_flat {A} bt bc t k (f : A -> list S_Report.entry) l : line_sum bt bc t k (flat_map f l) = zsum (map (fun x => line_sum bt bc t k (f x)) l).
Proof. unfold line_sum. induction l as [|x l IH]; [reflexivity|]. cbn [flat_map map]. rewrite filter_app, map_app, zsum_app, IH. reflexivity. Qed.
Lemma upto_flat {A} bt t (f : A -> list S_Report.entry) l : sum_upto bt t (flat_map f l) = zsum (map (fun x => sum_upto bt t (f x)) l).
Proof. unfold sum_upto. induction l as [|x l IH]; [reflexivity|]. cbn [flat_map map]. rewrite filter_app, map_app, zsum_app, IH. reflexivity. Qed.
Lemma firstn_in {A} n (l : list A) x : In x (firstn n l) -> In x l.
Proof. intros I. rewrite <- (firstn_skipn n l). apply in_or_app. left. exact I. Qed.
Lemma list_neq_nil {A} (l : list A) : l <> [] <-> exists x, In x l.
Proof. split; [destruct l as [|x l]; [congruence|exists x; left; reflexivity]|intros (x & I) ->; exact I]. Qed.

Lemma first_day_ok p d : period_reduce p d = first_day p d.
Proof.
  destruct p; cbn [period_reduce first_day]; [apply reduce_week_eq| | |reflexivity].
  - unfold reduce_month. replace (go_date (year_of d) (month_of d) 1) with (go_date (year_of d) (month_of d) (day_of d + (1 - day_of d))) by (f_equal; lia). rewrite go_date_day, go_date_civil. lia.
  - unfold reduce_quarter. f_equal. destruct (civil_valid d) as [H _]. destruct (Z.leb_spec (month_of d) 3), (Z.leb_spec (month_of d) 6), (Z.leb_spec (month_of d) 9); lia.
Qed.
Lemma period_text_ok p : period_format p = period_text p.
Proof. destruct p; reflexivity. Qed.
Lemma on_line_ok per g t k r : on_line (option_map period_reduce per) g t k r = on_line (option_map first_day per) g t k r.
Proof. destruct per as [p|]; [|reflexivity]. unfold on_line. cbn [option_map]. rewrite first_day_ok. reflexivity. Qed.
Lemma up_to_ok per t r : up_to (option_map period_reduce per) t r = up_to (option_map first_day per) t r.
Proof. destruct per as [p|]; [|reflexivity]. unfold up_to. cbn [option_map]. rewrite first_day_ok. reflexivity. Qed.
Lemma sum_of_ext rows P Q : (forall r, P r = Q r) -> sum_of rows P = sum_of rows Q.
Proof. intros H. unfold sum_of. do 2 f_equal. apply filter_ext, H. Qed.

Lemma aggregated_from : forall limit w files compile rexm fuel comm b es, load_from limit w files compile fuel comm b ->
  all_entries w [] files es ->
  forall tx_of, (forall x p, In x (b_txs b) -> In p (x_posts x) -> tx_of p = x) ->
  (forall t, In t (map snd (ev_txs es)) -> in_account_commodity (must_find_account compile (b_names b)) comm t) ->
  exists N, forall o fuel' pattern acc begin end_ tag payee per cat (recurse cumulative : bool) size com, (N <= fuel')%nat ->
    must_find_account compile (b_names b) pattern = Ok acc ->
    per <> None \/ cat <> None -> (cumulative = true -> cat = None) ->
    (* -p with !: C69_selection_refuted *)
    (forall r, payee <> B "!" ++ r) ->
    let parent := t_parent (b_tree b) in
    (forall x, under parent acc x -> comm x = com) ->
    let rows := rows_of (map snd (ev_txs es)) in
    let chosen := row_chosen rexm begin end_ tag payee (must_find_account compile (b_names b)) in
    let reduce := option_map first_day per in
    let group := option_map category_of cat in
    (* no empty description: C122_empty_category_refuted *)
    (cat = Some ByPayee -> forall x r, In r rows -> under parent acc x -> chosen x r = true -> t_desc (fst r) <> []) ->
    exists below m, (forall x, under parent acc x -> NoDup (below x) /\ forall y, In y (below x) <-> under parent x y) /\
    coin_totals fuel' rexm o b tx_of begin end_ tag payee per cat recurse acc = Ok m /\
    (* the order of the columns, by size *)
    (exists order, top_order (book_conv (b_prices b) o) m order) /\
    forall n order, top_order (book_conv (b_prices b) o) m order ->
      (forall k, In k order <-> exists x y r, k = Some x /\ under parent acc x /\ under parent x y /\ In r rows /\ chosen y r = true) /\
      let own P x := sum_of rows (fun r => P r && chosen x r) in
      let counted P k := match k with Some x => if recurse then zsum (map (own P) (below x)) else own P x | None => 0 end in
      let column P k := match k with Some _ => counted P k | None => zsum (map (counted P) (skipn n order)) end in
      let amount t k col := mkAmount (column (if cumulative then up_to reduce t else on_line reduce group t k) col) com in
      (In (Some acc) (shown_cols n order) ->
       exists keys, StronglySorted line_before keys /\
       (forall t k, In (t, k) keys <-> (exists x r, under parent acc x /\ In r rows /\ chosen x r = true /\ on_line reduce group t k r = true) /\ (cat = None -> k = [])) /\
       ((forall t k col, In (t, k) keys -> In col (shown_cols n order) -> printable (amount t k col)) ->
        exists labels body, Forall2 (heading acc size) (shown_cols n order) labels /\
          let dated := match per with Some _ => true | None => false end in
          let grouped := match cat with Some _ => true | None => false end in
          let text := match per with Some p => period_text p | None => format_date end in
          Forall2 (fun key => table_row dated grouped text (key, map (amount (fst key) (snd key)) (shown_cols n order))) keys body /\
          let header date category := (if dated then [date] else []) ++ (if grouped then [category] else []) ++ labels in
          let printed f := coin_aggregated fuel' compile rexm o comm b tx_of pattern begin end_ tag payee per cat recurse cumulative (Z.of_nat n) size f order in
          (exists out, printed OutCsv = Ok out /\ read_csv out = Some (header (B "Date") (B "Category") :: body)) /\
          (exists out, printed OutJson = Ok out /\ read_json_lines out = Some (header (B "Date") (B "Category") :: body)) /\
          ((forall t k, In (t, k) keys -> 0 <= year_of t <= 9999) ->
           exists lines, printed OutText = Ok (acc ++ B " " ++ c_id com ++ [chr 10] ++ table_text lines) /\
             Forall2 (Forall2 right_set) (header [] [] :: body) lines /\ aligned rune_count lines))).
Proof.
  intros limit w files compile rexm fuel comm b es Hload Hes tx_of Htx Hq.
  destruct (book_facts_from _ _ _ _ _ _ _ _ Hload Hes) as (o0 & xs & Ho & HT & _ & Hfind & Px & Rx & Nd & Hd & Hin & names & known0 & o1 & o2 & Nn & Pk & Eall & P1 & P2 & Rf). clear Hload.
  assert (P1' : Permutation o1 (with_parents known0 (base_accounts names))) by (rewrite Eall; exact P1).
  assert (P2' : Permutation o2 (with_parents known0 (base_accounts names))) by (rewrite Eall; exact P2).
  destruct (C70_aggregated_register names known0 o1 o2 Nn Pk P1' P2') as (N1 & H70). destruct (C122_aggregated_output names known0 o1 o2 Nn Pk P1' P2') as (N2 & H122).
  exists (S (bound (b_names b)) + N1 + N2)%nat.
  intros o fuel' pattern acc begin end_ tag payee per cat recurse cumulative size com Hf Hacc Hagg Hcum Hpay parent Hcom rows chosen reduce group Hne.
  assert (Etext : match per with Some p => period_format p | None => format_date end = match per with Some p => period_text p | None => format_date end) by (destruct per as [p|]; [apply period_text_ok|reflexivity]).
  set (red := option_map period_reduce per).
  assert (Ia : In acc (b_names b)) by (eapply Hfind, Hacc).
  set (find := must_find_account compile (b_names b)) in *. set (L := b_ledger b) in *. set (conv0 := book_conv (b_prices b) o0) in *. set (conv := book_conv (b_prices b) o). set (ts := map snd (ev_txs es)) in *.
  assert (HX : forall x p, In x xs -> In p (x_posts x) -> tx_of p = x) by (intros x p Ix; apply Htx; eapply Permutation_in; eassumption).
  destruct (rows_fun find comm conv0 L ts xs Rx Nd) as (phi & HP & HF).
  set (selp := selected rexm (dates L) (posting_info L tx_of) begin end_ tag payee).
  set (R := fun x => map phi (filter selp (reg L x))).
  set (ent := row_entry com group).
  set (sel := register_entries fuel' rexm L tx_of (b_tree b) begin end_ tag payee cat acc).
  assert (Kn : forall a p, In p (reg L a) -> In p (flat_map x_posts xs)) by (intros a p; apply (reg_known L xs Hd)).
  (* what is added for an account *)
  assert (Esel : forall x, under parent acc x -> sel x = map ent (R x)).
  { intros x U. unfold sel, register_entries. rewrite C69_selection_partial.
    - rewrite map_map. rewrite (find_combine (fun x => filter (selected rexm (dates L) (posting_info L tx_of) begin end_ tag payee) (reg L x))) by (apply (reach_under _ _ HT); [lia|exact Ia|exact U]).
      fold selp. unfold R. rewrite map_map. assert (K : forall p, In p (filter selp (reg L x)) -> In p (flat_map x_posts xs) /\ rp_acc (heap L p) = x).
      { intros p I. apply filter_In in I as [I _]. split; [eapply Kn, I|]. eapply Permutation_in in I; [|apply Permutation_sym, (dated_perm _ _ _ (Hd x))]. unfold made_to in I. apply filter_In in I as [_ I]. apply eqb_bytes_iff in I. exact I. }
      induction (filter selp (reg L x)) as [|p ps IH]; [reflexivity|]. cbn [flat_map map]. rewrite IH by (intros q I; apply K; right; exact I).
      destruct (row_facts find comm conv0 L tx_of ts xs HX Hq p _ (HF p (proj1 (K p (or_introl eq_refl))))) as (y & s & Ey & _ & _ & Ry & _ & _ & Es & Rs & ->).
      rewrite (proj2 (K p (or_introl eq_refl))), (Hcom x U).
      destruct Ry as (Ry1 & _ & Ry2 & Ry3 & _). destruct Rs as (_ & _ & _ & Rn & _). cbn [app]. f_equal. unfold ent, row_entry, group, row_date. rewrite Ey, Ry1. f_equal. f_equal.
      destruct cat as [[]|]; cbn [option_map]; unfold posting_category, category_of, row_category; [rewrite Ey; exact Ry2| |reflexivity]. rewrite Ey, Es, Ry3, Rn. reflexivity.
    - apply Forall_forall. intros l I. apply in_map_iff in I as (a & <- & _). apply Hd.
    - intros r Er. exfalso. eapply Hpay, Er. }
  assert (PR : forall x, Permutation (R x) (filter (chosen x) rows)).
  { intros x. unfold R, rows, chosen. rewrite <- HP, filter_map_comm. apply Permutation_map. etransitivity; [apply perm_filter, Permutation_sym, (dated_perm _ _ _ (Hd x))|].
    unfold made_to. rewrite filter_filter. erewrite filter_ext_in; [reflexivity|]. intros p I. cbv beta. rewrite (chosen_at find comm conv0 rexm L tx_of ts xs HX Hq _ _ _ _ _ p _ (HF p I)). apply andb_comm. }
  assert (HR : forall x r, In r (R x) <-> In r rows /\ chosen x r = true).
  { intros x r. split; intros I.
    - eapply Permutation_in in I; [|apply PR]. apply filter_In in I. exact I.
    - eapply Permutation_in; [apply Permutation_sym, PR|]. apply filter_In. exact I. }
  set (bc := match cat with Some _ => true | None => false end) in *.
  assert (Ebc : match group with Some _ => true | None => false end = bc) by (unfold group, bc; destruct cat; reflexivity).
  assert (Hagg' : red <> None \/ bc = true) by (unfold red, bc; destruct Hagg as [H|H]; [left; destruct per; [discriminate|congruence]|right; destruct cat; [reflexivity|congruence]]).
  assert (Hred : reducer_ok red).
  { unfold red. destruct per as [p|]; [|exact I]. cbn [option_map]. apply C45_periods. destruct p; cbn [period_reduce In]; auto. }
  assert (Hcum' : cumulative = true -> bc = false) by (intros H; unfold bc; rewrite (Hcum H); reflexivity).
  assert (Hs : forall x, under parent acc x -> entries_in_order (sel x) /\ entries_in com (sel x) /\ (bc = true -> Forall (fun e => e_cat e <> []) (sel x))).
  { intros x U. rewrite (Esel x U). split; [|split].
    - unfold entries_in_order. apply sorted_map. unfold R. apply sorted_map. change (StronglySorted (fun p q => row_date (phi p) <= row_date (phi q)) (filter selp (reg L x))).
      apply sorted_filter. eapply sorted_in; [|apply (Hd x)]. intros p q Ip Iq E.
      rewrite <- (proj1 (date_at find comm conv0 L tx_of ts xs HX Hq phi HF p (Kn _ _ Ip))), <- (proj1 (date_at find comm conv0 L tx_of ts xs HX Hq phi HF q (Kn _ _ Iq))). exact E.
    - unfold entries_in. apply Forall_map, Forall_forall. intros r _. reflexivity.
    - intros Hb. apply Forall_map, Forall_forall. intros r I. apply HR in I as [I1 I2]. unfold ent, row_entry, e_cat, group. cbn [fst snd]. unfold bc in Hb. destruct cat as [[]|]; [| |discriminate]; cbn [option_map].
      + unfold category_of, row_category. eapply Hne; eauto.
      + unfold category_of, row_category. unfold chosen, row_chosen in I2. destruct (posting_of r) as [s|]; [|discriminate]. apply (C71_map_order (t_notes (fst r)) (ps_notes s)); reflexivity. }
  destruct (H70 fuel' (b_tree b)) with (conv := conv) (bt := red) (bc := bc) (com := com) (account := acc) (recurse := recurse) (cumulative := cumulative) (sel := sel)
    as (below & m & Hb & Em & Hex & Hcol); [lia|rewrite Eall; apply Rf|rewrite Eall; exact Ia|exact Hagg'|exact Hred|exact Hcum'|exact Hs|].
  destruct (H122 fuel' (b_tree b)) with (conv := conv) (comm := comm) (bt := red) (bc := bc) (com := com) (account := acc) (recurse := recurse) (cumulative := cumulative) (size := size) (sel := sel)
    as (m' & Em' & Hout); [lia|rewrite Eall; apply Rf|rewrite Eall; exact Ia|exact Hagg'|exact Hred|exact Hcum'|exact Hs|]. assert (m' = m) by congruence. subst m'.
  exists below, m. split; [exact Hb|]. split; [exact Em|]. split; [exact Hex|]. intros n order Hor. destruct (Hcol n order Hor) as [Ho1 Ho2]. clear Hcol.
  assert (Hsub : forall x y, under parent acc x -> In y (below x) -> under parent acc y).
  { intros x y U I. apply (proj2 (Hb x U)) in I. clear -U I. induction I as [|q d E I IH]; [exact U|econstructor; eassumption]. }
  assert (Hord : forall k, In k order <-> exists x y r, k = Some x /\ under parent acc x /\ under parent x y /\ In r rows /\ chosen y r = true).
  { intros k. rewrite Ho1. split.
    - intros (x & -> & U & Nx). apply list_neq_nil in Nx as (e & Ie). apply in_flat_map in Ie as (y & Iy & Ie). rewrite (Esel y (Hsub x y U Iy)) in Ie. apply in_map_iff in Ie as (r & _ & Ir). apply HR in Ir as [I1 I2].
      exists x, y, r. split; [reflexivity|]. split; [exact U|]. split; [apply (Hb x U), Iy|]. auto.
    - intros (x & y & r & -> & U & Uy & I1 & I2). exists x. split; [reflexivity|]. split; [exact U|]. apply list_neq_nil. exists (ent r). apply in_flat_map. assert (Iy : In y (below x)) by (apply (Hb x U), Uy). exists y. split; [exact Iy|].
      rewrite (Esel y (Hsub x y U Iy)). apply in_map, HR. auto. }
  split; [exact Hord|]. intros own counted column amount Hacc_shown.
  destruct (Ho2 Hacc_shown) as (rs & Er & Srt & Hkeys & Hxs). clear Ho2.
  destruct (Hout n order (match per with Some p => period_format p | None => format_date end) Hor Hacc_shown) as (rs' & Er' & Hpr); [destruct per as [[]|]; cbn [period_format In]; auto|]. assert (rs' = rs) by congruence. subst rs'. clear Er'.
  assert (Eown : forall x, under parent acc x -> forall t k, line_sum red bc t k (sel x) = own (on_line reduce group t k) x /\ sum_upto red t (sel x) = own (up_to reduce t) x).
  { intros x U t k. rewrite (Esel x U), <- Ebc. split.
    - etransitivity; [apply (line_sum_rows com red group t k (R x) rows (chosen x) (PR x))|]. apply sum_of_ext. intros r. unfold red, reduce. rewrite on_line_ok. reflexivity.
    - etransitivity; [apply (upto_rows com red group t (R x) rows (chosen x) (PR x))|]. apply sum_of_ext. intros r. unfold red, reduce. rewrite up_to_ok. reflexivity. }
  assert (Ecnt : forall k, In k order -> forall t kk, (if cumulative then sum_upto red t (counted_by recurse sel below k) else line_sum red bc t kk (counted_by recurse sel below k)) =
      counted (if cumulative then up_to reduce t else on_line reduce group t kk) k).
  { intros k Ik t kk. apply Hord in Ik as (x & _ & _ & -> & U & _). unfold counted_by, counted. destruct recurse.
    - destruct cumulative; [rewrite upto_flat|rewrite line_sum_flat]; apply zsum_ext; intros y Iy; apply (Eown y (Hsub x y U Iy) t kk).
    - destruct cumulative; apply (Eown x U t kk). }
  assert (Eamt : forall t k col, In col (shown_cols n order) -> mkAmount (if cumulative then sum_upto red t (col_entries n order (counted_by recurse sel below) col) else line_sum red bc t k (col_entries n order (counted_by recurse sel below) col)) com = amount t k col).
  { intros t k col Ic. unfold amount, column. f_equal. destruct col as [x|].
    - cbn [col_entries]. apply Ecnt. unfold shown_cols in Ic. destruct (_ <=? n)%nat; [exact Ic|]. destruct (_ =? S n)%nat; [eapply firstn_in; exact Ic|]. apply in_app_iff in Ic as [Ic|[Ic|[]]]; [|discriminate]. eapply firstn_in; exact Ic.
    - cbn [col_entries]. assert (K : forall l, (forall k', In k' l -> In k' order) -> (if cumulative then sum_upto red t (flat_map (counted_by recurse sel below) l) else line_sum red bc t k (flat_map (counted_by recurse sel below) l)) =
        zsum (map (counted (if cumulative then up_to reduce t else on_line reduce group t k)) l)).
      { intros l I. transitivity (zsum (map (fun k' => if cumulative then sum_upto red t (counted_by recurse sel below k') else line_sum red bc t k (counted_by recurse sel below k')) l)).
        - destruct cumulative; [apply upto_flat|apply line_sum_flat].
        - apply zsum_ext. intros k' I'. apply Ecnt, I, I'. }
      apply K. intros k' I'. rewrite <- (firstn_skipn n order). apply in_or_app. right. exact I'. }
  exists (map fst rs). split; [exact Srt|]. split.
  { intros t k. rewrite Hkeys. assert (Ecat : bc = false <-> cat = None) by (unfold bc; destruct cat; split; congruence). rewrite Ecat.
    assert (E : has_line red bc t k (flat_map sel (below acc)) = true <-> exists x r, under parent acc x /\ In r rows /\ chosen x r = true /\ on_line reduce group t k r = true); [|rewrite E; reflexivity].
    assert (Us : under parent acc acc) by constructor. unfold has_line. rewrite existsb_exists. split.
    - intros (e & Ie & Be). apply in_flat_map in Ie as (y & Iy & Ie). rewrite (Esel y (Hsub acc y Us Iy)) in Ie. apply in_map_iff in Ie as (r & <- & Ir). apply HR in Ir as [I1 I2]. exists y, r. split; [apply (Hb acc Us), Iy|]. split; [exact I1|]. split; [exact I2|].
      rewrite <- Ebc in Be. unfold ent, red in Be. rewrite belongs_line, on_line_ok in Be. exact Be.
    - intros (x & r & U & I1 & I2 & On). exists (ent r). split.
      + apply in_flat_map. exists x. split; [apply (Hb acc Us), U|]. rewrite (Esel x U). apply in_map, HR. auto.
      + rewrite <- Ebc. unfold ent, red. rewrite belongs_line, on_line_ok. exact On. }
  intros Hprint.
  assert (Exs : forall t k vs, In (t, k, vs) rs -> vs = map (amount t k) (shown_cols n order)).
  { intros t k vs I. rewrite (Hxs t k vs I). apply map_ext_in. intros col Ic. apply (Eamt t k col Ic). }
  destruct Hpr as (labels & body & Hlab & Hbody & Hcsv & Hjson & Htext).
  { intros t k vs I. rewrite (Exs t k vs I). apply Forall_map, Forall_forall. intros col Ic. apply Hprint; [apply (in_map fst) in I; exact I|exact Ic]. }
  assert (Eprint : forall f, coin_aggregated fuel' compile rexm o comm b tx_of pattern begin end_ tag payee per cat recurse cumulative (Z.of_nat n) size f order =
      aggregated_register conv comm (match per with Some p => period_format p | None => format_date end) f size acc cumulative (Z.of_nat n) m order).
  { intros f. unfold coin_aggregated. fold find. unfold find in Hacc |- *. rewrite Hacc. cbn [bind]. unfold coin_totals. fold red bc L conv sel. rewrite Em. reflexivity. }
  assert (Eper : match red with Some _ => true | None => false end = match per with Some _ => true | None => false end) by (unfold red; destruct per; reflexivity). rewrite Eper, Etext in *.
  exists labels, body. split; [exact Hlab|]. intros dated grouped text. split.
  { clear -Hbody Exs. induction Hbody as [|[[t k] vs] row rs body Hr Hbody IH]; cbn [map]; constructor; [|apply IH; intros; apply Exs; right; assumption].
    cbn [fst snd]. rewrite <- (Exs t k vs (or_introl eq_refl)). exact Hr. }
  intros header printed. split; [destruct Hcsv as (out & E1 & E2); exists out; split; [unfold printed; rewrite Eprint; exact E1|exact E2]|]. split; [destruct Hjson as (out & E1 & E2); exists out; split; [unfold printed; rewrite Eprint; exact E1|exact E2]|].
  intros Hy. destruct Htext as (lines & E1 & E2 & E3); [intros t k vs I; apply (Hy t k); apply (in_map fst) in I; exact I|].
  exists lines. split; [unfold printed; rewrite Eprint, E1, (Hcom acc ltac:(constructor)); reflexivity|]. split; [exact E2|exact E3].
Qed.
(** One line for each period and category with a selected posting to the account or below it, in order; a column for each
    account with such postings in or below it, the first n and one for the others; in each place the exact sum of the postings
    of the files that belong there; the same table as CSV, JSON and text. The books may have several
    commodities, if every written amount is in the commodity of its account and the account and those below it have one. *)
Theorem C126_aggregated : forall limit w DB compile rexm fuel comm b es, load_all limit w DB compile fuel comm b ->
  all_entries w [] (database_files w DB) es ->
  forall tx_of, (forall x p, In x (b_txs b) -> In p (x_posts x) -> tx_of p = x) ->
  (forall t, In t (map snd (ev_txs es)) -> in_account_commodity (must_find_account compile (b_names b)) comm t) ->
  exists N, forall o fuel' pattern acc begin end_ tag payee per cat (recurse cumulative : bool) size com, (N <= fuel')%nat ->
    must_find_account compile (b_names b) pattern = Ok acc ->
    per <> None \/ cat <> None -> (cumulative = true -> cat = None) ->
    (* -p with !: C69_selection_refuted *)
    (forall r, payee <> B "!" ++ r) ->
    let parent := t_parent (b_tree b) in
    (forall x, under parent acc x -> comm x = com) ->
    let rows := rows_of (map snd (ev_txs es)) in
    let chosen := row_chosen rexm begin end_ tag payee (must_find_account compile (b_names b)) in
    let reduce := option_map first_day per in
    let group := option_map category_of cat in
    (* no empty description: C122_empty_category_refuted *)
    (cat = Some ByPayee -> forall x r, In r rows -> under parent acc x -> chosen x r = true -> t_desc (fst r) <> []) ->
    exists below m, (forall x, under parent acc x -> NoDup (below x) /\ forall y, In y (below x) <-> under parent x y) /\
    coin_totals fuel' rexm o b tx_of begin end_ tag payee per cat recurse acc = Ok m /\
    (* the order of the columns, by size *)
    (exists order, top_order (book_conv (b_prices b) o) m order) /\
    forall n order, top_order (book_conv (b_prices b) o) m order ->
      (forall k, In k order <-> exists x y r, k = Some x /\ under parent acc x /\ under parent x y /\ In r rows /\ chosen y r = true) /\
      let own P x := sum_of rows (fun r => P r && chosen x r) in
      let counted P k := match k with Some x => if recurse then zsum (map (own P) (below x)) else own P x | None => 0 end in
      let column P k := match k with Some _ => counted P k | None => zsum (map (counted P) (skipn n order)) end in
      let amount t k col := mkAmount (column (if cumulative then up_to reduce t else on_line reduce group t k) col) com in
      (In (Some acc) (shown_cols n order) ->
       exists keys, StronglySorted line_before keys /\
       (forall t k, In (t, k) keys <-> (exists x r, under parent acc x /\ In r rows /\ chosen x r = true /\ on_line reduce group t k r = true) /\ (cat = None -> k = [])) /\
       ((forall t k col, In (t, k) keys -> In col (shown_cols n order) -> printable (amount t k col)) ->
        exists labels body, Forall2 (heading acc size) (shown_cols n order) labels /\
          let dated := match per with Some _ => true | None => false end in
          let grouped := match cat with Some _ => true | None => false end in
          let text := match per with Some p => period_text p | None => format_date end in
          Forall2 (fun key => table_row dated grouped text (key, map (amount (fst key) (snd key)) (shown_cols n order))) keys body /\
          let header date category := (if dated then [date] else []) ++ (if grouped then [category] else []) ++ labels in
          let printed f := coin_aggregated fuel' compile rexm o comm b tx_of pattern begin end_ tag payee per cat recurse cumulative (Z.of_nat n) size f order in
          (exists out, printed OutCsv = Ok out /\ read_csv out = Some (header (B "Date") (B "Category") :: body)) /\
          (exists out, printed OutJson = Ok out /\ read_json_lines out = Some (header (B "Date") (B "Category") :: body)) /\
          ((forall t k, In (t, k) keys -> 0 <= year_of t <= 9999) ->
           exists lines, printed OutText = Ok (acc ++ B " " ++ c_id com ++ [chr 10] ++ table_text lines) /\
             Forall2 (Forall2 right_set) (header [] [] :: body) lines /\ aligned rune_count lines))).
Proof. intros limit w DB compile rexm fuel comm b es H. exact (aggregated_from limit w (database_files w DB) compile rexm fuel comm b es (proj1 (load_all_from _ _ _ _ _ _ _) H)). Qed.
Print Assumptions C126_aggregated.
(** In books with one commodity this holds for all accounts. *)
Theorem C125_aggregated_from_files : forall limit w DB compile rexm fuel comm b es c, load_all limit w DB compile fuel comm b ->
  all_entries w [] (database_files w DB) es -> ev_comms es = [c] ->
  forall tx_of, (forall x p, In x (b_txs b) -> In p (x_posts x) -> tx_of p = x) ->
  exists N, forall o fuel' pattern acc begin end_ tag payee per cat (recurse cumulative : bool) size, (N <= fuel')%nat ->
    must_find_account compile (b_names b) pattern = Ok acc ->
    per <> None \/ cat <> None -> (cumulative = true -> cat = None) ->
    (* -p with !: C69_selection_refuted *)
    (forall r, payee <> B "!" ++ r) ->
    let parent := t_parent (b_tree b) in
    let com := mkCommodity 0 (pc_id c) (pc_dec c) in
    let rows := rows_of (map snd (ev_txs es)) in
    let chosen := row_chosen rexm begin end_ tag payee (must_find_account compile (b_names b)) in
    let reduce := option_map first_day per in
    let group := option_map category_of cat in
    (* no empty description: C122_empty_category_refuted *)
    (cat = Some ByPayee -> forall x r, In r rows -> under parent acc x -> chosen x r = true -> t_desc (fst r) <> []) ->
    exists below m, (forall x, under parent acc x -> NoDup (below x) /\ forall y, In y (below x) <-> under parent x y) /\
    coin_totals fuel' rexm o b tx_of begin end_ tag payee per cat recurse acc = Ok m /\
    (* the order of the columns, by size *)
    (exists order, top_order (book_conv (b_prices b) o) m order) /\
    forall n order, top_order (book_conv (b_prices b) o) m order ->
      (forall k, In k order <-> exists x y r, k = Some x /\ under parent acc x /\ under parent x y /\ In r rows /\ chosen y r = true) /\
      let own P x := sum_of rows (fun r => P r && chosen x r) in
      let counted P k := match k with Some x => if recurse then zsum (map (own P) (below x)) else own P x | None => 0 end in
      let column P k := match k with Some _ => counted P k | None => zsum (map (counted P) (skipn n order)) end in
      let amount t k col := mkAmount (column (if cumulative then up_to reduce t else on_line reduce group t k) col) com in
      (In (Some acc) (shown_cols n order) ->
       exists keys, StronglySorted line_before keys /\
       (forall t k, In (t, k) keys <-> (exists x r, under parent acc x /\ In r rows /\ chosen x r = true /\ on_line reduce group t k r = true) /\ (cat = None -> k = [])) /\
       ((forall t k col, In (t, k) keys -> In col (shown_cols n order) -> printable (amount t k col)) ->
        exists labels body, Forall2 (heading acc size) (shown_cols n order) labels /\
          let dated := match per with Some _ => true | None => false end in
          let grouped := match cat with Some _ => true | None => false end in
          let text := match per with Some p => period_text p | None => format_date end in
          Forall2 (fun key => table_row dated grouped text (key, map (amount (fst key) (snd key)) (shown_cols n order))) keys body /\
          let header date category := (if dated then [date] else []) ++ (if grouped then [category] else []) ++ labels in
          let printed f := coin_aggregated fuel' compile rexm o comm b tx_of pattern begin end_ tag payee per cat recurse cumulative (Z.of_nat n) size f order in
          (exists out, printed OutCsv = Ok out /\ read_csv out = Some (header (B "Date") (B "Category") :: body)) /\
          (exists out, printed OutJson = Ok out /\ read_json_lines out = Some (header (B "Date") (B "Category") :: body)) /\
          ((forall t k, In (t, k) keys -> 0 <= year_of t <= 9999) ->
           exists lines, printed OutText = Ok (acc ++ B " " ++ pc_id c ++ [chr 10] ++ table_text lines) /\
             Forall2 (Forall2 right_set) (header [] [] :: body) lines /\ aligned rune_count lines))).
Proof.
  intros limit w DB compile rexm fuel comm b es c Hload Hes Hc tx_of Htx. destruct (one_facts _ _ _ _ _ _ _ _ _ Hload Hes Hc) as (Hcm & HT & Hfind & Hq).
  destruct (C126_aggregated _ _ _ _ rexm _ _ _ _ Hload Hes tx_of Htx Hq) as (N & H). exists N.
  intros o fuel' pattern acc begin end_ tag payee per cat recurse cumulative size Hf Hacc Hagg Hcum Hpay parent com.
  refine (H o fuel' pattern acc begin end_ tag payee per cat recurse cumulative size com Hf Hacc Hagg Hcum Hpay _).
  intros x Hx. apply Hcm. apply (in_names _ _ acc x HT); [eapply Hfind, Hacc|exact Hx].
Qed.
Print Assumptions C125_aggregated_from_files.
(** the database of C77, C123_hypotheses *)
Definition xaggregated := coin_aggregated 20 xcompile (fun p s => eqb_bytes p s) xo xcomm xbook xtx_of (B "Expenses") None None [] [].
Definition xcolumns : list (option bytes) := [Some (B "Expenses"); Some (B "Expenses:Food")].
Definition xm : atotals := match coin_totals 20 (fun p s => eqb_bytes p s) xo xbook xtx_of None None [] [] (Some Monthly) None true (B "Expenses") with Ok m => m | _ => [] end.
Fixpoint pairs_ok {A} (R : A -> A -> bool) (l : list A) : bool := match l with [] => true | x :: r => forallb (R x) r && pairs_ok R r end.
Lemma order_check conv m order mag : map fst m = order -> NoDup order ->
  forallb (fun kv => match cells (snd kv), cum_magnitude conv (snd kv) with _ :: _, Ok (Some x) => (a_int x =? a_int (mag (fst kv))) && eqb_bytes (c_id (a_com x)) (c_id (a_com (mag (fst kv))))
       && (c_key (a_com x) =? c_key (a_com (mag (fst kv))))%nat && (c_dec (a_com x) =? c_dec (a_com (mag (fst kv))))%nat | _, _ => false end) m = true ->
  pairs_ok (fun a b => negb (is_bigger (mag b) (mag a))) order = true -> top_order conv m order.
Proof.
  intros E Nd F S. rewrite forallb_forall in F. exists mag. split; [|split; [exact Nd|split]].
  - intros a ts G _. apply aget_in in G. specialize (F _ G). cbn [fst snd] in F. destruct (cells ts); [discriminate|]. destruct (cum_magnitude conv ts) as [[x|]| |]; try discriminate.
    rewrite !andb_true_iff in F. destruct F as [[[F1 F2] F3] F4]. apply Z.eqb_eq in F1. apply eqb_bytes_iff in F2. apply Nat.eqb_eq in F3, F4. do 2 f_equal. destruct x as [i [k d n]], (mag a) as [i' [k' d' n']]. cbn in *. congruence.
  - intros a. rewrite <- E. split.
    + intros I. apply in_map_iff in I as ([a' ts] & <- & I). exists ts. split; [apply in_aget; [rewrite E; exact Nd|exact I]|]. specialize (F _ I). cbn [snd] in F. destruct (cells ts); [discriminate|discriminate].
    + intros (ts & G & _). apply aget_in, (in_map fst) in G. exact G.
  - clear -S. induction order as [|x l IH]; constructor; cbn [pairs_ok] in S; apply andb_true_iff in S as [S1 S2]; [auto|]. rewrite forallb_forall in S1. apply Forall_forall. intros y I. specialize (S1 y I). apply negb_true_iff in S1. exact S1.
Qed.
Definition is_ok {A} (r : res A) : bool := match r with Ok _ => true | _ => false end.
Lemma ok_get {A} (r : res A) d : is_ok r = true -> r = Ok (match r with Ok m => m | _ => d end).
Proof. destruct r; [reflexivity|discriminate|discriminate]. Qed.
Definition xmags (a : option bytes) : amount := mkAmount 350 (mkCommodity 0 (B "CAD") 2).
Example C125_hypotheses : coin_totals 20 (fun p s => eqb_bytes p s) xo xbook xtx_of None None [] [] (Some Monthly) None true (B "Expenses") = Ok xm /\
  top_order (book_conv (b_prices xbook) xo) xm xcolumns /\ In (Some (B "Expenses")) (shown_cols 5 xcolumns) /\
  forallb (fun t => negb (eqb_bytes (t_desc t) [])) (map snd (d_txs xdb_db)) = true.
Proof.
  split; [apply ok_get; vm_compute; reflexivity|]. split; [|split; [left; reflexivity|vm_compute; reflexivity]].
  apply (order_check _ _ _ xmags); [vm_compute; reflexivity| |vm_compute; reflexivity|vm_compute; reflexivity].
  constructor; [intros [H|[]]; discriminate|constructor; [intros []|constructor]].
Qed.
Example C125_example :
  xaggregated (Some Monthly) None true false 5 12 OutText xcolumns = Ok (B "Expenses CAD" ++ [chr 10] ++ table_text (map (map B) [["       "; "Expenses"; ":Food"]; ["2020/01"; "    3.50"; " 3.50"]]%string)) /\
  xaggregated None (Some ByPayee) false false 5 12 OutCsv xcolumns = Ok (nls ["Category,Expenses,:Food"; "early,0.00,1.00"; "late,0.00,2.50"]%string).
Proof. split; vm_compute; reflexivity. Qed.

(** Two commodities: the hypotheses of C126 hold for the accounts below US, in USD, and those below Expenses, in CAD; the
    first transaction changes one commodity for the other. *)
Definition ydb : world := small_world
  [(B "commodities.coin", nls ["commodity CAD"; "  format 1.00 CAD"; ""; "commodity USD"; "  format 1.00 USD"]%string);
   (B "accounts.coin", nls ["account Assets:Bank"; "  commodity CAD"; ""; "account Expenses:Food"; ""; "account US"; "  commodity USD"; ""; "account US:Bank"; "  commodity USD"; ""; "account US:Food"; "  commodity USD"]%string);
   (B "transactions.coin", nls ["2020/01/02 exchange"; "  US:Bank  10.00 USD"; "  Assets:Bank  -13.50 CAD"; ""; "2020/02/03 trip"; "  US:Food  2.50 USD"; "  US:Bank"; ""; "2020/02/04 home"; "  Expenses:Food  1.00 CAD"; "  Assets:Bank"]%string)] [].
Definition ydb_db : db := match load_files_all 5 ydb [] with Some (Ok d) => d | _ => empty_db end.
Lemma ydb_loaded : load_files_all 5 ydb [] = Some (Ok ydb_db).
Proof. vm_compute. reflexivity. Qed.
Definition yorder : list bytes := base_accounts (map fst (d_accounts ydb_db)).
Definition ynames : list bytes := map B ["Assets:Bank"; "Expenses:Food"; "US"; "US:Bank"; "US:Food"; "Root"; "Unbalanced"; "Assets"; "Expenses"]%string.
Definition ycomm (n : bytes) : commodity := if has_prefix (B "US") n then mkCommodity 1 (B "USD") 2 else mkCommodity 0 (B "CAD") 2.
Definition ytree : tree := match resolve_accounts 5 (map fst (d_accounts ydb_db)) yorder ynames ynames with Ok (T, _) => T | _ => mkTree (fun _ => None) (fun _ => []) end.
Definition ybook : book := load_book xcompile ycomm ydb_db ytree ynames.
Definition ytx_of : nat -> rtx := tx_in (b_txs ybook).
Definition in_commodity (find : bytes -> res bytes) (comm : bytes -> commodity) (t : transaction) : bool :=
  forallb (fun s => match ps_quantity s, find (ps_account s) with Some q, Ok a => (c_key (a_com q) =? c_key (comm a))%nat && eqb_bytes (c_id (a_com q)) (c_id (comm a)) && (c_dec (a_com q) =? c_dec (comm a))%nat | _, _ => true end) (t_postings t).
Lemma in_commodity_ok find comm t : in_commodity find comm t = true -> in_account_commodity find comm t.
Proof. intros H s q a I Eq Ef. unfold in_commodity in H. rewrite forallb_forall in H. specialize (H s I). rewrite Eq, Ef, !andb_true_iff in H. destruct H as [[H1 H2] H3]. apply Nat.eqb_eq in H1, H3. apply eqb_bytes_iff in H2. destruct (a_com q), (comm a). cbn in *. congruence. Qed.
Example C126_hypotheses : load_all 5 ydb [] xcompile 5 ycomm ybook /\ b_warned ybook = [] /\
  (exists es, all_entries ydb [] (database_files ydb []) es /\ List.length (ev_comms es) = 2%nat /\
     forall t, In t (map snd (ev_txs es)) -> in_account_commodity (must_find_account xcompile (b_names ybook)) ycomm t) /\
  (forall x p, In x (b_txs ybook) -> In p (x_posts x) -> ytx_of p = x) /\
  must_find_account xcompile (b_names ybook) (B "US") = Ok (B "US") /\
  (forall x, under (t_parent (b_tree ybook)) (B "US") x -> ycomm x = mkCommodity 1 (B "USD") 2).
Proof.
  assert (HT : resolve_accounts 5 (map fst (d_accounts ydb_db)) yorder ynames ynames = Ok (ytree, ynames)).
  { destruct (ok_pair (resolve_accounts 5 (map fst (d_accounts ydb_db)) yorder ynames ynames) ynames) as [T ET]; [vm_compute; reflexivity|]. unfold ytree. rewrite ET. reflexivity. }
  assert (HL : load_all 5 ydb [] xcompile 5 ycomm ybook).
  { apply (load_book_ok 5 ydb [] xcompile ycomm ydb_db 5 ytree ynames yorder); [exact ydb_loaded|vm_compute; reflexivity|reflexivity|exact HT| |vm_compute; reflexivity].
    intros n I. unfold ynames in I. cbn [map] in I. repeat (destruct I as [<-|I]; [vm_compute; reflexivity|]). destruct I. }
  split; [exact HL|]. split; [vm_compute; reflexivity|]. assert (H := ydb_loaded). rewrite load_files_list in H. destruct (C76_in_place _ _ _ _ H) as (es & A1 & _ & A3). split; [|split; [|split; [vm_compute; reflexivity|]]].
  - exists es. split; [exact A1|]. assert (Et : d_txs ydb_db = ev_txs es) by apply A3. rewrite <- Et. split.
    + destruct A3 as (_ & _ & _ & _ & _ & _ & _ & _ & _ & A3). rewrite <- A3. vm_compute. reflexivity.
    + intros t I. apply in_commodity_ok. revert t I. apply forallb_forall. vm_compute. reflexivity.
  - apply tx_in_ok; [vm_compute; reflexivity|]. replace (map x_desc (b_txs ybook)) with [B "exchange"; B "trip"; B "home"] by (vm_compute; reflexivity).
    repeat (constructor; [cbn [In]; intros K; repeat (destruct K as [K|K]; [discriminate|]); exact K|]). constructor.
  - destruct (book_facts _ _ _ _ _ _ _ _ HL A1) as (_ & _ & _ & HT' & _). intros x U.
    assert (I : In x (with_children 20 (t_children (b_tree ybook)) (B "US"))).
    { apply (reach_under _ _ HT'); [vm_compute; repeat constructor|vm_compute; auto 10|exact U]. }
    replace (with_children 20 (t_children (b_tree ybook)) (B "US")) with (map B ["US"; "US:Bank"; "US:Food"]%string) in I by (vm_compute; reflexivity).
    cbn [map] in I. repeat (destruct I as [<- |I]; [vm_compute; reflexivity|]). destruct I.
Qed.
Example C126_example :
  coin_balance 20 xcompile xcompile xo ycomm ybook ytx_of (Some (B "US")) None None [] [] 0 false =
    Ok (table_text (map (map B) [["0.00"; "10.00 USD"; "US"]; ["7.50"; " 7.50 USD"; "US:Bank"]; ["2.50"; " 2.50 USD"; "US:Food"]]%string)) /\
  coin_register 20 xcompile xcompile xo ycomm ybook ytx_of (B "US:Bank") None None [] [] false 0 false =
    Ok (B "US:Bank USD" ++ [chr 10] ++ reg_lines [(["2020/01/02"; "exchange"; "Assets:Bank"; "10.00"; "10.00"], " USD "); (["2020/02/03"; "    trip"; "    US:Food"; "-2.50"; "7.50"], " USD ")]%string).
Proof. split; vm_compute; reflexivity. Qed.
