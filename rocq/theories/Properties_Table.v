(** C122: the aggregated register as text, CSV and JSON. *)
From Coq Require Import Permutation Sorted.
From Verif Require Import Base M_Amount M_Date M_Names M_Parser M_Ledger M_Report M_Json M_Output S_Decimal S_Amount S_Names S_Books S_Report S_Output S_DateText
  L_Dec L_Names L_Amount L_Date L_DateText L_Tree L_Tree2 L_Totals L_Propagate L_Aggregate L_Cumulative L_Register L_Page L_Output L_Output2 L_Printed L_Rows L_Table Properties_Tree Properties_Ledger Properties_Report.
Local Open Scope Z_scope.

(** what is written as CSV and as JSON is read back, whatever the rows *)
Theorem C122_csv : forall rows, Forall (fun r => r <> []) rows -> read_csv (write_csv rows) = Some rows.
Proof. exact csv_round_trip. Qed.
Print Assumptions C122_csv.
Theorem C122_json : forall rows, read_json_lines (write_json rows) = Some rows.
Proof. exact json_round_trip_rows. Qed.
Print Assumptions C122_json.

Lemma forall2_of_map {A C} (R : A -> C -> Prop) (f : A -> C) l : (forall a, In a l -> R a (f a)) -> Forall2 R l (map f l).
Proof. induction l as [|a l IH]; intros H; constructor; [apply H; left; reflexivity|apply IH; intros b I; apply H; right; exact I]. Qed.
Lemma heading_ok account size k : heading account size k (column_label account size k).
Proof.
  destruct k as [x|]; [|reflexivity]. unfold heading, column_label. destruct (eqb_bytes x account) eqn:E.
  - apply eqb_bytes_iff in E. subst x. split; [intros _; apply leaf_of_name|contradiction].
  - split; [intros ->; rewrite L_Resolve.eqb_bytes_refl in E; discriminate|]. intros _. eexists. split; [apply trim_prefix_after|apply shorten_abbreviated].
Qed.
Lemma period_texts ptext t : In ptext [format_date; format_month; fun t => format_year (year_of t)] -> 0 <= year_of t <= 9999 ->
  List.length (ptext t) = List.length (ptext 0).
Proof.
  intros I Hy. destruct (civil_valid t) as [Hm Hd]. assert (Hr := month_days_range (year_of t) (month_of t)).
  destruct (pad_zero_digits 4 (year_of t)) as (ys & [_ Hy1] & Hy2 & Hy3); [change (10 ^ Z.of_nat 4) with 10000; lia|lia|].
  destruct (pad_zero_digits 2 (month_of t)) as (ms & [_ Hm1] & Hm2 & Hm3); [change (10 ^ Z.of_nat 2) with 100; lia|lia|].
  destruct (pad_zero_digits 2 (day_of t)) as (ds & [_ Hd1] & Hd2 & Hd3); [change (10 ^ Z.of_nat 2) with 100; lia|lia|].
  assert (E : format_year (year_of t) = pad_zero 4 (print_nat (year_of t))) by (unfold format_year; replace (year_of t <? 0) with false by lia; reflexivity).
  destruct I as [<- |[<- |[<- |[]]]]; unfold format_date, format_month; rewrite E, Hy3, ?Hm3, ?Hd3; unfold dtext; rewrite ?app_length, !map_length, Hy1, ?Hm1, ?Hd1; reflexivity.
Qed.

Theorem C122_aggregated_output : forall names known o1 o2, NoDup names ->
  Permutation known (base_accounts names) -> let all := with_parents known (base_accounts names) in
  Permutation o1 all -> Permutation o2 all ->
  exists N, forall fuel T, (N <= fuel)%nat -> resolve_accounts fuel names known o1 o2 = Ok (T, all) ->
  forall conv comm bt bc com account recurse cumulative size (sel : bytes -> list entry), In account all ->
    bt <> None \/ bc = true -> reducer_ok bt -> (cumulative = true -> bc = false) ->
    (forall x, under (t_parent T) account x ->
       entries_in_order (sel x) /\ entries_in com (sel x) /\ (bc = true -> Forall (fun e => e_cat e <> []) (sel x))) ->
    exists m, aggregated fuel conv T account bt bc recurse sel = Ok m /\
    forall n order ptext, top_order conv m order -> In (Some account) (shown_cols n order) -> In ptext [format_date; format_month; fun t => format_year (year_of t)] ->
      let period := match bt with Some _ => true | None => false end in
      let printed f := aggregated_register conv comm ptext f size account cumulative (Z.of_nat n) m order in
      (* the lines and amounts of C70 *)
      exists rs, aggregated_rows conv account cumulative (Z.of_nat n) m order = Ok (shown_cols n order, rs) /\
      ((forall t k xs, In (t, k, xs) rs -> Forall printable xs) ->
       exists labels body, Forall2 (heading account size) (shown_cols n order) labels /\ Forall2 (table_row period bc ptext) rs body /\
         let header date category := (if period then [date] else []) ++ (if bc then [category] else []) ++ labels in
         (* the same table as CSV and as JSON *)
         (exists text, printed OutCsv = Ok text /\ read_csv text = Some (header (B "Date") (B "Category") :: body)) /\
         (exists text, printed OutJson = Ok text /\ read_json_lines text = Some (header (B "Date") (B "Category") :: body)) /\
         (* and as text with aligned columns, for years of four digits *)
         ((forall t k xs, In (t, k, xs) rs -> 0 <= year_of t <= 9999) ->
          exists lines, printed OutText = Ok (account ++ B " " ++ c_id (comm account) ++ [chr 10] ++ table_text lines) /\
            Forall2 (Forall2 right_set) (header [] [] :: body) lines /\ aligned rune_count lines)).
Proof.
  intros names known o1 o2 Nn Pk all P1 P2. exists (S (bound all)). intros fuel T Hf E conv comm bt bc com account recurse cumulative size sel Ha Hagg Hred Hcum Hs.
  destruct (resolve_tree fuel names known o1 o2 Nn Pk P1 P2) as (T' & E' & HT & _). fold all in E', HT. assert (T' = T) by congruence. subst T'.
  pose proof (fun a x Ia => reach_under all T HT fuel ltac:(lia) a x Ia) as R. set (below := with_children fuel (t_children T)).
  assert (Hs' : forall x, In x (below account) -> entries_in_order (sel x) /\ entries_in com (sel x) /\ (bc = true -> Forall (fun e => e_cat e <> []) (sel x))) by (intros x I; apply Hs, R; auto).
  destruct (aggregated_spec conv bt bc com Hagg Hred all T fuel account recurse sel HT Ha ltac:(lia) (fun x I => conj (proj1 (Hs' x I)) (proj1 (proj2 (Hs' x I))))) as (m & Em & _).
  exists m. split; [exact Em|]. intros n order ptext Ho Ia Hpt period printed.
  destruct (tree_order conv bt bc com Hagg Hred all T fuel account recurse sel m order HT Ha ltac:(lia) (fun x I => conj (proj1 (Hs' x I)) (proj1 (proj2 (Hs' x I)))) Em Ho) as (_ & Io & _). fold below in Io.
  destruct (register_columns conv bt bc com Hagg Hred all T fuel account recurse cumulative n sel m order HT Ha ltac:(lia) Hcum Hs' Em Ho Ia) as (m1 & m2 & m3 & E1 & E2 & E3 & Hne & Hcat & G3).
  fold below in Hcat, G3. set (V := col_entries n order (counted_by recurse sel below)) in *. set (K := flat_map sel (below account)) in *. set (shown := shown_cols n order) in *.
  set (g := fun (k : option bytes) t c => if cumulative then sum_upto bt t (V k) else line_sum bt bc t c (V k)).
  assert (HK : K <> []).
  { assert (J : In (Some account) order).
    { unfold shown, shown_cols in Ia. destruct (_ <=? _)%nat; [exact Ia|]. rewrite <- (firstn_skipn n order). destruct (_ =? _)%nat; apply in_app_iff; [auto|].
      apply in_app_iff in Ia as [I|[I|[]]]; [auto|discriminate]. }
    apply Io in J as (x & [= <-] & _ & J). exact J. }
  destruct (rows_spec bt bc com Hagg Hred m3 shown K g Hne G3 Hcat) as (l & El & ts & k0 & _ & Cl & <- & _).
  exists (grid com shown g (cells ts)). split.
  { unfold aggregated_rows. rewrite E1. cbn [bind fst snd]. rewrite E2. cbn [bind]. rewrite E3. cbn [bind]. fold shown. rewrite El. reflexivity. }
  intros Hp.
  assert (Hline : forall t k, has_line bt bc t k K = true -> exists k' xs, In (t, k', xs) (grid com shown g (cells ts)) /\ (bc = true -> k' = k)).
  { intros t k H. destruct (bool_dec bc true) as [Hb|Hb].
    - assert (I : In (t, k) (map fst (grid com shown g (cells ts)))) by (apply (grid_in bt bc com Hagg shown g ts K (g k0) t k Cl); split; [exact H|congruence]).
      apply in_map_iff in I as ([[t' k'] xs] & [= -> ->] & I). exists k, xs. auto.
    - apply not_true_is_false in Hb.
      assert (I : In (t, []) (map fst (grid com shown g (cells ts)))) by (apply (grid_in bt bc com Hagg shown g ts K (g k0) t [] Cl); split; [rewrite Hb in *; exact H|reflexivity]).
      apply in_map_iff in I as ([[t' k'] xs] & [= -> ->] & I). exists [], xs. split; [exact I|congruence]. }
  assert (Hprint : forall a t k, In a shown -> has_line bt bc t k K = true -> printable (mkAmount (g a t k) com)).
  { intros a t k Ia' H. destruct (Hline t k H) as (k' & xs & I & Hk). assert (F := Hp _ _ _ I). assert (X := grid_amounts com shown g (cells ts) t k' xs I). subst xs.
    rewrite Forall_forall in F. specialize (F _ (in_map (fun a => mkAmount (g a t k') com) _ _ Ia')).
    assert (Eg : g a t k' = g a t k); [|rewrite <- Eg; exact F]. unfold g. destruct cumulative; [reflexivity|]. destruct (bool_dec bc true) as [Hb|Hb]; [rewrite (Hk Hb); reflexivity|].
    apply not_true_is_false in Hb. rewrite Hb. reflexivity. }
  assert (Hdec : (c_dec com <= 50)%nat).
  { destruct K as [|e K'] eqn:EK; [contradiction|]. rewrite <- EK in *. destruct shown as [|a0 sh]; [contradiction|].
    assert (H : has_line bt bc (period_of bt (e_date e)) (e_cat e) K = true).
    { rewrite EK. unfold has_line. cbn [existsb]. unfold belongs. rewrite Z.eqb_refl. destruct bc; [rewrite L_Resolve.eqb_bytes_refl|]; reflexivity. }
    exact (proj1 (Hprint a0 _ _ (or_introl eq_refl) H)). }
  assert (Eper : period = hasp bt) by reflexivity.
  destruct (string_rows_ok bt bc com Hagg Hred Hdec m3 shown K g Hne G3 Hcat Hprint ptext (column_label account size)) as (rs & Er & Es & _).
  assert (rs = grid com shown g (cells ts)) by congruence. subst rs.
  exists (map (column_label account size) shown), (map (rowtext bt bc ptext) (grid com shown g (cells ts))).
  split; [apply forall2_of_map; intros k _; apply heading_ok|].
  split.
  { apply forall2_of_map. intros [[t k] xs] I. exists (map txt xs). cbn [fst snd]. split; [|reflexivity]. rewrite (grid_amounts com shown g (cells ts) t k xs I).
    clear -Hdec. induction shown as [|a sh IH]; [constructor|]. cbn [map]. constructor; [exact (proj2 (txt_ok (mkAmount (g a t k) com) Hdec))|exact IH]. }
  assert (Pr : forall f, printed f = do t <- output f ptext (column_label account size) m3 shown; Ok (match f with OutText => account ++ B " " ++ c_id (comm account) ++ [nline] ++ t | _ => t end)).
  { intros f. unfold printed, aggregated_register. rewrite E1. cbn [bind fst snd]. rewrite E2. cbn [bind]. rewrite E3. reflexivity. }
  intros header. split; [|split].
  - rewrite Pr. unfold output. rewrite Es. cbn [bind]. eexists. split; [reflexivity|]. apply csv_round_trip.
    assert (Nr : forall a b (c : list bytes), c <> [] -> (if hasp bt then [a] else []) ++ (if bc then [b] else []) ++ c <> @nil bytes).
    { intros a b c Hc H. apply app_eq_nil in H as [_ H]. apply app_eq_nil in H as [_ H]. contradiction. }
    constructor; [apply Nr; intros H; apply map_eq_nil in H; contradiction|]. apply Forall_forall. intros r I. apply in_map_iff in I as ([[t k] xs] & <- & I).
    unfold rowtext. apply Nr. rewrite (grid_amounts com shown g (cells ts) t k xs I). intros H. apply map_eq_nil, map_eq_nil in H. contradiction.
  - rewrite Pr. unfold output. rewrite Es. cbn [bind]. eexists. split; [reflexivity|]. apply json_round_trip_rows.
  - intros Hy.
    destruct (print_totals_ok bt bc com Hagg Hred Hdec m3 shown K g Hne G3 Hcat HK Hprint ptext (List.length (ptext 0))) with (label := column_label account size) as (rs & ws & Er2 & Ep & Wp).
    { intros _. split; [destruct Hpt as [<- |[<- |[<- |[]]]]; vm_compute; lia|]. intros t k H. apply Hline in H as (k' & xs & I & _). apply period_texts; [exact Hpt|exact (Hy _ _ _ I)]. }
    assert (rs = grid com shown g (cells ts)) by congruence. subst rs.
    rewrite Pr. unfold output. rewrite Ep. cbn [bind]. eexists. split; [reflexivity|].
    assert (Pd : forall ws l, Forall2 (fun w s => (rune_count s <= w)%nat) ws l -> Forall2 right_set l (pads ws l) /\ map rune_count (pads ws l) = ws).
    { clear. intros ws l F. induction F as [|w s ws l H F [IH1 IH2]]; [split; [constructor|reflexivity]|]. unfold pads in *. cbn [combine map fst snd]. split.
      - constructor; [apply padl_right|exact IH1].
      - rewrite (padl_count w s H), IH2. reflexivity. }
    split.
    + change (headtext bt bc shown (column_label account size)) with (header [] []) in Wp. change (headtext bt bc shown (column_label account size)) with (header [] []).
      apply forall2_of_map. intros r I. apply Pd, Wp, I.
    + exists ws. intros r I. apply in_map_iff in I as (r' & <- & I). apply Pd, Wp, I.
Qed.
Print Assumptions C122_aggregated_output.

(** The aggregated register of the tree of C70, in the three formats. *)
Definition ex_printed_of (names : list bytes) (f : out_format) (size : Z) (sel : bytes -> list entry) (order : list (option bytes)) (bt : option (Z -> Z)) (bc : bool) : res bytes :=
  match resolve_accounts 30 names (base_accounts names) (with_parents (base_accounts names) (base_accounts names)) (with_parents (base_accounts names) (base_accounts names)) with
  | Ok (T, all) =>
      do m <- aggregated 30 ex_conv T (B "Assets") bt bc true sel;
      aggregated_register ex_conv (fun _ => cad) format_month f size (B "Assets") false 3 m order
  | _ => Fail
  end.
Definition ex_printed := ex_printed_of ex_names.
Definition ex_lines (l : list string) : bytes := flat_map (fun s => B s ++ [chr 10]) l.
Definition ex_body : list (list bytes) := map (map B) [["0001/01"; "1.00"; "0.93"; "-0.07"]; ["0001/02"; "0.20"; "0.20"; "0.00"]]%string.
Example C122_example :
  ex_printed OutText 10 ex_sel ex_order (Some reduce_month) false =
    Ok (ex_lines ["Assets CAD"; "        | :Bank | Assets |    :A"; "0001/01 |  1.00 |   0.93 | -0.07"; "0001/02 |  0.20 |   0.20 |  0.00"]%string) /\
  ex_printed OutCsv 10 ex_sel ex_order (Some reduce_month) false =
    Ok (ex_lines ["Date,:Bank,Assets,:A"; "0001/01,1.00,0.93,-0.07"; "0001/02,0.20,0.20,0.00"]%string) /\
  ex_printed OutJson 10 ex_sel ex_order (Some reduce_month) false =
    Ok (ex_lines ["[""Date"","":Bank"",""Assets"","":A""]"; "[""0001/01"",""1.00"",""0.93"",""-0.07""]"; "[""0001/02"",""0.20"",""0.20"",""0.00""]"]%string).
Proof. repeat split; vm_compute; reflexivity. Qed.

(** The headings need not tell the columns apart: here two accounts are both headed [:Ba:A]. *)
Definition same_names := [B "Assets:Bank:A"; B "Assets:Barn:A"].
Definition same_sel (x : bytes) : list entry :=
  if eqb_bytes x (B "Assets:Bank:A") then [(5, B "Shop", mkAmount 100 cad)] else if eqb_bytes x (B "Assets:Barn:A") then [(5, B "Gas", mkAmount 20 cad)] else [].
Theorem C122_distinct_headings_refuted : exists a b, a <> b /\ column_label (B "Assets") 5 (Some a) = column_label (B "Assets") 5 (Some b) /\
  ex_printed_of same_names OutCsv 5 same_sel [Some (B "Assets"); Some a; Some b] (Some reduce_month) false =
    Ok (ex_lines ["Date,Assets,:Ba:A,:Ba:A"; "0001/01,1.20,1.00,0.20"]%string).
Proof. exists (B "Assets:Bank:A"), (B "Assets:Barn:A"). split; [discriminate|]. split; vm_compute; reflexivity. Qed.
Print Assumptions C122_distinct_headings_refuted.
(** An empty category: the text has a line for it, with the amount missing, the other two formats crash. *)
Definition empty_sel (x : bytes) : list entry := if eqb_bytes x (B "Assets") then [(5, [], mkAmount 100 cad); (6, B "Gas", mkAmount 20 cad)] else [].
Theorem C122_empty_category_refuted :
  ex_printed OutText 10 empty_sel [Some (B "Assets")] None true = Ok (ex_lines ["Assets CAD"; "    | Assets"; "    | <nil>"; "Gas |   0.20"]%string) /\
  ex_printed OutCsv 10 empty_sel [Some (B "Assets")] None true = Panic /\ ex_printed OutJson 10 empty_sel [Some (B "Assets")] None true = Panic.
Proof. repeat split; vm_compute; reflexivity. Qed.
Print Assumptions C122_empty_category_refuted.
