(** C118, C119: the bars, the details and the labels of the charts of the coin2html page. *)
From Coq Require Import Permutation Sorted.
From Verif Require Import Base M_Amount S_Amount L_Amount L_Dec M_Date S_Date L_Date M_Parser M_Names L_Names M_Ledger L_Sort L_Resolve Properties_Ledger M_Json M_Web L_Web M_Page M_Views S_Views L_Views L_Views2
  Properties_Views M_Ui S_Ui L_Ui Properties_Ui M_Columns S_Columns L_Columns L_Columns2 Properties_Columns.
Local Open Scope Z_scope.

(** ** C118 *)
Lemma bar_row_ends mid conv negated flows c : forall cols o row e, bar_row mid conv negated flows c o cols = Ok (row, e) -> end_to_end o row e /\ List.length row = List.length cols.
Proof.
  induction cols as [|[g|] r IH]; intros o row e H; cbn [bar_row] in H; [injection H as <- <-; split; [constructor|reflexivity]| |discriminate].
  unfold bar_width in H. destruct (web_add _ _ _) as [a| |]; cbn [bind] in H; try discriminate.
  match type of H with context [bar_row mid conv negated flows c (o + ?w) r] => set (wd := w) in *; destruct (bar_row mid conv negated flows c (o + wd) r) as [[l e']| |] eqn:E end; cbn [bind fst snd] in H; try discriminate.
  injection H as <- <-. destruct (IH _ _ _ E) as [K L]. split; [|cbn [List.length]; congruence]. constructor; [|exact K]. unfold wd. destruct (Z.ltb_spec (if negated then - (a_int a ÷ 10 ^ Z.of_nat (c_dec c)) else a_int a ÷ 10 ^ Z.of_nat (c_dec c)) 0); lia.
Qed.
Lemma ends_le o row e : end_to_end o row e -> o <= e /\ Forall (fun b => o <= fst b /\ fst b + snd b <= e) row.
Proof.
  induction 1 as [o|o w l e Hw H [IH1 IH2]]; [split; [lia|constructor]|]. split; [lia|]. constructor; [cbn [fst snd]; lia|]. eapply Forall_impl; [|exact IH2]. cbn beta. intros b Hb. lia.
Qed.
(** whatever the prices: the bars of a row lie end to end from zero, none leaves the domain of the axis, and the domain is not larger than needed *)
Theorem C118_bars : forall mid conv negated flows c cols n rows max, bar_rows mid conv negated flows c cols n 0 0 = Ok (rows, max) ->
  List.length rows = n /\
  Forall (fun row => exists e, end_to_end 0 row e /\ e <= max /\ List.length row = List.length cols) rows /\
  (max = 0 \/ exists row, In row rows /\ end_to_end 0 row max) /\
  Forall (Forall (fun b => 0 <= fst b /\ 0 <= snd b /\ fst b + snd b <= max)) rows.
Proof.
  intros mid conv negated flows c cols n rows max. assert (G : forall n i m rows max, bar_rows mid conv negated flows c cols n i m = Ok (rows, max) ->
    m <= max /\ List.length rows = n /\ Forall (fun row => exists e, end_to_end 0 row e /\ e <= max /\ List.length row = List.length cols) rows /\ (max = m \/ exists row, In row rows /\ end_to_end 0 row max)).
  { clear. induction n as [|n IH]; intros i m rows max H; cbn [bar_rows] in H.
    - injection H as <- <-. split; [lia|]. split; [reflexivity|]. split; [constructor|left; reflexivity].
    - destruct (bar_row _ _ _ _ _ _ _) as [[row e]| |] eqn:E; cbn [bind snd fst] in H; try discriminate. set (m' := if m <? e then e else m) in *.
      destruct (bar_rows mid conv negated flows c cols n (S i) m') as [[rs mx]| |] eqn:E2; cbn [bind fst snd] in H; try discriminate. injection H as <- <-.
      apply bar_row_ends in E as [E L]. rewrite map_length in L. destruct (IH _ _ _ _ E2) as (H1 & H2 & H3 & H4). assert (Em : m <= m' /\ e <= m') by (unfold m'; destruct (Z.ltb_spec m e); lia).
      split; [lia|]. split; [cbn [List.length]; congruence|]. split; [constructor; [|exact H3]; exists e; split; [exact E|split; [lia|exact L]]|].
      destruct H4 as [->|(r & I & K)]; [|right; exists r; split; [right; exact I|exact K]]. unfold m' in *. destruct (Z.ltb_spec m e); [right; exists row; split; [left; reflexivity|exact E]|left; reflexivity]. }
  intros H. destruct (G n 0%nat 0 rows max H) as (_ & H1 & H2 & H3). split; [exact H1|]. split; [exact H2|]. split; [exact H3|].
  eapply Forall_impl; [|exact H2]. intros row (e & E & L & _). clear - E L. assert (X : forall o, end_to_end o row e -> 0 <= o -> Forall (fun b => 0 <= fst b /\ 0 <= snd b /\ fst b + snd b <= max) row).
  { clear E. intros o K. induction K as [|o w l e Hw K IH]; intros Ho; [constructor|]. pose proof (proj1 (ends_le _ _ _ K)). specialize (IH L). constructor; [cbn [fst snd]; lia|apply IH; lia]. }
  apply (X 0 E). lia.
Qed.
Print Assumptions C118_bars.
(** in one commodity: the widths are the whole units of the amounts *)
Theorem C118_widths : forall mid conv (negated flows : bool) c l cols i, Forall (column_ok c l) cols -> (i < List.length l)%nat ->
  (forall gs : list group, In gs cols -> Z.abs (at_row (if flows then g_sum else g_bal) i gs) <= 2 ^ 53) ->
  exists row, bar_row mid conv negated flows c 0 (map (fun gs => nth_error gs i) cols) = Ok (row, zsum (map snd row)) /\
    map snd row = map (fun gs => whole_units negated c (at_row (if flows then g_sum else g_bal) i gs)) cols.
Proof.
  intros mid conv negated flows c l cols i F Hi Hs.
  assert (G : forall o, exists row, bar_row mid conv negated flows c o (map (fun gs => nth_error gs i) cols) = Ok (row, o + zsum (map snd row)) /\
    map snd row = map (fun gs => whole_units negated c (at_row (if flows then g_sum else g_bal) i gs)) cols); [|exact (G 0)].
  induction F as [|gs cols [D Fc] F IH]; intros o; cbn [map bar_row]; [exists []; split; [cbn; rewrite Z.add_0_r; reflexivity|reflexivity]|].
  destruct (nth_error gs i) as [g|] eqn:E; [|apply nth_error_None in E; rewrite <- D, map_length in Hi; lia].
  rewrite Forall_forall in Fc. destruct (Fc g (nth_error_In _ _ E)) as (C1 & _ & C3). pose proof (Hs gs (or_introl eq_refl)) as S. unfold at_row in S. rewrite E in S.
  unfold bar_width. rewrite web_add_same; [|cbn; unfold choose; destruct flows; congruence|cbn [a_int]; unfold choose; destruct flows; cbn [Z.add]; exact S].
  cbn [bind a_int a_com]. match goal with |- context [bar_row mid conv negated flows c (o + ?w)] => set (wd := w) end.
  assert (Ew : wd = whole_units negated c (at_row (if flows then g_sum else g_bal) i gs)).
  { unfold wd, whole_units, at_row, choose. rewrite E. assert (Z.of_nat (c_dec c) >= 0) by lia. pose proof (Z.pow_pos_nonneg 10 (Z.of_nat (c_dec c)) ltac:(lia) ltac:(lia)) as P10.
    destruct flows, negated; cbn [Z.add]; rewrite ?Z.quot_opp_l by lia; match goal with |- (if ?x <? 0 then _ else _) = _ => destruct (Z.ltb_spec x 0) end; lia. }
  destruct (IH ltac:(intros; apply Hs; right; assumption) (o + wd)) as (row & R1 & R2). rewrite R1. cbn [bind fst snd]. exists ((o, wd) :: row). split; [|cbn [map snd]; rewrite Ew; f_equal; exact R2].
  f_equal. f_equal. cbn [map snd]. unfold zsum. cbn [fold_right]. lia.
Qed.
(** so a row without negative amounts is as long as its total, up to less than a unit for each column *)
Theorem C118_row_total_partial : forall (flows : bool) c (cols : list (list group)) i, (forall gs, In gs cols -> 0 <= at_row (if flows then g_sum else g_bal) i gs) ->
  let e := zsum (map (fun gs => whole_units false c (at_row (if flows then g_sum else g_bal) i gs)) cols) in
  let total := zsum (map (at_row (if flows then g_sum else g_bal) i) cols) in
  e * 10 ^ Z.of_nat (c_dec c) <= total <= (e + Z.of_nat (List.length cols)) * 10 ^ Z.of_nat (c_dec c).
Proof.
  intros flows c cols i H. assert (P : 0 < 10 ^ Z.of_nat (c_dec c)) by (apply Z.pow_pos_nonneg; lia). set (u := 10 ^ Z.of_nat (c_dec c)) in *.
  unfold zsum. induction cols as [|gs cols IH]; [cbn; lia|]. cbn [map fold_right List.length]. specialize (IH (fun x I => H x (or_intror I))). cbv zeta in IH |- *.
  pose proof (H gs (or_introl eq_refl)) as H0. set (v := at_row (if flows then g_sum else g_bal) i gs) in *. unfold whole_units at 1 3. fold u.
  rewrite Z.quot_div_nonneg by lia. pose proof (Z.div_pos v u ltac:(lia) ltac:(lia)). rewrite Z.max_r by lia.
  pose proof (Z.div_mod v u ltac:(lia)). pose proof (Z.mod_pos_bound v u ltac:(lia)). rewrite Nat2Z.inj_succ. nia.
Qed.
(** negative amounts have no bar: a row is longer than its total *)
Theorem C118_negative_refuted : exists cols, sub_columns london_utc (fun _ => ex_conv) (fun l => l) col_page false [] (Some 5) Yearly (london_utc (go_date 2024 1 1)) (london_utc (go_date 2025 1 1)) (B "Assets") = Ok cols /\
  bar_rows london_utc (fun _ => ex_conv) false true (mkCommodity 1 (B "X") 0) (map (fun x => map (fun g => mkGroup (g_date g) [] (mkAmount (a_int (g_sum g)) (mkCommodity 1 (B "X") 0)) (g_total g) (g_bal g)) (snd x)) cols) 1 0 0
    = Ok ([[(0, 107); (107, 30); (137, 0)]], 137) /\
  zsum (map (fun x => at_row g_sum 0 (snd x)) cols) = 87.
Proof. eexists. split; [vm_compute; reflexivity|]. split; vm_compute; reflexivity. Qed.
Example C118_example : column_ok cad [go_date 2024 1 1] [mkGroup (go_date 2024 1 1) [] (mkAmount 12345 cad) (mkAmount 0 cad) (mkAmount 0 cad)] /\
  whole_units false cad 12345 = 123 /\ whole_units true cad 12345 = 0.
Proof. split; [split; [reflexivity|repeat constructor]|]. split; vm_compute; reflexivity. Qed.

(** the details: the largest postings first, equal ones in the order of the register, none larger is left out *)
Theorem C118_largest_first : forall A (size : A -> Z) n l, exists rest,
  Permutation l (top_n size n l ++ rest) /\ List.length (top_n size n l) = Nat.min n (List.length l) /\
  StronglySorted (fun x y => size y <= size x) (top_n size n l) /\
  (forall x y, In x (top_n size n l) -> In y rest -> size y <= size x) /\
  forall v, filter (fun x => size x =? v) (top_n size n l ++ rest) = filter (fun x => size x =? v) l.
Proof.
  intros A size n l. set (less := fun a b => size b <? size a). exists (skipn n (stable_sort less l)). unfold top_n. fold less. rewrite firstn_skipn.
  assert (Sd : StronglySorted (fun x y => size y <= size x) (stable_sort less l)).
  { assert (W : weak_order less) by (split; unfold less; intros; lia). pose proof (stable_sort_sorted less l W) as S. clear - S. unfold sorted_by in S. induction S as [|x r S IH F]; [constructor|]. constructor; [exact IH|].
    eapply Forall_impl; [|exact F]. cbn beta. unfold less. intros y Hy. lia. }
  split; [apply stable_sort_perm|]. split; [|split; [|split]].
  - rewrite firstn_length. f_equal. apply Permutation_length, Permutation_sym, stable_sort_perm.
  - rewrite <- (firstn_skipn n) in Sd. exact (sorted_app_l _ _ _ Sd).
  - intros x y Ix Iy. rewrite <- (firstn_skipn n) in Sd. exact (sorted_app_lt _ _ _ Sd x y Ix Iy).
  - intros v. apply stable_sort_stable. intros x y _ _ Hx Hy. unfold less. lia.
Qed.
Print Assumptions C118_largest_first.

(** ** C119 *)
Lemma shorten_parts_spec : forall parts over, 0 <= over ->
  Forall2 beginning (shorten_parts over parts) parts /\
  exists d, zsum (map (fun p => Z.of_nat (List.length p)) (shorten_parts over parts)) + d = zsum (map (fun p => Z.of_nat (List.length p)) parts) /\ 0 <= d <= over /\
    (d = over \/ Forall (fun p => (List.length p <= 1)%nat) (shorten_parts over parts)).
Proof.
  assert (B0 : forall p : bytes, beginning p p) by (intros p; split; [exists []; symmetry; apply app_nil_r|auto]).
  induction parts as [|p r IH]; intros over Ho; cbn [shorten_parts].
  - split; [constructor|]. exists 0. cbn. repeat split; try lia. right. constructor.
  - destruct (Z.leb_spec over 0).
    + split; [clear - B0; induction (p :: r); constructor; auto|]. exists 0. split; [lia|]. split; [lia|left; lia].
    + destruct p as [|ch p'].
      * destruct (IH over Ho) as (F & d & D1 & D2 & D3). split; [constructor; [apply B0|exact F]|]. exists d. unfold zsum in *. cbn [map fold_right List.length]. repeat split; try lia.
        destruct D3 as [D3|D3]; [left; exact D3|right; constructor; [cbn; lia|exact D3]].
      * set (p := ch :: p') in *. assert (Lp : 1 <= Z.of_nat (List.length p)) by (cbn [p List.length]; lia). set (dr := if over <? Z.of_nat (List.length p) - 1 then over else Z.of_nat (List.length p) - 1).
        assert (Hd : 0 <= dr <= over /\ dr <= Z.of_nat (List.length p) - 1 /\ (dr = over \/ dr = Z.of_nat (List.length p) - 1)) by (unfold dr; destruct (Z.ltb_spec over (Z.of_nat (List.length p) - 1)); lia).
        clearbody dr. destruct (IH (over - dr) ltac:(lia)) as (F & d & D1 & D2 & D3).
        assert (Ln : Z.of_nat (List.length (firstn (Z.to_nat (Z.of_nat (List.length p) - dr)) p)) = Z.of_nat (List.length p) - dr) by (rewrite firstn_length; lia).
        split; [constructor; [|exact F]|].
        { split; [exists (skipn (Z.to_nat (Z.of_nat (List.length p) - dr)) p); symmetry; apply firstn_skipn|]. intros X. rewrite X in Ln. cbn [List.length] in Ln. lia. }
        exists (dr + d). unfold zsum in *. cbn [map fold_right]. rewrite Ln. repeat split; try lia. destruct D3 as [D3|D3]; [left; lia|]. destruct (Z.eq_dec dr over); [|right; constructor; [lia|exact D3]].
        left. lia.
Qed.
Lemma join_length sep : forall ps : list bytes, ps <> [] -> Z.of_nat (List.length (join [sep] ps)) = zsum (map (fun p => Z.of_nat (List.length p)) ps) + Z.of_nat (List.length ps) - 1.
Proof.
  induction ps as [|p [|q r] IH]; intros N; [congruence| |].
  - cbn [join map List.length]. unfold zsum. cbn [fold_right]. lia.
  - assert (E : join [sep] (p :: q :: r) = p ++ [sep] ++ join [sep] (q :: r)) by reflexivity. rewrite E, !app_length. specialize (IH ltac:(discriminate)).
    change (List.length [sep]) with 1%nat. unfold zsum in *. cbn [map fold_right] in *. cbn [List.length] in *. lia.
Qed.
(** partial: different accounts may get the same label (below). Labels: a name that fits is kept; a longer one keeps its parts, each at least by its first letter, and is then as long as allowed, unless only first letters are left *)
Theorem C119_short_names_partial : forall name size,
  (Z.of_nat (List.length name) <= size -> shorten_name name size = name) /\
  (size < Z.of_nat (List.length name) ->
    Forall2 beginning (split_on ":"%char (shorten_name name size)) (split_on ":"%char name) /\
    size <= Z.of_nat (List.length (shorten_name name size)) /\
    (Z.of_nat (List.length (shorten_name name size)) = size \/ Forall (fun p => (List.length p <= 1)%nat) (split_on ":"%char (shorten_name name size)))).
Proof.
  intros name size. unfold shorten_name. split; intros H; [destruct (Z.leb_spec (Z.of_nat (List.length name)) size); [reflexivity|lia]|].
  destruct (Z.leb_spec (Z.of_nat (List.length name)) size); [lia|]. set (over := Z.of_nat (List.length name) - size). set (parts := split_on ":"%char name).
  destruct (shorten_parts_spec parts over ltac:(unfold over; lia)) as (F & d & D1 & D2 & D3).
  assert (Np : parts <> []) by apply split_on_nonnil.
  assert (Nq : shorten_parts over parts <> []) by (intros X; rewrite X in F; inversion F; congruence).
  assert (Sep : Forall (fun p => ~ In ":"%char p) (shorten_parts over parts)).
  { assert (S0 : Forall (fun p => ~ In ":"%char p) parts) by apply split_no_sep. clear - F S0. induction F as [|q p qs ps [[r E] _] F IH]; [constructor|]. inversion S0; subst. constructor; [|auto].
    intros I. match goal with X : ~ In _ _ |- _ => apply X end. apply in_or_app. left. exact I. }
  change (B ":") with [":"%char]. rewrite split_join by assumption.
  assert (L1 : Z.of_nat (List.length name) = zsum (map (fun p => Z.of_nat (List.length p)) parts) + Z.of_nat (List.length parts) - 1) by (rewrite <- (join_length ":"%char parts Np); unfold parts; rewrite join_split; reflexivity).
  assert (L2 : List.length (shorten_parts over parts) = List.length parts) by (clear - F; induction F; cbn [List.length]; congruence).
  pose proof (join_length ":"%char _ Nq) as L3. rewrite L2 in L3. split; [exact F|]. rewrite L3. unfold over in *. split; [lia|]. destruct D3 as [D3|D3]; [left; lia|right; exact D3].
Qed.
Print Assumptions C119_short_names_partial.
(** the label of a column is the rest of the name after that of the selected account *)
Theorem C119_relative_name : forall a rest, relative_name a (a ++ rest) = rest.
Proof. intros a rest. unfold relative_name. rewrite skipn_app, skipn_all, Nat.sub_diag. reflexivity. Qed.
(** different accounts can have the same label *)
Theorem C119_same_label_refuted : exists a b size, a <> b /\ shorten_name a size = shorten_name b size /\ size = 36.
Proof. exists (B ":Cottage-North:Repairs:Plumbing-and-heating"), (B ":Cottage-South:Repairs:Plumbing-and-heating"), 36. split; [vm_compute; discriminate|]. split; vm_compute; reflexivity. Qed.
Example C119_example : shorten_name (B ":Cottage-North:Repairs:Plumbing-and-heating") 36 = B ":Cottag:Repairs:Plumbing-and-heating" /\ shorten_name (B ":Bank:Cash") 3 = B ":B:C".
Proof. split; vm_compute; reflexivity. Qed.
