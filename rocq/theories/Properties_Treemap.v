(** C131: the table and the chart of balances of the coin2html page. *)
From Coq Require Import Permutation Sorted.
From Verif Require Import Base M_Amount S_Amount S_Decimal L_Dec M_Date S_Date M_Parser M_Names M_Tags M_Ledger S_Books L_Sort L_Resolve L_Load L_Entries L_Amount L_Tree L_Balance L_Coin
  Properties_Tree Properties_Ledger M_Json M_Web L_Web M_Page S_Page L_Page Properties_Page M_Views S_Views L_Views L_Views2 Properties_Views M_Ui S_Ui L_Ui M_Columns Properties_Ui
  M_Treemap S_Treemap L_Treemap.
Local Open Scope Z_scope.

(** ** the rows *)
Section Rows.
Variables (mid : Z -> Z) (pg : page) (show : bool) (t : Z) (depth : nat).
Hypothesis G : good_page pg.
Hypothesis Hd : (depth_of_page pg <= depth)%nat.
Notation V := (L_Views.vis mid pg show t depth).
Lemma tree_longer a pa p : find_account (pg_accounts pg) a = Some pa -> pa_parent pa = Some p -> (List.length p < List.length a)%nat.
Proof. intros F P. apply (proj2 (proj2 (proj1 G)) _ _ _ F P). Qed.
Lemma vis_shown x b : In b (V x) <-> shown_child mid pg show t x b.
Proof.
  unfold L_Views.vis, shown_child. rewrite filter_In. split; intros [I H]; (split; [exact I|]); pose proof (children_short pg x b (proj1 G) I) as L.
  - unfold hidden in H. destruct show; [left; reflexivity|]. right. cbn [negb andb] in H. intros C. apply (closed_at_spec mid _ t tree_longer depth b) in C; [rewrite C in H; discriminate|]. lia.
  - unfold hidden. destruct show; [reflexivity|]. destruct H as [H|H]; [discriminate|]. cbn [negb andb]. destruct (closed_at mid depth (pg_accounts pg) b t) eqn:E; [|reflexivity]. exfalso. apply H. apply (closed_at_spec mid _ t tree_longer depth b) in E; [exact E|]. lia.
Qed.
Lemma vis_par a b : In b (V a) -> parent_on_page pg b = Some a /\ (List.length a < List.length b)%nat.
Proof.
  intros I. apply filter_In in I as [I _]. split; [|apply (children_short pg a b (proj1 G) I)]. apply (child_parent pg (proj1 G)) in I as (pb & F & P). unfold parent_on_page. rewrite F. exact P.
Qed.
Lemma vis_nodup a : NoDup (V a). Proof. apply NoDup_filter, (proj2 G). Qed.
Lemma vis_short a b : In b (V a) -> (List.length b < depth_of_page pg)%nat.
Proof. intros I. apply filter_In in I as [I _]. apply (children_short pg a b (proj1 G) I). Qed.
(** the rows, whatever the commodities *)
Lemma balances_rows conv : forall f a rows, all_balances mid conv pg show t depth f a = Ok rows ->
  rows_of V a (map r_acc rows) /\ forall r, In r rows -> r_bal r = page_balance mid pg t (r_acc r).
Proof.
  induction f as [|f IH]; intros a rows E; cbn [all_balances] in E; [discriminate|]. apply bind_ok in E as ((rows1 & total1) & E1 & E). cbn [fst snd] in E. injection E as <-.
  assert (K : forall l rows0 total rows1 total1, child_loop mid conv pg show t depth (all_balances mid conv pg show t depth f) l rows0 total = Ok (rows1, total1) ->
    exists new, rows1 = rows0 ++ new /\ rows_list V (filter (fun b => negb (hidden mid pg show t depth b)) l) (map r_acc new) /\ forall r, In r new -> r_bal r = page_balance mid pg t (r_acc r)).
  { clear -IH. induction l as [|b l IHl]; intros rows0 total rows1 total1 E; cbn [child_loop] in E.
    - injection E as <- <-. exists []. rewrite app_nil_r. split; [reflexivity|]. split; [constructor|intros r []].
    - cbn [filter]. destruct (hidden mid pg show t depth b); cbn [negb]; [apply (IHl _ _ _ _ E)|].
      apply bind_ok in E as (cb & Ecb & E). destruct cb as [|first rest]; [discriminate|]. apply bind_ok in E as (total2 & Et & E).
      destruct (IH b _ Ecb) as (G1 & G2). destruct (IHl _ _ _ _ E) as (new & N1 & N2 & N3). exists ((first :: rest) ++ new). split; [rewrite N1, <- app_assoc; reflexivity|].
      split; [rewrite map_app; constructor; assumption|]. intros r I. apply in_app_or in I as [I|I]; auto. }
  destruct (K _ _ _ _ _ E1) as (new & -> & N2 & N3). cbn [app]. split; [cbn [map r_acc]; constructor; exact N2|]. intros r [<-|I]; [reflexivity|apply N3, I].
Qed.
Lemma level_iff (R S : bytes -> bytes -> Prop) a b n : (forall x y, R x y -> S x y) -> level R a b n -> level S a b n.
Proof. intros H. induction 1; [constructor|]. econstructor; eauto. Qed.
Lemma lev_level a b n : lev V a b n <-> level (shown_child mid pg show t) a b n.
Proof. unfold lev. split; apply level_iff; intros x y; apply vis_shown. Qed.
(** the level of a row *)
Lemma depth_from_level a : forall n b, lev V a b n -> forall f, (List.length b < f)%nat -> depth_from pg f a b = Z.of_nat n.
Proof.
  induction 1 as [|b c n H IH I]; intros f Hf; (destruct f as [|f]; [lia|]); cbn [depth_from].
  - rewrite eqb_bytes_refl. reflexivity.
  - destruct (vis_par _ _ I) as [P L]. destruct (eqb_bytes a c) eqn:E.
    + apply eqb_bytes_eq in E. subst c. apply (lev_len V (parent_on_page pg) vis_par vis_nodup a) in H. lia.
    + rewrite P. cbv zeta. rewrite IH by lia. destruct (Z.of_nat n <? 0) eqn:X; lia.
Qed.
End Rows.

Lemma lev_cases V a b n : lev V a b n -> a = b \/ exists c m, lev V a c m /\ In b (V c).
Proof. intros H. inversion H as [E|c d m K I E1 E2]; [left; reflexivity|right; eauto]. Qed.
(** ** the table *)
Lemma map_filter_nodup {X Y} (f : X -> Y) (g : X -> bool) l : NoDup (map f l) -> NoDup (map f (filter g l)).
Proof.
  induction l as [|x l IH]; intros N; [constructor|]. cbn [map filter] in *. apply NoDup_cons_iff in N as [N1 N2]. destruct (g x); [|apply IH, N2]. cbn [map]. constructor; [|apply IH, N2].
  intros I. apply N1. apply in_map_iff in I as (y & E & I). apply filter_In in I as [I _]. rewrite <- E. apply in_map, I.
Qed.
Theorem C131_rows : forall mid conv pg show t depth fuel sel rows, good_page pg -> (depth_of_page pg <= depth)%nat ->
  all_balances mid conv pg show t depth fuel sel = Ok rows -> all_beneath (shown_child mid pg show t) sel (map r_acc rows) /\
  forall r, In r rows -> r_bal r = page_balance mid pg t (r_acc r).
Proof.
  intros mid conv pg show t depth fuel sel rows G D E. destruct (balances_rows mid pg show t depth conv fuel sel rows E) as [R B]. split; [|exact B]. split.
  - apply (rows_nodup _ _ (vis_par mid pg show t depth G) (vis_nodup mid pg show t depth G) _ _ R).
  - intros b. transitivity (exists n, lev (L_Views.vis mid pg show t depth) sel b n).
    + rewrite <- lev_beneath. split; [apply (rows_in _ _ _ R)|apply (rows_below _ _ _ R)].
    + split; intros [n H]; exists n; [split; [|exact I]|destruct H as [H _]]; apply (lev_level mid pg show t depth G D); exact H.
Qed.
Theorem C131_table : forall mid conv pg show t depth fuel sel limit rows, good_page pg -> (depth_of_page pg <= depth)%nat ->
  all_balances mid conv pg show t depth fuel sel = Ok rows ->
  let shown := table_rows pg sel limit rows in
  levels_shown (shown_child mid pg show t) sel (fun n => Z.of_nat n <= limit) (map r_acc shown) /\
  (forall r, In r shown -> In r rows /\ table_cells sel r = [web_string true (page_balance mid pg t (r_acc r)); web_string true (r_total r); skipn (List.length sel) (r_acc r)]) /\
  exists keep, shown = filter keep rows.
Proof.
  intros mid conv pg show t depth fuel sel limit rows G D E. cbv zeta. destruct (C131_rows _ _ _ _ _ _ _ _ _ G D E) as [[N A] B]. unfold table_rows.
  assert (K : forall r n, level (shown_child mid pg show t) sel (r_acc r) n -> depth_from pg (height (r_acc r)) sel (r_acc r) = Z.of_nat n).
  { intros r n L. apply (depth_from_level mid pg show t depth G D sel n); [apply (lev_level mid pg show t depth G D), L|unfold height; lia]. }
  split; [split; [apply map_filter_nodup, N|]|split; [|eexists; reflexivity]].
  - intros b. rewrite in_map_iff. split.
    + intros (r & <- & I). apply filter_In in I as [I L]. apply (in_map r_acc) in I. apply A in I as (n & H & _). exists n. split; [exact H|]. rewrite (K r n H) in L. lia.
    + intros (n & H & L). assert (J : In b (map r_acc rows)) by (apply A; eauto). apply in_map_iff in J as (r & <- & I). exists r. split; [reflexivity|]. apply filter_In. split; [exact I|]. rewrite (K r n H). lia.
  - intros r I. apply filter_In in I as [I _]. split; [exact I|]. unfold table_cells. rewrite (B r I). reflexivity.
Qed.
Print Assumptions C131_table.

(** ** the chart *)
Lemma worth_convert conv c x n : worth conv c x n -> exists v, page_convert conv c x = Ok v /\ a_int v = n.
Proof.
  unfold worth, page_convert. intros [[H ->]|[(H & Z0 & ->)|(H & Z0 & v & E & ->)]].
  - subst c. rewrite eq_commodity_refl. eauto.
  - destruct (eq_commodity (a_com x) c) eqn:E; [apply eq_commodity_eq in E; contradiction|]. rewrite Z0. eexists. split; reflexivity.
  - destruct (eq_commodity (a_com x) c) eqn:E1; [apply eq_commodity_eq in E1; contradiction|]. destruct (a_int x =? 0) eqn:E2; [lia|]. eauto.
Qed.
Lemma sizes_ok conv c negated w rows : (forall r, In r rows -> worth conv c (r_bal r) (w (r_acc r))) ->
  box_sizes conv c negated rows = Ok (map (fun r => (r, brings negated (w (r_acc r)))) rows).
Proof.
  induction rows as [|r rows IH]; intros H; [reflexivity|]. cbn [box_sizes map]. destruct (worth_convert _ _ _ _ (H r (or_introl eq_refl))) as (v & -> & <-). cbn [bind]. rewrite IH by (intros; apply H; right; assumption). cbn [bind].
  unfold brings. destruct negated; reflexivity.
Qed.
Theorem C131_chart : forall mid convert pg show t depth fuel sel rows conv negated limit w pa, good_page pg -> (depth_of_page pg <= depth)%nat -> find_account (pg_accounts pg) sel = Some pa ->
  all_balances mid convert pg show t depth fuel sel = Ok rows -> 0 <= limit ->
  (forall r, In r rows -> worth conv (pa_com pa) (page_balance mid pg t (r_acc r)) (w (r_acc r))) ->
  exists boxes, chart pg conv sel negated limit rows = Ok boxes /\
    levels_shown (shown_child mid pg show t) sel (fun n => Z.of_nat n < limit) (map bx_acc boxes) /\
    StronglySorted (fun x y => forall n m, level (shown_child mid pg show t) sel x n -> level (shown_child mid pg show t) sel y m -> (n <= m)%nat) (map bx_acc boxes) /\
    forall b, In b boxes -> exists r name ls, In r rows /\ bx_acc b = r_acc r /\
      (forall pb, find_account (pg_accounts pg) (r_acc r) = Some pb -> name = pa_name pb) /\ box_lines pg name (page_balance mid pg t (r_acc r)) (r_total r) (r_acc r) (bx_title b) (bx_texts b) /\
      all_beneath (shown_child mid pg show t) (r_acc r) ls /\ bx_value b = zsum (map (fun a => brings negated (w a)) ls).
Proof.
  intros mid convert pg show t depth fuel sel rows conv negated limit w pa G D Fs E L0 W.
  destruct (C131_rows _ _ _ _ _ _ _ _ _ G D E) as [[N A] B]. destruct (balances_rows mid pg show t depth convert fuel sel rows E) as [R _].
  unfold chart. cbv zeta. assert (Ec : com_of pg sel = pa_com pa) by (unfold com_of; rewrite Fs; reflexivity). rewrite Ec.
  rewrite (sizes_ok conv (pa_com pa) negated w rows) by (intros r I; rewrite (B r I); apply W, I). cbn [bind].
  set (V := L_Views.vis mid pg show t depth) in *. set (par := parent_on_page pg).
  assert (Hp : forall a b, In b (V a) -> par b = Some a /\ (List.length a < List.length b)%nat) by apply (vis_par mid pg show t depth G).
  assert (Hn : forall a, NoDup (V a)) by apply (vis_nodup mid pg show t depth G).
  set (sized := map (fun r => (r, brings negated (w (r_acc r)))) rows).
  set (id := fun x : row * Z => r_acc (fst x)). set (pid := fun x : row * Z => parent_id pg sel (r_acc (fst x))).
  assert (Hid : map id sized = map r_acc rows) by (unfold sized, id; rewrite map_map; reflexivity).
  assert (Hsz : exists x0 rest, sized = x0 :: rest) by (rewrite <- Hid in R; destruct sized as [|x0 rest]; [inversion R|eauto]).
  destruct Hsz as (x0 & rest & Es).
  assert (Hrows : rows_of V sel (map id (x0 :: rest))) by (rewrite <- Es, Hid; exact R).
  assert (Nid : NoDup (map id (x0 :: rest))) by (rewrite <- Es, Hid; exact N).
  assert (I0 : id x0 = sel) by (cbn [map] in Hrows; inversion Hrows; reflexivity).
  assert (Lv : forall x, In x (x0 :: rest) -> exists n, lev V sel (id x) n).
  { intros x Ix. apply lev_beneath. apply (rows_in _ _ _ Hrows), in_map, Ix. }
  assert (Hroot : pid x0 = None).
  { unfold pid, parent_id. change (r_acc (fst x0)) with (id x0). rewrite I0. destruct (parent_on_page pg sel) as [p|] eqn:P; [|reflexivity]. rewrite eqb_bytes_refl. reflexivity. }
  assert (Hpid : forall x, In x rest -> pid x = par (id x)).
  { intros x Ix. unfold pid, parent_id, par. change (r_acc (fst x)) with (id x). destruct (Lv x (or_intror Ix)) as [n Ln]. destruct (lev_cases _ _ _ _ Ln) as [Eq|(b & m & H & K)].
    - exfalso. cbn [map] in Nid. apply NoDup_cons_iff in Nid as [N1 _]. apply N1. rewrite I0, Eq. apply in_map, Ix.
    - destruct (Hp _ _ K) as [P Lt]. unfold par in P. rewrite P. destruct (parent_on_page pg sel) as [q|] eqn:Q; [|reflexivity].
      destruct (eqb_bytes b q) eqn:X; [|reflexivity]. apply eqb_bytes_eq in X. subst q. exfalso. apply (lev_len V par Hp Hn) in H.
      unfold parent_on_page in Q. rewrite Fs in Q. pose proof (tree_longer pg G _ _ _ Fs Q). lia. }
  assert (Short : (List.length sel < depth_of_page pg)%nat).
  { unfold depth_of_page. pose proof Fs as F2. unfold find_account in F2. apply find_some in F2 as [F2 F3]. apply eqb_bytes_eq in F3. rewrite <- F3. pose proof (longest _ _ F2). lia. }
  assert (HD : forall x, In x (x0 :: rest) -> (List.length (id x) < S (depth_of_page pg))%nat).
  { intros x Ix. destruct (Lv x Ix) as [n Ln]. destruct (lev_cases _ _ _ _ Ln) as [Eq|(b & m & H & K)]; [rewrite <- Eq; lia|]. pose proof (vis_short mid pg show t depth G _ _ K). lia. }
  fold id pid. rewrite Es.
  rewrite (stratify_ok V par Hp Hn sel _ id pid x0 rest Hrows Hroot Hpid (S (depth_of_page pg)) HD (S (depth_of_page pg)) (le_n _)). cbn [bind].
  eexists. split; [reflexivity|].
  assert (Sl : slice0 limit (levels id pid (S (depth_of_page pg)) (x0 :: rest) [x0]) = firstn (Z.to_nat limit) (levels id pid (S (depth_of_page pg)) (x0 :: rest) [x0])).
  { unfold slice0. destruct (limit <? 0) eqn:X; [lia|reflexivity]. }
  rewrite Sl. clear Sl.
  assert (First : forall x, In x [x0] <-> In x (x0 :: rest) /\ lev V sel (id x) 0).
  { intros x. split.
    - intros [<-|[]]. split; [left; reflexivity|]. rewrite I0. constructor.
    - intros [[<-|Ix] Lx]; [left; reflexivity|]. exfalso. inversion Lx as [Eq|]. cbn [map] in Nid. apply NoDup_cons_iff in Nid as [N1 _]. apply N1. rewrite I0, Eq. apply in_map, Ix. }
  destruct (levels_spec V par Hp Hn sel _ id pid x0 rest Hrows Hroot Hpid (S (depth_of_page pg)) HD (Z.to_nat limit) (S (depth_of_page pg)) [x0] 0 ltac:(lia) First) as (K1 & K2 & K3); [constructor; [intros []|constructor]|].
  cbv zeta in K1, K2, K3. set (k := concat (firstn (Z.to_nat limit) (levels id pid (S (depth_of_page pg)) (x0 :: rest) [x0]))) in *. clearbody k.
  rewrite map_map. change (map (fun x => bx_acc (mkBox (r_acc (fst x)) (box_title pg (fst x)) (box_texts pg (fst x)) (node_value id pid (S (depth_of_page pg)) (x0 :: rest) snd x))) k) with (map id k).
  assert (LL : forall b n, lev V sel b n <-> level (shown_child mid pg show t) sel b n) by (intros; apply (lev_level mid pg show t depth G D)).
  split; [split; [exact K2|]|split].
  - intros b. rewrite in_map_iff. split.
    + intros (x & <- & Ix). apply K1 in Ix as (_ & j & Hj & Hl). exists j. split; [apply LL, Hl|lia].
    + intros (n & Hl & Hn'). assert (J : In b (map r_acc rows)) by (apply A; eauto). rewrite <- Hid, Es in J. apply in_map_iff in J as (x & <- & Ix). exists x. split; [reflexivity|]. apply K1. split; [exact Ix|]. exists n. split; [lia|]. apply LL, Hl.
  - clear -K3 LL. induction K3 as [|x l S IH F]; constructor; [exact IH|]. rewrite Forall_forall in *. intros y Iy n m Hn Hm. apply (F y Iy); apply LL; assumption.
  - intros b Ib. apply in_map_iff in Ib as (x & <- & Ix). apply K1 in Ix as (Ix & _). cbn [bx_acc bx_texts bx_value].
    assert (Jx : In x sized) by (rewrite Es; exact Ix). unfold sized in Jx. apply in_map_iff in Jx as (r & <- & Ir). cbn [fst]. exists r, (short_name pg (r_acc r)), (map id (visit id pid (S (depth_of_page pg)) (x0 :: rest) (r, brings negated (w (r_acc r))))).
    split; [exact Ir|]. split; [reflexivity|]. split; [intros pb F; unfold short_name; rewrite F; reflexivity|]. cbn [bx_title].
    assert (Vr := visit_rows V par Hp Hn sel _ id pid x0 rest Hrows Hroot Hpid (S (depth_of_page pg)) HD (S (depth_of_page pg)) (r, brings negated (w (r_acc r))) Ix ltac:(lia)).
    split; [|split; [split|]].
    + unfold box_lines, box_texts, box_title, shows_own. rewrite (B r Ir). destruct (pg_children pg (r_acc r)) as [|c0 cs]; [left; split; [left; reflexivity|rewrite !app_nil_r; split; reflexivity]|].
      destruct (a_int (page_balance mid pg t (r_acc r)) =? 0) eqn:X; [left; split; [right; lia|rewrite !app_nil_r; split; reflexivity]|]. right. split; [discriminate|]. split; [lia|split; reflexivity].
    + apply (rows_nodup _ _ Hp Hn _ _ Vr).
    + intros b. transitivity (exists n, lev V (r_acc r) b n).
      * rewrite <- lev_beneath. split; [apply (rows_in _ _ _ Vr)|apply (rows_below _ _ _ Vr)].
      * split; intros [n H]; exists n; [split; [|exact I]|destruct H as [H _]]; apply (lev_level mid pg show t depth G D); exact H.
    + rewrite value_visit. rewrite map_map. f_equal. apply map_ext_in. intros y Iy. assert (Iy2 : In (id y) (map id (visit id pid (S (depth_of_page pg)) (x0 :: rest) (r, brings negated (w (r_acc r)))))) by (apply in_map, Iy).
      assert (Jy : In y (x0 :: rest)).
      { clear -Iy Ix. revert Iy. generalize (S (depth_of_page pg)). intros f. revert Ix. generalize (r, brings negated (w (r_acc r))). induction f as [|f IH]; intros z Iz J; [destruct J|]. cbn [visit] in J. destruct J as [<-|J]; [exact Iz|].
        apply in_flat_map in J as (z' & J1 & J2). apply (IH z'); [|exact J2]. unfold node_children in J1. apply filter_In in J1. apply J1. }
      rewrite <- Es in Jy. unfold sized in Jy. apply in_map_iff in Jy as (r' & <- & _). reflexivity.
Qed.
Print Assumptions C131_chart.
(** the chart of depth n + 1 has the accounts of the table of depth n *)
Theorem C131_same_accounts : forall mid convert pg show t depth fuel sel rows conv negated limit w pa, good_page pg -> (depth_of_page pg <= depth)%nat -> find_account (pg_accounts pg) sel = Some pa ->
  all_balances mid convert pg show t depth fuel sel = Ok rows -> 0 <= limit ->
  (forall r, In r rows -> worth conv (pa_com pa) (page_balance mid pg t (r_acc r)) (w (r_acc r))) ->
  exists boxes, chart pg conv sel negated (limit + 1) rows = Ok boxes /\ Permutation (map bx_acc boxes) (map r_acc (table_rows pg sel limit rows)).
Proof.
  intros mid convert pg show t depth fuel sel rows conv negated limit w pa G D Fs E L0 W.
  destruct (C131_chart mid convert pg show t depth fuel sel rows conv negated (limit + 1) w pa G D Fs E ltac:(lia) W) as (boxes & E1 & (N1 & A1) & _).
  destruct (C131_table mid convert pg show t depth fuel sel limit rows G D E) as ((N2 & A2) & _). exists boxes. split; [exact E1|]. apply NoDup_Permutation; [exact N1|exact N2|].
  intros b. rewrite A1, A2. split; intros (n & H & K); exists n; (split; [exact H|]); lia.
Qed.
(** the area of a box is its total - if no account beneath has a balance of the other sign, and all are in one commodity *)
Theorem C131_area_partial : forall mid convert pg show t depth fuel sel rows conv (negated : bool) limit pa, good_page pg -> (depth_of_page pg <= depth)%nat -> find_account (pg_accounts pg) sel = Some pa ->
  all_balances mid convert pg show t depth fuel sel = Ok rows -> 0 <= limit ->
  (forall a, under pg sel a -> a_com (page_balance mid pg t a) = pa_com pa) -> small (map (fun r => a_int (page_balance mid pg t (r_acc r))) rows) ->
  (forall r, In r rows -> if negated then a_int (page_balance mid pg t (r_acc r)) <= 0 else 0 <= a_int (page_balance mid pg t (r_acc r))) ->
  exists boxes, chart pg conv sel negated limit rows = Ok boxes /\ forall b, In b boxes -> exists r, In r rows /\ bx_acc b = r_acc r /\ bx_value b = Z.abs (a_int (r_total r)).
Proof.
  intros mid convert pg show t depth fuel sel rows conv negated limit pa G D Fs E L0 Hc Hs Sg.
  destruct (C131_chart mid convert pg show t depth fuel sel rows conv negated limit (fun a => a_int (page_balance mid pg t a)) pa G D Fs E L0) as (boxes & E1 & _ & _ & Hb).
  { intros r Ir. left. split; [apply Hc|reflexivity]. destruct (balances_rows mid pg show t depth convert fuel sel rows E) as [R _]. pose proof (rows_in _ _ _ R (r_acc r) (in_map r_acc _ _ Ir)) as Bn.
    clear -Bn. induction Bn as [|b c _ IH I]; [constructor|]. econstructor; [exact IH|]. apply filter_In in I. apply I. }
  exists boxes. split; [exact E1|]. intros b Ib. destruct (Hb b Ib) as (r & name & ls & Ir & Ea & _ & _ & (Nl & Al) & Vl). exists r. split; [exact Ir|]. split; [exact Ea|]. rewrite Vl.
  destruct (all_balances_spec mid convert pg show t depth (pa_com pa) (under pg sel) (fun x y H I => beneath_child _ _ _ _ H I) Hc fuel sel rows (beneath_self _ _) E) as (_ & _ & SR). specialize (SR Hs). apply in_split in Ir as (l1 & l2 & Er).
  destruct (SR l1 r l2 Er) as (sub & rest & Esub & Rs & Et). rewrite Et. cbn [a_int].
  assert (P : Permutation ls (map r_acc sub)).
  { apply NoDup_Permutation; [exact Nl|apply (rows_nodup _ _ (vis_par mid pg show t depth G) (vis_nodup mid pg show t depth G) _ _ Rs)|]. intros x. rewrite Al.
    transitivity (exists n, lev (L_Views.vis mid pg show t depth) (r_acc r) x n).
    - split; intros [n H]; exists n; [destruct H as [H _]|split; [|exact I]]; apply (lev_level mid pg show t depth G D); exact H.
    - rewrite <- lev_beneath. split; [apply (rows_below _ _ _ Rs)|apply (rows_in _ _ _ Rs)]. }
  assert (P2 := Permutation_map (fun a => brings negated (a_int (page_balance mid pg t a))) P). rewrite (zsum_perm _ _ P2). rewrite map_map. clear P P2 Al Nl.
  assert (Is : forall x, In x sub -> In x rows) by (intros x Ix; rewrite Er; apply in_or_app; right; rewrite Esub; apply in_or_app; left; exact Ix).
  change (fun x : row => a_int (L_Views.bal mid pg t (r_acc x))) with (fun x : row => a_int (page_balance mid pg t (r_acc x))).
  assert (Q : zsum (map (fun x => brings negated (a_int (page_balance mid pg t (r_acc x)))) sub) = (if negated then - zsum (map (fun x => a_int (page_balance mid pg t (r_acc x))) sub) else zsum (map (fun x => a_int (page_balance mid pg t (r_acc x))) sub)) /\
    0 <= zsum (map (fun x => brings negated (a_int (page_balance mid pg t (r_acc x)))) sub)).
  { clear -Sg Is. induction sub as [|x sub IH]; [destruct negated; split; reflexivity|]. destruct IH as [IH1 IH2]; [intros; apply Is; right; assumption|]. cbn [map]. rewrite !zsum_cons. specialize (Sg x (Is x (or_introl eq_refl))).
    unfold brings in *. destruct negated; lia. }
  destruct Q as [Q1 Q2]. rewrite Q1 in Q2 |- *. destruct negated; lia.
Qed.
Print Assumptions C131_area_partial.
(** the pages made of the books *)
Theorem C131_pages : forall about coms T info accounts L location xs e pg,
  coms_ok coms -> accounts_ok coms T info accounts -> xs <> [] -> Forall (tx_ok coms accounts L) xs ->
  export_page about coms T info accounts L location xs = Ok e -> load_page e = Ok pg -> good_page pg.
Proof.
  intros about coms T info accounts L location xs e pg Hc Ha Nx TX He Hp. split; [apply (C114_page_tree about coms T info accounts L location xs e pg Hc Ha Nx TX He Hp)|].
  destruct (C103_page_has_the_books_partial about coms T info accounts L location xs Hc Ha Nx TX) as (e' & pg' & E1 & E2 & _ & _ & _ & _ & ND & _).
  rewrite He in E1. injection E1 as <-. rewrite Hp in E2. injection E2 as <-. exact ND.
Qed.
(** ** a case: Assets with a bank account and a debt *)
Definition tm_page (bank loan : Z) : page := mkPage [cad]
  [ui_acct (B "Assets") None None; ui_acct (B "Assets:Bank") (Some (B "Assets")) None; ui_acct (B "Assets:Bank:Cash") (Some (B "Assets:Bank")) None; ui_acct (B "Assets:Loan") (Some (B "Assets")) None]
  [B "Assets"] (fun a => if eqb_bytes a (B "Assets") then [B "Assets:Bank"; B "Assets:Loan"] else if eqb_bytes a (B "Assets:Bank") then [B "Assets:Bank:Cash"] else [])
  (fun a => if eqb_bytes a (B "Assets:Bank") then [mkPpost 0 10 a (mkAmount bank cad) (mkAmount bank cad) false None None] else if eqb_bytes a (B "Assets:Loan") then [mkPpost 1 10 a (mkAmount loan cad) (mkAmount loan cad) false None None] else []) [].
Lemma tm_good bank loan : good_page (tm_page bank loan).
Proof.
  assert (Fd : forall a pa, find_account (pg_accounts (tm_page bank loan)) a = Some pa -> In pa (pg_accounts (tm_page bank loan)) /\ pa_full pa = a).
  { intros a pa E. unfold find_account in E. apply find_some in E as [I H]. apply eqb_bytes_eq in H. auto. }
  split; [split; [|split]|].
  - intros r [<-|[]]. eexists; split; vm_compute; reflexivity.
  - intros a b. cbn [tm_page pg_children]. split.
    + destruct (eqb_bytes a (B "Assets")) eqn:E1; [apply eqb_bytes_eq in E1; subst a; intros [<-|[<-|[]]]; eexists; split; vm_compute; reflexivity|].
      destruct (eqb_bytes a (B "Assets:Bank")) eqn:E2; [apply eqb_bytes_eq in E2; subst a; intros [<-|[]]; eexists; split; vm_compute; reflexivity|]. intros [].
    + intros (pb & F & P). apply Fd in F as [I <-]. destruct I as [<-|[<-|[<-|[<-|[]]]]]; cbn [ui_acct pa_parent pa_full] in *; try discriminate; injection P as <-; vm_compute; tauto.
  - intros b pb a F P. apply Fd in F as [I <-]. destruct I as [<-|[<-|[<-|[<-|[]]]]]; cbn [ui_acct pa_parent pa_full] in *; try discriminate; injection P as <-; (split; [eexists; vm_compute; reflexivity|cbn; lia]).
  - intros a. cbn [tm_page pg_children]. destruct (eqb_bytes a (B "Assets")); [|destruct (eqb_bytes a (B "Assets:Bank"))]; repeat constructor; cbn [In]; try tauto. intros [X|[]]. discriminate.
Qed.
Definition tm_rows (bank loan : Z) : res (list row) := all_balances london_utc (fun _ _ _ _ => Fail) (tm_page bank loan) false 20000 20 20 (B "Assets").
Definition tm_case (bank loan limit : Z) :=
  match tm_rows bank loan with
  | Ok rows => Some (map (fun r => (r_acc r, r_total r)) (table_rows (tm_page bank loan) (B "Assets") limit rows),
                     match chart (tm_page bank loan) (fun _ _ _ => Fail) (B "Assets") false limit rows with Ok bs => Some (map (fun b => (bx_acc b, bx_texts b, bx_value b)) bs) | _ => None end)
  | _ => None end.
Example C131_case : tm_case 500 200 2 = Some (
  [(B "Assets", mkAmount 700 cad); (B "Assets:Bank", mkAmount 500 cad); (B "Assets:Bank:Cash", mkAmount 0 cad); (B "Assets:Loan", mkAmount 200 cad)],
  Some [(B "Assets", [B "Assets"; B "7.00 CAD"], 700); (B "Assets:Bank", [B "Bank"; B "5.00 CAD"; B "5.00 CAD"], 500); (B "Assets:Loan", [B "Loan"; B "2.00 CAD"], 200)]).
Proof. vm_compute. reflexivity. Qed.
(** With the same depth the table shows one level more than the chart. *)
Theorem C131_same_depth_refuted : exists pg rows boxes, good_page pg /\ all_balances london_utc (fun _ _ _ _ => Fail) pg false 20000 20 20 (B "Assets") = Ok rows /\
  chart pg (fun _ _ _ => Fail) (B "Assets") false 1 rows = Ok boxes /\ map bx_acc boxes = [B "Assets"] /\ map r_acc (table_rows pg (B "Assets") 1 rows) = [B "Assets"; B "Assets:Bank"; B "Assets:Loan"].
Proof.
  exists (tm_page 500 200). eexists. eexists. split; [apply tm_good|]. split; [vm_compute; reflexivity|]. split; [vm_compute; reflexivity|]. split; vm_compute; reflexivity.
Qed.
(** An account with a total of zero, and one as large as another with a larger total. *)
Theorem C131_area_refuted : exists pg rows boxes, good_page pg /\ all_balances london_utc (fun _ _ _ _ => Fail) pg false 20000 20 20 (B "Assets") = Ok rows /\
  chart pg (fun _ _ _ => Fail) (B "Assets") false 1 rows = Ok boxes /\ map bx_acc boxes = [B "Assets"] /\ map bx_value boxes = [500] /\
  exists r, In r rows /\ r_acc r = B "Assets" /\ r_total r = mkAmount 0 cad.
Proof.
  exists (tm_page 500 (-500)). eexists. eexists. split; [apply tm_good|]. split; [vm_compute; reflexivity|]. split; [vm_compute; reflexivity|]. split; [vm_compute; reflexivity|]. split; [vm_compute; reflexivity|].
  eexists. split; [left; reflexivity|]. split; reflexivity.
Qed.
(** A negative depth: an empty table, but a chart of all levels except the last. *)
Theorem C131_negative_depth_refuted : exists pg rows boxes, good_page pg /\ all_balances london_utc (fun _ _ _ _ => Fail) pg false 20000 20 20 (B "Assets") = Ok rows /\
  chart pg (fun _ _ _ => Fail) (B "Assets") false (-1) rows = Ok boxes /\ table_rows pg (B "Assets") (-1) rows = [] /\ map bx_acc boxes = [B "Assets"; B "Assets:Bank"; B "Assets:Loan"].
Proof.
  exists (tm_page 500 200). eexists. eexists. split; [apply tm_good|]. split; [vm_compute; reflexivity|]. split; [vm_compute; reflexivity|]. split; vm_compute; reflexivity.
Qed.
(** the hypotheses of the theorems are met *)
Example C131_hypotheses : exists rows pa, good_page (tm_page 500 200) /\ (depth_of_page (tm_page 500 200) <= 20)%nat /\ find_account (pg_accounts (tm_page 500 200)) (B "Assets") = Some pa /\
  all_balances london_utc (fun _ _ _ _ => Fail) (tm_page 500 200) false 20000 20 20 (B "Assets") = Ok rows /\
  (forall a, under (tm_page 500 200) (B "Assets") a -> a_com (page_balance london_utc (tm_page 500 200) 20000 a) = pa_com pa) /\ small (map (fun r => a_int (page_balance london_utc (tm_page 500 200) 20000 (r_acc r))) rows) /\
  (forall r, In r rows -> 0 <= a_int (page_balance london_utc (tm_page 500 200) 20000 (r_acc r))).
Proof.
  eexists. eexists. split; [apply tm_good|]. split; [vm_compute; lia|]. split; [vm_compute; reflexivity|]. split; [vm_compute; reflexivity|].
  split; [|split; [unfold small; vm_compute; discriminate|]].
  - assert (U : forall a, under (tm_page 500 200) (B "Assets") a -> In a [B "Assets"; B "Assets:Bank"; B "Assets:Loan"; B "Assets:Bank:Cash"]).
    { intros a H. induction H as [|b c _ IH I]; [left; reflexivity|]. destruct IH as [<-|[<-|[<-|[<-|[]]]]]; vm_compute in I; [destruct I as [<-|[<-|[]]]|destruct I as [<-|[]]|destruct I|destruct I]; vm_compute; tauto. }
    intros a H. apply U in H. destruct H as [<-|[<-|[<-|[<-|[]]]]]; vm_compute; reflexivity.
  - intros r [<-|[<-|[<-|[<-|[]]]]]; vm_compute; discriminate.
Qed.
(** and those of C106_balances_table *)
Example C106_table_hypotheses : names_tree (tm_page 500 200) 16 /\ forall b, beneath (pg_children (tm_page 500 200)) (B "Assets") b -> a_com (page_balance london_utc (tm_page 500 200) 20000 b) = cad.
Proof.
  split; [split|].
  - intros a b I. pose proof (children_short _ a b (proj1 (tm_good 500 200)) I) as H. assert (D : depth_of_page (tm_page 500 200) = 17%nat) by (vm_compute; reflexivity). lia.
  - apply (tree_longer _ (tm_good 500 200)).
  - destruct C131_hypotheses as (rows & pa & _ & _ & F & _ & H & _). intros b Hb. rewrite (H b Hb). vm_compute in F. injection F as <-. reflexivity.
Qed.
