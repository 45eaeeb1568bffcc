(** C103: the page has the books that were exported. *)
From Coq Require Import Permutation Sorted.
From Verif Require Import Base M_Amount M_Date M_Parser M_Names M_Tags M_Ledger S_Books L_Sort L_Names L_Dec L_Resolve L_Resolve2 L_Load L_Check Properties_Ledger Properties_Tree M_Json M_Web M_Page S_Page L_Page.
Local Open Scope Z_scope.

(** Every account but Root, in order of the names, with its parent, children, commodity and closing date; every transaction in the order of
    the ledger; the register of every account has exactly the postings made to it, in that order, with the exact quantities and balances. *)
Theorem C103_page_has_the_books_partial : forall about coms T info accounts L location xs,
  coms_ok coms -> accounts_ok coms T info accounts -> xs <> [] -> Forall (tx_ok coms accounts L) xs ->
  exists e pg, export_page about coms T info accounts L location xs = Ok e /\ load_page e = Ok pg /\
    Forall2 (shows_account T info) (filter (fun a => negb (eqb_bytes a (B "Root"))) (sort_strings accounts)) (pg_accounts pg) /\
    (forall a, In a (pg_roots pg) <-> In a accounts /\ t_parent T a = Some (B "Root")) /\ NoDup (pg_roots pg) /\
    (forall p a, In a (pg_children pg p) <-> p <> B "Root" /\ In a accounts /\ t_parent T a = Some p) /\ (forall p, NoDup (pg_children pg p)) /\
    Forall2 (shows_tx L) xs (pg_txs pg) /\
    (forall a, Forall2 (shows L) (made_to L a xs) (pg_register pg a)).
Proof.
  intros about coms T info accounts L location xs Hc Ha NE F.
  destruct (loaded_commodities about coms (proj1 Hc)) as (pcoms & E1 & F1).
  destruct (load_accounts_all coms T info accounts Ha pcoms F1) as (ch & E2 & F2).
  set (pg1 := with_accounts T info pcoms (sort_strings accounts) ch) in E2.
  assert (A1 : forall a, In a accounts -> a <> B "Root" -> exists pa, find_account (pg_accounts pg1) a = Some pa /\ pa_full pa = a).
  { intros a I N. exists (acct T info a). split; [|reflexivity]. cbn [pg1 with_accounts pg_accounts]. rewrite find_acct.
    replace (existsb (eqb_bytes a) (filter proper (sort_strings accounts))) with true; [reflexivity|]. symmetry. apply proper_in. split; [eapply Permutation_in; [apply sort_strings_perm|exact I]|].
    unfold proper. destruct (eqb_bytes a (B "Root")) eqn:E; [apply eqb_bytes_eq in E; contradiction|reflexivity]. }
  destruct (txs_step coms accounts L location Hc pg1 F1 A1 xs F (fun _ => []) []) as (vs & r & E3 & Lv & E4 & F4).
  exists (mkExport (data_text (commodities_json about coms)) (data_text (accounts_json T info accounts)) (data_text (slice_json vs))).
  exists (at_page pg1 r (shown_txs L location 0 xs)).
  split; [unfold export_page; rewrite E3; reflexivity|]. split.
  { unfold load_page. cbn [ex_commodities ex_accounts ex_transactions]. rewrite E1. cbn [bind]. rewrite E2. cbn [bind]. unfold load_txs. rewrite data_parse.
    replace (slice_json vs) with (JArr vs) by (destruct vs; [destruct xs; [congruence|discriminate]|reflexivity]). cbn [values bind]. exact E4. }
  assert (S : forall a, In a (sort_strings accounts) <-> In a accounts) by (intros a; split; apply Permutation_in; [symmetry|]; apply sort_strings_perm).
  assert (PP : forall a p, In a accounts -> a <> B "Root" -> t_parent T a = Some p -> page_parent T a = if eqb_bytes p (B "Root") then None else Some p) by (intros a p _ _ E; unfold page_parent; rewrite E; reflexivity).
  destruct Ha as (N & R & R0 & P & Q & C).
  split; [|split; [|split; [|split; [|split; [|split]]]]].
  - cbn [at_page pg_accounts pg1 with_accounts]. assert (X : forall l, (forall a, In a l -> In a accounts) -> Forall2 (shows_account T info) l (map (acct T info) l)).
    { induction l as [|a l IH]; intros H; constructor; [apply acct_shows with accounts; apply H; left; reflexivity|apply IH; intros; apply H; right; assumption]. }
    apply X. intros a I. apply filter_In in I as [I _]. apply S, I.
  - intros a. cbn [at_page pg_roots pg1 with_accounts]. rewrite filter_In, S. unfold top, proper. rewrite andb_true_iff, negb_true_iff. split.
    + intros (I & N1 & N2). split; [exact I|]. assert (Na : a <> B "Root") by (intros ->; discriminate). destruct (P a I Na) as (p & Ep & _). unfold page_parent in N2. rewrite Ep in *. destruct (eqb_bytes p (B "Root")) eqn:E; [apply eqb_bytes_eq in E; congruence|discriminate].
    + intros (I & E). split; [exact I|]. split; [|unfold page_parent; rewrite E; reflexivity]. destruct (eqb_bytes a (B "Root")) eqn:X; [|reflexivity]. apply eqb_bytes_eq in X. subst a.
      congruence.
  - apply NoDup_filter. eapply Permutation_NoDup; [apply sort_strings_perm|exact N].
  - intros p a. cbn [at_page pg_children pg1 with_accounts]. rewrite F2, filter_In, S. unfold child_of, proper. rewrite andb_true_iff, negb_true_iff. split.
    + intros (I & N1 & N2). assert (Na : a <> B "Root") by (intros ->; discriminate). destruct (P a I Na) as (q & Eq & _). unfold page_parent in N2. rewrite Eq in *. destruct (eqb_bytes q (B "Root")) eqn:E; [discriminate|].
      apply eqb_bytes_eq in N2. subst q. repeat split; auto. intros ->. discriminate.
    + intros (N1 & I & E). assert (N2 : a <> B "Root") by (intros ->; congruence). split; [exact I|]. split; [destruct (eqb_bytes a (B "Root")) eqn:X; [apply eqb_bytes_eq in X; contradiction|reflexivity]|]. unfold page_parent. rewrite E.
      destruct (eqb_bytes p (B "Root")) eqn:X; [apply eqb_bytes_eq in X; contradiction|]. apply eqb_bytes_refl.
  - intros p. cbn [at_page pg_children pg1 with_accounts]. rewrite F2. apply NoDup_filter. eapply Permutation_NoDup; [apply sort_strings_perm|exact N].
  - cbn [at_page pg_txs]. apply shown_txs_shows with coms accounts. exact F.
  - intros a. cbn [at_page pg_register]. rewrite F4. unfold add_posts. cbn [app List.length]. apply shown_filter with coms accounts. exact F.
Qed.
Print Assumptions C103_page_has_the_books_partial.

Lemma filter_perm {A} (f : A -> bool) l l' : Permutation l l' -> Permutation (filter f l) (filter f l').
Proof.
  induction 1 as [|x l l' P IH|x y l|l l' l'' P1 IH1 P2 IH2]; cbn [filter]; [constructor|destruct (f x); [constructor|]; assumption| |etransitivity; eassumption].
  destruct (f x), (f y); try reflexivity. apply perm_swap.
Qed.
(** From the files: a ledger that loads and checks, with the names resolved to accounts other than Root. *)
Theorem C103_loaded_ledger_partial : forall about coms T info accounts find comm conv ts L ws xs location,
  coms_ok coms -> accounts_ok coms T info accounts ->
  load_transactions find comm conv accounts true empty_ledger ts = Ok (L, ws, xs) ->
  (forall n a, find n = Ok a -> In a accounts /\ a <> B "Root") ->
  ts <> [] -> Forall (fun t => plain_year (t_posted t) /\ t_postings t <> []) ts ->
  (forall p q, In p (flat_map x_posts xs) -> rp_qty (heap L p) = Some q \/ rp_bal (heap L p) = Some q -> exportable coms q) ->
  exists e pg, export_page about coms T info accounts L location xs = Ok e /\ load_page e = Ok pg /\
    Forall2 (shows_tx L) xs (pg_txs pg) /\
    (forall a, Forall2 (shows L) (made_to L a xs) (pg_register pg a)) /\
    (forall a, In a accounts -> Permutation (reg L a) (made_to L a xs)).
Proof.
  intros about coms T info accounts find comm conv ts L ws xs location Hc Ha Hl Hf Ne Ht Hx.
  assert (Na : NoDup accounts) by apply Ha.
  destruct (load_inv _ _ _ _ _ _ _ _ _ _ empty_ok Na Hl) as (_ & xs0 & n & _ & Es & Ef & _ & R & D & _ & K & _).
  pose proof (stable_sort_perm (tx_less L) xs0) as P. rewrite <- Es in P.
  destruct (load_checked _ _ _ _ _ _ _ _ Na Hl) as [CH _].
  assert (PM : forall a, Permutation (reg L a) (made_to L a xs)).
  { intros a. etransitivity; [symmetry; eapply dated_perm, D|]. cbn [reg empty_ledger app]. unfold made_to. apply filter_perm, Permutation_flat_map, P. }
  assert (TX : Forall (tx_ok coms accounts L) xs).
  { apply Forall_forall. intros x Ix. assert (Ix0 : In x xs0) by (eapply Permutation_in; [symmetry; exact P|exact Ix]).
    assert (G : exists t, In t ts /\ resolved find comm conv L t x).
    { clear - R Ix0. induction R as [|t y ts ys H R IH]; [destruct Ix0|]. destruct Ix0 as [->|I]; [exists t; split; [left; reflexivity|exact H]|]. destruct (IH I) as (t' & I' & H'). exists t'. split; [right; exact I'|exact H']. }
    destruct G as (t & It & (E1 & _ & _ & _ & F & _)). rewrite Forall_forall in Ht. destruct (Ht t It) as [T1 T2].
    split; [rewrite E1; exact T1|]. split.
    - intros E. rewrite E in F. inversion F; subst. congruence.
    - intros p Ip. assert (Ip2 : In p (flat_map x_posts xs)) by (apply in_flat_map; exists x; auto).
      assert (Rp : exists s, resolves find L (t_posted t) s p).
      { clear - F Ip. induction F as [|s q l1 l2 H F IH]; [destruct Ip|]. destruct Ip as [->|I]; eauto. }
      destruct Rp as (s & R1 & R2 & R3 & R4 & (q & R5 & _) & _). split; [congruence|]. destruct (Hf _ _ R3) as [A1 A2].
      split; [exact A1|]. split; [exact A2|]. split; [exists q; split; [exact R5|apply (Hx p); auto]|].
      assert (Ir : In p (reg L (rp_acc (heap L p)))).
      { eapply Permutation_in; [symmetry; apply PM|]. unfold made_to. apply filter_In. split; [exact Ip2|apply eqb_bytes_refl]. }
      apply in_split in Ir as (l1 & l2 & El). destruct (CH _ A1) as [_ CH2]. destruct (CH2 l1 p l2 El) as (b & _ & B1 & B2).
      destruct (rp_asserted (heap L p)).
      + destruct (B2 eq_refl) as (b' & e & B3 & _). exists b'. split; [exact B3|]. apply (Hx p); auto.
      + destruct (B1 eq_refl) as [B3 _]. exists b. split; [exact B3|]. apply (Hx p); auto. }
  assert (Nx : xs <> []) by (intros ->; apply Permutation_sym, Permutation_nil in P; subst xs0; inversion R; subst; congruence).
  destruct (C103_page_has_the_books_partial about coms T info accounts L location xs Hc Ha Nx TX) as (e & pg & X1 & X2 & _ & _ & _ & _ & _ & X3 & X4).
  exists e, pg. split; [exact X1|]. split; [exact X2|]. split; [exact X3|]. split; [exact X4|]. intros a _. apply PM.
Qed.
Print Assumptions C103_loaded_ledger_partial.

(** ** a case *)
Definition pg_tree : tree := mkTree (fun a => if eqb_bytes a (B "A:C") then Some (B "A") else if eqb_bytes a (B "Root") then None else Some (B "Root")) (fun _ => []).
Definition pg_info (a : bytes) : account_info := mkInfo cad [] (if eqb_bytes a (B "A:C") then Some (go_date 2024 2 29) else None) [].
Definition pg_names := [B "Root"; B "A"; B "B"; B "A:C"].
Definition pg_ts : list transaction :=
  [mkTransaction (go_date 2024 3 1) (B "7") (B "pay </script>") [B "t:1"] [ps "A:C" (Some 700) (Some 700); ps "B" None None] 1;
   mkTransaction (go_date 2024 2 28) [] (B "x") [] [ps "A" (Some (-5)) None; ps "B" (Some 5) None] 4].
Definition pg_load := load_transactions ex_find ex_comm ex_conv pg_names true empty_ledger pg_ts.
Definition pg_loaded : res page := match pg_load with Ok (L, _, xs) => do e <- export_page (fun _ => ([], B "dollar", [])) [usd; cad] pg_tree pg_info pg_names L (fun _ => B "f:1") xs; load_page e | _ => Fail end.
Lemma pg_loaded_value : match pg_loaded with
  | Ok pg => map pa_full (pg_accounts pg) = [B "A"; B "A:C"; B "B"] /\ pg_roots pg = [B "A"; B "B"] /\ pg_children pg (B "A") = [B "A:C"] /\
             map (fun p => (pp_date p, pp_qty p, pp_bal p)) (pg_register pg (B "B")) =
               [(go_date 2024 2 28, mkAmount 5 (mkCommodity 0 (B "CAD") 2), mkAmount 5 (mkCommodity 0 (B "CAD") 2));
                (go_date 2024 3 1, mkAmount (-700) (mkCommodity 0 (B "CAD") 2), mkAmount (-695) (mkCommodity 0 (B "CAD") 2))] /\
             map pt_desc (pg_txs pg) = [B "x"; B "pay </script>"]
  | _ => False end.
Proof. vm_compute. repeat split. Qed.
(** its hypotheses hold *)
Lemma pg_coms_ok : coms_ok [usd; cad].
Proof. split; [repeat constructor; cbn; intuition discriminate|]. intros c x [<-|[<-|[]]] H; cbn in H; intuition (subst; discriminate). Qed.
Lemma pg_accounts_ok : accounts_ok [usd; cad] pg_tree pg_info pg_names.
Proof.
  split; [repeat constructor; cbn; intuition discriminate|]. split; [left; reflexivity|]. split; [reflexivity|]. split; [|split].
  - intros n [<-|[<-|[<-|[<-|[]]]]] N; [congruence| | |].
    + exists (B "Root"). split; [reflexivity|]. split; [left; reflexivity|]. right. split; [reflexivity|]. left. cbn. intuition discriminate.
    + exists (B "Root"). split; [reflexivity|]. split; [left; reflexivity|]. right. split; [reflexivity|]. left. cbn. intuition discriminate.
    + exists (B "A"). split; [reflexivity|]. split; [right; left; reflexivity|]. left. exists (B "C"). split; [reflexivity|]. split; [cbn; intuition discriminate|discriminate].
  - intros n [<-|[<-|[<-|[<-|[]]]]] H; [reflexivity| | |]; apply leaf_name in H; vm_compute in H; discriminate.
  - intros n _. split; [right; left; reflexivity|]. intros d. unfold pg_info. cbn [in_closed]. destruct (eqb_bytes n (B "A:C")); [|discriminate]. intros E. injection E as <-. vm_compute. split; discriminate.
Qed.

(** ** what is false without the hypotheses *)
(** no transactions: they are exported as null and the page stops with a TypeError *)
Theorem C103_no_transactions_refuted : exists about coms T info accounts L location e,
  coms_ok coms /\ accounts_ok coms T info accounts /\ export_page about coms T info accounts L location [] = Ok e /\ load_page e = Panic.
Proof.
  exists (fun _ => ([], [], [])), [usd; cad], pg_tree, pg_info, pg_names, empty_ledger, (fun _ => []). eexists.
  split; [exact pg_coms_ok|]. split; [exact pg_accounts_ok|]. split; [reflexivity|]. vm_compute. reflexivity.
Qed.
(** a transaction without postings: "postings" is null and the page stops with a TypeError *)
Definition pg_empty_ts := [mkTransaction (go_date 2024 3 1) [] (B "x") [] [] 1].
Theorem C103_no_postings_refuted : exists ts, ts <> [] /\ forall about location, exists L ws xs e,
  load_transactions ex_find ex_comm ex_conv pg_names true empty_ledger ts = Ok (L, ws, xs) /\
  export_page about [usd; cad] pg_tree pg_info pg_names L location xs = Ok e /\ load_page e = Panic.
Proof.
  exists pg_empty_ts. split; [discriminate|]. intros about location.
  assert (H : exists L ws xs, load_transactions ex_find ex_comm ex_conv pg_names true empty_ledger pg_empty_ts = Ok (L, ws, xs) /\ xs = [mkTx (go_date 2024 3 1) [] (B "x") [] [] 1]).
  { eexists _, _, _. split; [cbn; reflexivity|reflexivity]. }
  destruct H as (L & ws & xs & E & ->). exists L, ws, [mkTx (go_date 2024 3 1) [] (B "x") [] [] 1].
  eexists. split; [exact E|]. split; [reflexivity|].
  destruct (loaded_commodities about [usd; cad] (proj1 pg_coms_ok)) as (pcoms & E1 & F1).
  destruct (load_accounts_all [usd; cad] pg_tree pg_info pg_names pg_accounts_ok pcoms F1) as (ch & E2 & F2).
  unfold load_page. cbn [ex_commodities ex_accounts ex_transactions]. rewrite E1. cbn [bind]. rewrite E2. cbn [bind]. unfold load_txs. rewrite data_parse.
  cbn [entry x_code x_desc x_notes x_posts x_posted slice_json values bind load_each]. unfold load_tx, need_text, text_field, texts_field, field.
  set (w := format_date (go_date 2024 3 1)). assert (Hw : js_date w = Ok (go_date 2024 3 1)) by (vm_compute; reflexivity). clearbody w.
  change (match parse_tags [] with [] => [] | t => [(B "tags", tags_json t)] end) with (@nil (bytes * json)).
  destruct (location (mkTx (go_date 2024 3 1) [] (B "x") [] [] 1)); cbn [entry]; jg; cbn [bind]; jg; rewrite Hw; cbn [bind]; jg; reflexivity.
Qed.
(** an account whose last segment is "Root" is left out by the page: its postings stop the page *)
Definition root_names := [B "Root"; B "E"; B "E:Root"; B "B"].
Definition root_tree : tree := mkTree (fun a => if eqb_bytes a (B "E:Root") then Some (B "E") else if eqb_bytes a (B "Root") then None else Some (B "Root")) (fun _ => []).
Definition root_ts := [mkTransaction (go_date 2024 3 1) [] (B "x") [] [ps "E:Root" (Some 700) None; ps "B" None None] 1].
Definition root_result := match load_transactions ex_find ex_comm ex_conv root_names true empty_ledger root_ts with
  Ok (L, _, xs) => do e <- export_page (fun _ => ([], [], [])) [usd; cad] root_tree pg_info root_names L (fun _ => []) xs; Ok (load_page e) | _ => Fail end.
Theorem C103_account_called_root_refuted : exists L ws xs e,
  load_transactions ex_find ex_comm ex_conv root_names true empty_ledger root_ts = Ok (L, ws, xs) /\
  export_page (fun _ => ([], [], [])) [usd; cad] root_tree pg_info root_names L (fun _ => []) xs = Ok e /\ load_page e = Fail.
Proof.
  assert (H : root_result = Ok Fail) by (vm_compute; reflexivity). unfold root_result in H.
  destruct (load_transactions ex_find ex_comm ex_conv root_names true empty_ledger root_ts) as [[[L ws] xs]| |]; try discriminate.
  destruct (export_page _ _ _ _ _ L _ xs) as [e| |] eqn:E; cbn [bind] in H; try discriminate. injection H as H. exists L, ws, xs, e. auto.
Qed.
Print Assumptions C103_no_transactions_refuted.
Print Assumptions C103_no_postings_refuted.
Print Assumptions C103_account_called_root_refuted.
