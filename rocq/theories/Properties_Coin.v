(** C123: coin balance, from the files to the text. *)
From Coq Require Import Permutation Sorted.
From Verif Require Import Base M_Amount M_Convert M_Date M_Names M_Tags M_Parser M_Ledger M_Report M_Database M_Output M_Coin
  S_Decimal S_Amount S_Names S_Books S_Report S_Database S_Output S_Coin L_Dec L_Amount L_Tree L_Tree2 L_Balance L_Registers L_Resolve L_Load L_Database L_Database2 L_Output L_Output2 L_Entries L_Coin L_Coin2
  Properties_Names Properties_Ledger Properties_Tree Properties_Report Properties_Database Properties_Output.
Local Open Scope Z_scope.

(** for any files *)
Lemma balance_from : forall limit w files compile rexm fuel comm b es, load_from limit w files compile fuel comm b ->
  all_entries w [] files es ->
  forall tx_of, (forall x p, In x (b_txs b) -> In p (x_posts x) -> tx_of p = x) ->
  (forall t, In t (map snd (ev_txs es)) -> in_account_commodity (must_find_account compile (b_names b)) comm t) ->
  exists N, forall o fuel' arg account begin end_ tag payee level zero com, (N <= fuel')%nat ->
    match arg with None => account = B "Root" | Some a => must_find_account compile (b_names b) a = Ok account end ->
    let parent := t_parent (b_tree b) in
    (forall x, under parent account x -> comm x = com) ->
    let id := commodity_id (b_db b) in
    let own := posted_to (must_find_account compile (b_names b)) (wanted rexm begin end_ tag payee) (map snd (ev_txs es)) in
    exists below, (forall x, In x (b_names b) -> NoDup (below x) /\ forall y, In y (below x) <-> under parent x y) /\
    let total x := zsum (map own (below x)) in
    (* numbers that can be printed *)
    ((forall x, under parent account x -> printable (mkAmount (own x) com) /\ printable (mkAmount (total x) com)) ->
     exists shown lines, coin_balance fuel' compile rexm o comm b tx_of arg begin end_ tag payee level zero = Ok (table_text lines) /\
       Forall2 (listing_row com id own total) shown lines /\
       (* accounts naming their commodity by its id, not its symbol *)
       ((forall x, under parent account x -> id x = c_id com) -> aligned rune_count (map (firstn 2) lines)) /\
       NoDup shown /\
       (forall x, In x shown <-> under parent account x /\ (level = 0 \/ exists n, at_level parent x n /\ Z.of_nat n <= level) /\ (zero = true \/ total x <> 0)) /\
       (forall x y, In x shown -> In y shown -> under parent x y -> x <> y -> comes_before shown x y)).
Proof.
  intros limit w files compile rexm fuel comm b es Hload Hes tx_of Htx Hq.
  destruct (book_facts_from _ _ _ _ _ _ _ _ Hload Hes) as (o0 & xs & Ho & HT & _ & Hfind & Px & Rx & Nd & Hreg & Hin & names & known0 & o1 & o2 & Nn & Pk & Eall & P1 & P2 & Rf). clear Hload.
  assert (P1' : Permutation o1 (with_parents known0 (base_accounts names))) by (rewrite Eall; exact P1).
  assert (P2' : Permutation o2 (with_parents known0 (base_accounts names))) by (rewrite Eall; exact P2).
  destruct (C37_cumulative_totals _ known0 o1 o2 Nn Pk P1' P2') as (N2 & Z2). destruct (C120_balance_listing _ known0 o1 o2 Nn Pk P1' P2') as (N3 & Z3).
  exists (N2 + N3 + S (bound (b_names b)))%nat. intros o fuel' arg account begin end_ tag payee level zero com Hf Harg parent Hcom id own.
  assert (Iroot : In (B "Root") (b_names b)) by (apply HT).
  assert (Ha : In account (b_names b)) by (destruct arg; [eapply Hfind; exact Harg|subst; exact Iroot]).
  assert (Hun : forall x, under parent account x -> In x (b_names b)) by (intros x; apply (in_names _ _ _ x HT Ha)).
  assert (Hamt : forall a, Forall (fun q => a_com q = comm a) (balance_amounts rexm (b_ledger b) tx_of begin end_ tag payee a) /\
    zsum (map a_int (balance_amounts rexm (b_ledger b) tx_of begin end_ tag payee a)) = own a).
  { intros a. eapply balance_amounts_ok; [exact Rx| |exact Hq|apply (Hreg a)|apply (dated_perm _ _ _ (Hreg a))]. intros x p Ix. apply Htx. eapply Permutation_in; eassumption. }
  set (sel := balance_amounts rexm (b_ledger b) tx_of begin end_ tag payee) in *.
  set (below := with_children (S (bound (b_names b))) (t_children (b_tree b))).
  assert (Hb : forall x, In x (b_names b) -> NoDup (below x) /\ forall y, In y (below x) <-> under parent x y).
  { intros x Ix. split; [apply (reach_nodup _ _ HT)|]. intros y. apply (reach_under _ _ HT); [lia|exact Ix]. }
  exists below. split; [exact Hb|]. intros total Hp.
  destruct (Z2 fuel' (b_tree b) ltac:(lia) ltac:(rewrite Eall; apply Rf) (book_conv (b_prices b) o) comm sel account com) as (totals & cum & Er & Kr).
  { rewrite Eall. exact Ha. } { intros x U. split; [apply Hcom, U|]. rewrite <- (Hcom x U). apply Hamt. }
  assert (Kr' : forall x, under parent account x -> bget x totals = Some (mkAmount (own x) com) /\ bget x cum = Some (mkAmount (total x) com)).
  { intros x U. destruct (Kr x U) as [K1 (l & N & M & K2)]. split; [rewrite K1; f_equal; f_equal; apply Hamt|]. rewrite K2. f_equal. f_equal. unfold total.
    destruct (Hb x (Hun x U)) as [Nb Mb]. assert (Pl : Permutation l (below x)) by (apply NoDup_Permutation; [exact N|exact Nb|intros y; rewrite M, Mb; reflexivity]).
    rewrite <- (zsum_perm _ _ (Permutation_map own Pl)). clear -Hamt. induction l as [|y l IH]; [reflexivity|]. cbn [flat_map map]. rewrite map_app, zsum_app, IH, (proj2 (Hamt y)). reflexivity. }
  destruct (Z3 fuel' (b_tree b) ltac:(lia) ltac:(rewrite Eall; apply Rf) (book_conv (b_prices b) o) comm id sel account level zero totals cum) as (shown & lines & El & Fl & Al & Ns & Is & Os).
  { rewrite Eall. exact Ha. } { exact Er. }
  { intros x v Hv. assert (U : under parent account x) by (apply (reach_under _ _ HT fuel' ltac:(lia) account x Ha), (report_keys _ _ _ _ _ _ _ _ Er x v Hv)).
    destruct (Kr' x U) as [K1 K2]. destruct (Hp x U) as [Q1 Q2]. destruct Hv as [Hv|Hv]; [rewrite K1 in Hv|rewrite K2 in Hv]; injection Hv as <-; assumption. }
  exists shown, lines. split.
  { unfold coin_balance. assert (Ea : match arg with Some a => must_find_account compile (b_names b) a | None => Ok root end = Ok account) by (destruct arg; [exact Harg|subst; reflexivity]).
    rewrite Ea. cbn [bind]. exact El. }
  assert (Us : forall x, In x shown -> under parent account x) by (intros x I; apply Is, I).
  split.
  { clear -Fl Us Kr'. induction Fl as [|x l shown lines H Fl IH]; constructor; [|apply IH; intros y I; apply Us; right; exact I].
    destruct H as (ow & tot & t1 & t2 & c1 & c2 & c3 & B1 & B2 & S1 & S2 & R1 & R2 & L3 & ->). pose proof (Us x (or_introl eq_refl)) as U.
    destruct (Kr' x U) as [K1 K2]. rewrite K1 in B1. rewrite K2 in B2. injection B1 as <-. injection B2 as <-.
    exists t1, t2, c1, c2, c3. auto 10. }
  split; [intros Hid; apply Al; intros x U; rewrite (Hid x U), (Hcom x U); reflexivity|]. split; [exact Ns|]. split; [|exact Os].
  intros x. rewrite Is. split; intros (U & Lv & Z0); (split; [exact U|]); (split; [exact Lv|]); (destruct Z0 as [Z0|Z0]; [left; exact Z0|right]).
  - destruct Z0 as (v & Bv & Z0). rewrite (proj2 (Kr' x U)) in Bv. injection Bv as <-. exact Z0.
  - eexists. split; [apply (Kr' x U)|exact Z0].
Qed.
(** In books with several commodities, every written amount being in the commodity of its account, and an account with those
    below it in one commodity: the listing shows for every account the exact sum of what is posted to it, as written or left
    over in its transaction, and the sum for all accounts below it. *)
Theorem C126_balance : forall limit w DB compile rexm fuel comm b es, load_all limit w DB compile fuel comm b ->
  all_entries w [] (database_files w DB) es ->
  forall tx_of, (forall x p, In x (b_txs b) -> In p (x_posts x) -> tx_of p = x) ->
  (forall t, In t (map snd (ev_txs es)) -> in_account_commodity (must_find_account compile (b_names b)) comm t) ->
  exists N, forall o fuel' arg account begin end_ tag payee level zero com, (N <= fuel')%nat ->
    match arg with None => account = B "Root" | Some a => must_find_account compile (b_names b) a = Ok account end ->
    let parent := t_parent (b_tree b) in
    (forall x, under parent account x -> comm x = com) ->
    let id := commodity_id (b_db b) in
    let own := posted_to (must_find_account compile (b_names b)) (wanted rexm begin end_ tag payee) (map snd (ev_txs es)) in
    exists below, (forall x, In x (b_names b) -> NoDup (below x) /\ forall y, In y (below x) <-> under parent x y) /\
    let total x := zsum (map own (below x)) in
    (* numbers that can be printed *)
    ((forall x, under parent account x -> printable (mkAmount (own x) com) /\ printable (mkAmount (total x) com)) ->
     exists shown lines, coin_balance fuel' compile rexm o comm b tx_of arg begin end_ tag payee level zero = Ok (table_text lines) /\
       Forall2 (listing_row com id own total) shown lines /\
       (* accounts naming their commodity by its id, not its symbol *)
       ((forall x, under parent account x -> id x = c_id com) -> aligned rune_count (map (firstn 2) lines)) /\
       NoDup shown /\
       (forall x, In x shown <-> under parent account x /\ (level = 0 \/ exists n, at_level parent x n /\ Z.of_nat n <= level) /\ (zero = true \/ total x <> 0)) /\
       (forall x y, In x shown -> In y shown -> under parent x y -> x <> y -> comes_before shown x y)).
Proof. intros limit w DB compile rexm fuel comm b es H. exact (balance_from limit w (database_files w DB) compile rexm fuel comm b es (proj1 (load_all_from _ _ _ _ _ _ _) H)). Qed.
Print Assumptions C126_balance.

(** If the files define one commodity, this holds for all accounts. *)
Theorem C123_balance_from_files : forall limit w DB compile rexm fuel comm b es c, load_all limit w DB compile fuel comm b ->
  all_entries w [] (database_files w DB) es -> ev_comms es = [c] ->
  forall tx_of, (forall x p, In x (b_txs b) -> In p (x_posts x) -> tx_of p = x) ->
  exists N, forall o fuel' arg account begin end_ tag payee level zero, (N <= fuel')%nat ->
    match arg with None => account = B "Root" | Some a => must_find_account compile (b_names b) a = Ok account end ->
    let parent := t_parent (b_tree b) in
    let com := mkCommodity 0 (pc_id c) (pc_dec c) in
    let own := posted_to (must_find_account compile (b_names b)) (wanted rexm begin end_ tag payee) (map snd (ev_txs es)) in
    exists below, (forall x, In x (b_names b) -> NoDup (below x) /\ forall y, In y (below x) <-> under parent x y) /\
    let total x := zsum (map own (below x)) in
    (* numbers that can be printed *)
    ((forall x, under parent account x -> printable (mkAmount (own x) com) /\ printable (mkAmount (total x) com)) ->
     exists shown lines, coin_balance fuel' compile rexm o comm b tx_of arg begin end_ tag payee level zero = Ok (table_text lines) /\
       Forall2 (listing_row com (fun _ => pc_id c) own total) shown lines /\ aligned rune_count (map (firstn 2) lines) /\
       NoDup shown /\
       (forall x, In x shown <-> under parent account x /\ (level = 0 \/ exists n, at_level parent x n /\ Z.of_nat n <= level) /\ (zero = true \/ total x <> 0)) /\
       (forall x y, In x shown -> In y shown -> under parent x y -> x <> y -> comes_before shown x y)).
Proof.
  intros limit w DB compile rexm fuel comm b es c Hload Hes Hc tx_of Htx. destruct (one_facts _ _ _ _ _ _ _ _ _ Hload Hes Hc) as (Hcm & HT & Hfind & Hq).
  destruct (C126_balance _ _ _ _ rexm _ _ _ _ Hload Hes tx_of Htx Hq) as (N & H). exists N.
  intros o fuel' arg account begin end_ tag payee level zero Hf Harg parent com own.
  assert (Ha : In account (b_names b)) by (destruct arg; [eapply Hfind; exact Harg|subst; apply HT]).
  assert (Hu : forall x, under parent account x -> comm x = com /\ commodity_id (b_db b) x = pc_id c) by (intros x U; apply Hcm, (in_names _ _ _ x HT Ha U)).
  destruct (H o fuel' arg account begin end_ tag payee level zero com Hf Harg (fun x U => proj1 (Hu x U))) as (below & Hb & K). exists below. split; [exact Hb|]. intros total Hp.
  destruct (K Hp) as (shown & lines & E & F & Al & Ns & Is & Os). exists shown, lines. split; [exact E|]. split.
  { assert (Us : forall x, In x shown -> under parent account x) by (intros x I; apply Is, I). clear -F Us Hu. induction F as [|x l shown lines R F IH]; constructor; [|apply IH; intros y I; apply Us; right; exact I].
    destruct R as (t1 & t2 & c1 & c2 & c3 & S1 & S2 & R1 & R2 & L3 & E). exists t1, t2, c1, c2, c3. rewrite (proj2 (Hu x (Us x (or_introl eq_refl)))) in L3. auto 10. }
  split; [apply Al; intros x U; apply (Hu x U)|]. auto.
Qed.
Print Assumptions C123_balance_from_files.

(** The database of C77: two files of transactions, one included in the other. *)
Definition xcompile (p n : bytes) : bool := has_prefix p n.
Definition xo : map_order := fun _ _ m => m.
Definition xtree : tree := match resolve_accounts 5 (map fst (d_accounts xdb_db)) xorder xnames xnames with Ok (T, _) => T | _ => mkTree (fun _ => None) (fun _ => []) end.
Definition load_book (compile : bytes -> bytes -> bool) (comm : bytes -> commodity) (d : db) (T : tree) (names : list bytes) : book :=
  match (let '(L1, xs) := alloc_txs (mkLedger (fun _ => mkRP 0 [] [] None None false []) 0 (fun _ => []) (fun _ => None)) (map snd (d_txs d)) in
         resolve_transactions (must_find_account compile names) comm (book_conv [] xo) names true L1 xs) with
  | Ok (L, ws, xs) => mkBook d [] T names L ws xs
  | _ => mkBook d [] T names empty_ledger [] [] end.
Definition loads (compile : bytes -> bytes -> bool) (comm : bytes -> commodity) (d : db) (names : list bytes) : bool :=
  match (let '(L1, xs) := alloc_txs (mkLedger (fun _ => mkRP 0 [] [] None None false []) 0 (fun _ => []) (fun _ => None)) (map snd (d_txs d)) in
         resolve_transactions (must_find_account compile names) comm (book_conv [] xo) names true L1 xs) with Ok _ => true | _ => false end.
Lemma load_book_ok limit w DB compile comm d fuel T names known : load_files_all limit w DB = Some (Ok d) -> d_prices d = [] ->
  Permutation known (base_accounts (map fst (d_accounts d))) -> resolve_accounts fuel (map fst (d_accounts d)) known names names = Ok (T, names) ->
  commodities_known d names comm -> loads compile comm d names = true -> load_all limit w DB compile fuel comm (load_book compile comm d T names).
Proof.
  intros H1 H2 H3 H4 H5 H6. unfold loads in H6. unfold load_book.
  match goal with |- context [match ?r with Ok _ => _ | Fail => _ | Panic => _ end] => destruct r as [[[L ws] xs]| |] eqn:E; [|discriminate|discriminate] end.
  exists d. split; [exact H1|]. exists [], known, names, names, names, xo. cbn [b_prices b_names b_tree b_ledger b_warned b_txs b_db].
  split. { rewrite H2. exists []. split; [reflexivity|]. split; [constructor|]. split; constructor. }
  split; [exact H3|]. do 3 (split; [reflexivity|]). split; [exact H4|]. split; [exact H5|]. split; [intros ? ? ?; reflexivity|]. split; [exact E|reflexivity].
Qed.
Definition xbook : book := load_book xcompile xcomm xdb_db xtree xnames.
Definition tx_in (txs : list rtx) (p : nat) : rtx := match List.find (fun x => existsb (Nat.eqb p) (x_posts x)) txs with Some x => x | None => mkTx 0 [] [] [] [] 0 end.
Lemma tx_in_ok txs : forallb (fun x => forallb (fun p => eqb_bytes (x_desc (tx_in txs p)) (x_desc x) && existsb (Nat.eqb p) (flat_map x_posts txs)) (x_posts x)) txs = true ->
  NoDup (map x_desc txs) -> forall x p, In x txs -> In p (x_posts x) -> tx_in txs p = x.
Proof.
  intros H N x p Ix Ip. rewrite forallb_forall in H. specialize (H x Ix). rewrite forallb_forall in H. specialize (H p Ip). apply andb_true_iff in H as [H _]. apply eqb_bytes_iff in H.
  assert (Iy : In (tx_in txs p) txs).
  { unfold tx_in. destruct (List.find _ txs) as [y|] eqn:Ef; [apply List.find_some in Ef; apply Ef|]. exfalso. apply (List.find_none _ _ Ef) in Ix.
    assert (existsb (Nat.eqb p) (x_posts x) = true) by (apply existsb_exists; exists p; split; [exact Ip|apply Nat.eqb_refl]). congruence. }
  clear -N H Ix Iy. set (y := tx_in txs p) in *. clearbody y. induction txs as [|z l IH]; [destruct Ix|]. cbn [map] in N. inversion N as [|? ? N1 N2]; subst.
  destruct Ix as [<- |Ix], Iy as [<- |Iy]; [reflexivity| | |apply IH; assumption]; exfalso; apply N1; [rewrite <- H|rewrite H]; apply in_map; assumption.
Qed.
Definition xtx_of : nat -> rtx := tx_in (b_txs xbook).
Example C123_hypotheses : load_all 5 xdb [] xcompile 5 xcomm xbook /\ (exists es c, all_entries xdb [] (database_files xdb []) es /\ ev_comms es = [c]) /\
  (forall x p, In x (b_txs xbook) -> In p (x_posts x) -> xtx_of p = x).
Proof.
  split; [|split; [exact C78_example|]].
  - apply (load_book_ok 5 xdb [] xcompile xcomm xdb_db 5 xtree xnames xorder); [exact xdb_loaded|vm_compute; reflexivity|reflexivity| | |vm_compute; reflexivity].
    + destruct (ok_pair (resolve_accounts 5 (map fst (d_accounts xdb_db)) xorder xnames xnames) xnames) as [T ET]; [vm_compute; reflexivity|]. unfold xtree. rewrite ET. reflexivity.
    + intros n I. unfold xnames in I. repeat (destruct I as [<-|I]; [vm_compute; reflexivity|]). destruct I.
  - apply tx_in_ok; [vm_compute; reflexivity|]. replace (map x_desc (b_txs xbook)) with [B "early"; B "late"] by (vm_compute; reflexivity).
    constructor; [intros [H|[]]; discriminate|constructor; [intros []|constructor]].
Qed.
Definition xbalance := coin_balance 20 xcompile (fun p s => eqb_bytes p s) xo xcomm xbook xtx_of.
Example C123_example :
  xbalance None None None [] [] 0 false = Ok (table_text (map (map B) [[" 0.00"; "-3.50 CAD"; "Assets"]; ["-3.50"; "-3.50 CAD"; "Assets:Bank"]; [" 0.00"; " 3.50 CAD"; "Expenses"]; [" 3.50"; " 3.50 CAD"; "Expenses:Food"]]%string)) /\
  xbalance (Some (B "Expenses")) None None [] (B "late") 1 false = Ok (table_text (map (map B) [["0.00"; "2.50 CAD"; "Expenses"]]%string)).
Proof. split; vm_compute; reflexivity. Qed.
