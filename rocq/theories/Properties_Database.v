(** C54, C76-C79: reading a whole database. *)
From Coq Require Import Sorted Permutation.
From Verif Require Import Base M_Amount M_Regex M_Date M_Parser M_Writer M_Convert M_Names M_Ledger M_Database S_Amount S_Ledger S_Names S_Books S_Database
  L_Dec L_Sort L_Amount L_Registers L_Resolve L_Load L_Names L_RoundTrip L_Entries L_Local L_Database L_Database2 L_Tree L_Tree2
  Properties_Parser Properties_Names Properties_Ledger Properties_Tree.
Local Open Scope Z_scope.

(** a small world: files by name; a pattern matches the file of that name, "*.coin" what is listed *)
Definition small_world (files : list (bytes * bytes)) (star : list bytes) : world :=
  mkWorld (fun f => lookup f files) (fun p => p)
    (fun p => if eqb_bytes p (B "*.coin") then Ok star else match lookup p files with Some _ => Ok [p] | None => Ok [] end) (2020, 2, 29).

(** ** C54 include cycles *)
(** whatever loads has no cycle of includes, and chains of includes are shorter than the number of files that may be open *)
Theorem C54_cycles_partial : forall limit w d fn d', load_file limit w d fn = Some (Ok d') ->
  ~ cycle_from w fn /\ forall l, chain w fn l -> (List.length l < limit)%nat.
Proof. intros. split; [eapply load_acyclic; eassumption|]. intros l C. eapply load_chain; eassumption. Qed.
Print Assumptions C54_cycles_partial.
(** an include that matches its own file first is reported at once *)
Theorem C54_self_include : forall limit w d fn text path n dflt p files, w_file w fn = Some text ->
  next (db_env w d) (new_parser text) = Ok (Some (IInclude path n, dflt, p)) -> include_files w fn path = Ok (fn :: files) ->
  load_file (S limit) w d fn = Some Fail.
Proof.
  intros limit w d fn text path n dflt p files E1 E2 E3. cbn [load_file]. rewrite E1. cbn [load_entries]. rewrite E2, E3. cbn [load_included].
  rewrite eqb_bytes_refl. reflexivity.
Qed.
Print Assumptions C54_self_include.
Definition cyc : world := small_world [(B "a.coin", B "include b.coin"); (B "b.coin", B "include a.coin"); (B "c.coin", B "include c.coin"); (B "d.coin", B "2020/01/01 x")] [].
Example C54_self_example : load_file 3 cyc empty_db (B "c.coin") = Some Fail /\ exists d, load_file 3 cyc empty_db (B "d.coin") = Some (Ok d).
Proof. split; [vm_compute; reflexivity|]. eexists. vm_compute. reflexivity. Qed.
(** but a longer cycle is only ended by the limit of open files: without one, loading would not end *)
Lemma cyc_a d : next (db_env cyc d) (new_parser (B "include b.coin")) = Ok (Some (IInclude (B "b.coin") 1, d_default d, mkParser [] 2)).
Proof. vm_compute. reflexivity. Qed.
Lemma cyc_b d : next (db_env cyc d) (new_parser (B "include a.coin")) = Ok (Some (IInclude (B "a.coin") 1, d_default d, mkParser [] 2)).
Proof. vm_compute. reflexivity. Qed.
Theorem C54_cycle_found_refuted : exists w fn, cycle_from w fn /\ forall limit, load_file limit w empty_db fn = None.
Proof.
  exists cyc, (B "a.coin"). split.
  - exists [], (B "b.coin"), [B "a.coin"]. cbn [app chain].
    assert (Ia : includes cyc (B "a.coin") (B "b.coin")).
    { exists (B "include b.coin"), (B "b.coin"), [B "b.coin"]. split; [reflexivity|]. split; [econstructor; apply (cyc_a empty_db)|]. split; [vm_compute; reflexivity|left; reflexivity]. }
    assert (Ib : includes cyc (B "b.coin") (B "a.coin")).
    { exists (B "include a.coin"), (B "a.coin"), [B "a.coin"]. split; [reflexivity|]. split; [econstructor; apply (cyc_b empty_db)|]. split; [vm_compute; reflexivity|left; reflexivity]. }
    auto.
  - assert (H : forall limit d, load_file limit cyc d (B "a.coin") = None /\ load_file limit cyc d (B "b.coin") = None).
    { induction limit as [|k IH]; intros d; [split; reflexivity|]. destruct (IH d) as [H1 H2]. cbn [load_file].
      replace (w_file cyc (B "a.coin")) with (Some (B "include b.coin")) by reflexivity. replace (w_file cyc (B "b.coin")) with (Some (B "include a.coin")) by reflexivity.
      cbn [load_entries]. rewrite cyc_a, cyc_b.
      replace (include_files cyc (B "a.coin") (B "b.coin")) with (Ok [B "b.coin"]) by (vm_compute; reflexivity).
      replace (include_files cyc (B "b.coin") (B "a.coin")) with (Ok [B "a.coin"]) by (vm_compute; reflexivity).
      cbn [load_included]. replace (eqb_bytes (B "b.coin") (B "a.coin")) with false by reflexivity. replace (eqb_bytes (B "a.coin") (B "b.coin")) with false by reflexivity.
      rewrite H1, H2. split; reflexivity. }
    intros limit. apply H.
Qed.
Print Assumptions C54_cycle_found_refuted.

(** ** C76 includes are read in place *)
Theorem C76_in_place : forall limit w files d', load_list limit w files empty_db = Some (Ok d') ->
  exists es, all_entries w [] files es /\ Forall named es /\ holds d' es.
Proof. intros limit w files d' H. apply (list_sound w limit files empty_db [] d' holds_empty H). Qed.
Print Assumptions C76_in_place.
(** and conversely: what can be read is loaded, if enough files may be open *)
Theorem C76_loads : forall w files es, all_entries w [] files es -> Forall named es ->
  exists limit0, forall limit, (limit0 <= limit)%nat -> exists d', load_list limit w files empty_db = Some (Ok d') /\ holds d' es.
Proof.
  intros w files es H N. destruct (load_complete w) as (_ & _ & K). destruct (K [] files es H N) as [k0 K0]. exists k0. intros k Hk.
  exact (proj2 (K0 k empty_db Hk holds_empty)).
Qed.
Print Assumptions C76_loads.
(** an include without leading slash is taken from the directory of its file; ".." leaves a directory *)
Theorem C76_include_path : forall w ps b n qs, Forall plain_part ps -> plain_part b -> Forall plain_part qs -> qs <> [] -> (n <= List.length ps)%nat ->
  (forall q r, qs = q :: r -> n = O -> hd_error q <> Some "$"%char) ->
  include_pattern w (join [slash] (ps ++ [b])) (join [slash] (repeat (B "..") n ++ qs)) = w_env w (join [slash] (firstn (List.length ps - n) ps ++ qs)).
Proof.
  intros w ps b n qs F Fb Fq Nq Hn Hd. rewrite <- join_dotdot with (b := b) by assumption. unfold include_pattern, up. f_equal.
  destruct (join [slash] (repeat (B "..") n ++ qs)) as [|c s] eqn:Ej; [reflexivity|].
  assert (H : eqc c slash = false /\ eqc c "$"%char = false).
  { destruct n as [|n].
    - cbn [repeat app] in Ej. destruct qs as [|q qs]; [congruence|]. inversion Fq as [|? ? F1 _]; subst. destruct q as [|c1 q]; [destruct F1; congruence|].
      assert (c = c1) by (destruct qs; cbn in Ej; congruence). subst c1. split.
      + destruct (eqc c slash) eqn:E; [|reflexivity]. apply Ascii.eqb_eq in E. subst. destruct F1 as (_ & _ & _ & F1). exfalso. apply F1. left. reflexivity.
      + destruct (eqc c "$"%char) eqn:E; [|reflexivity]. apply Ascii.eqb_eq in E. subst. exfalso. apply (Hd _ _ eq_refl eq_refl). reflexivity.
    - cbn [repeat app] in Ej. assert (c = "."%char) by (destruct (repeat (B "..") n ++ qs); cbn in Ej; congruence). subst c. split; reflexivity. }
  destruct H as [-> ->]. reflexivity.
Qed.
Print Assumptions C76_include_path.
(** the same for a file given from the root of the file system; there ".." stays at the root *)
Theorem C76_rooted_path : forall w ps b n qs, Forall plain_part ps -> plain_part b -> Forall plain_part qs -> qs <> [] ->
  (forall q r, qs = q :: r -> n = O -> hd_error q <> Some "$"%char) ->
  include_pattern w (slash :: join [slash] (ps ++ [b])) (join [slash] (repeat (B "..") n ++ qs)) = w_env w (slash :: join [slash] (firstn (List.length ps - n) ps ++ qs)).
Proof.
  intros w ps b n qs F Fb Fq Nq Hd. rewrite <- join_dotdot_root with (b := b) by assumption. unfold include_pattern, up. f_equal.
  destruct (join [slash] (repeat (B "..") n ++ qs)) as [|c s] eqn:Ej; [reflexivity|].
  assert (H : eqc c slash = false /\ eqc c "$"%char = false).
  { destruct n as [|n].
    - cbn [repeat app] in Ej. destruct qs as [|q qs]; [congruence|]. inversion Fq as [|? ? F1 _]; subst. destruct q as [|c1 q]; [destruct F1; congruence|].
      assert (c = c1) by (destruct qs; cbn in Ej; congruence). subst c1. split.
      + destruct (eqc c slash) eqn:E; [|reflexivity]. apply Ascii.eqb_eq in E. subst. destruct F1 as (_ & _ & _ & F1). exfalso. apply F1. left. reflexivity.
      + destruct (eqc c "$"%char) eqn:E; [|reflexivity]. apply Ascii.eqb_eq in E. subst. exfalso. apply (Hd _ _ eq_refl eq_refl). reflexivity.
    - cbn [repeat app] in Ej. assert (c = "."%char) by (destruct (repeat (B "..") n ++ qs); cbn in Ej; congruence). subst c. split; reflexivity. }
  destruct H as [-> ->]. reflexivity.
Qed.
Print Assumptions C76_rooted_path.
Example C76_rooted_example : include_pattern cyc (B "/home/me/main.coin") (B "../../../acc.coin") = B "/acc.coin" /\ include_pattern cyc (B "/home/me/main.coin") (B "../acc.coin") = B "/home/acc.coin".
Proof. vm_compute. auto. Qed.
Example C76_path_example : include_pattern cyc (B "db/2020/main.coin") (B "../common/acc.coin") = B "db/common/acc.coin" /\
  include_pattern cyc (B "main.coin") (B "sub/acc.coin") = B "sub/acc.coin" /\ include_pattern cyc (B "db/main.coin") (B "/acc.coin") = B "./acc.coin".
Proof. vm_compute. auto. Qed.
Definition inc : world := small_world
  [(B "m.coin", nls ["2020/01/01 one"; "  A  1.00 CAD"; "  B"; ""; "include s/i.coin"; "2020/01/03 three"]%string);
   (B "s/i.coin", nls ["2020/01/02 two"]%string); (B "c.coin", nls ["commodity CAD"; "  format 1.00 CAD"]%string)] [].
Example C76_example : match load_list 5 inc [B "c.coin"; B "m.coin"] empty_db with
  | Some (Ok d) => map (fun ft => (fst ft, t_desc (snd ft))) (d_txs d) = [(B "m.coin", B "one"); (B "s/i.coin", B "two"); (B "m.coin", B "three")] | _ => False end.
Proof. vm_compute. reflexivity. Qed.

(** ** C77 what a loaded database is *)
Lemma holds_names d es : holds d es -> NoDup (map fst (d_accounts d)) /\ forall n, In n (map fst (d_accounts d)) <-> In n (map pa_name (ev_accounts es)).
Proof.
  intros (_ & _ & _ & _ & H & _ & _ & N & _). split; [exact N|]. intros n.
  assert (A : In n (map fst (d_accounts d)) <-> lookup n (d_accounts d) <> None).
  { clear. induction (d_accounts d) as [|[k v] l IH]; cbn [map fst In lookup]; [intuition|]. destruct (eqb_bytes n k) eqn:E.
    - apply eqb_bytes_eq in E. subst. split; [discriminate|auto].
    - rewrite <- IH. split; [intros [->|I]; [rewrite eqb_bytes_refl in E; discriminate|exact I]|auto]. }
  rewrite A, H. unfold last_such. rewrite in_map_iff. split.
  - intros K. destruct (List.find _ (rev (ev_accounts es))) as [a|] eqn:E; [|congruence]. apply find_some in E as [I E]. apply eqb_bytes_eq in E. exists a. split; [auto|apply in_rev; exact I].
  - intros (a & <- & I) K. apply in_rev in I. pose proof (find_none _ _ K a I) as X. cbn beta in X. assert (Y : eqb_bytes (pa_name a) (pa_name a) = true) by apply eqb_bytes_refl. congruence.
Qed.
Lemma resolve_any f g names known o1 o2 T all : NoDup names -> Permutation known (base_accounts names) ->
  Permutation o1 all -> Permutation o2 all -> resolve_accounts f names known o1 o2 = Ok (T, all) ->
  all = with_parents known (base_accounts names) /\ resolve_accounts g names known o1 o2 = Ok (T, all).
Proof.
  intros Nn Pk P1 P2 H. assert (E : all = with_parents known (base_accounts names)).
  { unfold resolve_accounts in H. apply bind_ok in H as (T1 & _ & H). congruence. }
  split; [exact E|]. subst all. destruct (resolve_tree g names known o1 o2 Nn Pk P1 P2) as (T' & E' & _). rewrite E'.
  unfold resolve_accounts in H, E'. apply bind_ok in H as (T1 & E1 & H). apply bind_ok in E' as (T2 & E2 & E').
  rewrite (link_det _ _ _ _ _ _ _ E2 E1) in E'. congruence.
Qed.
(** the accounts: those declared, everything above them and the two built-in ones; each has a known commodity. The
    transactions are those of the files, read in place, every one completed and balanced, every posting in the register
    of the account its name stands for, and registers and transactions are in order. *)
Theorem C77_load_all : forall limit w DB compile fuel comm b, load_all limit w DB compile fuel comm b ->
  exists es, all_entries w [] (database_files w DB) es /\ Forall named es /\ holds (b_db b) es /\
  NoDup (b_names b) /\ (forall n, In n (b_names b) <-> needed (map pa_name (ev_accounts es)) n) /\
  (forall n, In n (b_names b) -> exists id, known es id = Some (comm n) /\
     (forall a, n <> B "Unbalanced" -> last_such (fun a => eqb_bytes n (pa_name a)) (ev_accounts es) = Some a -> pa_commodity a <> [] -> id = pa_commodity a)) /\
  exists o xs, order_ok o /\
    Forall2 (resolved (must_find_account compile (b_names b)) comm (book_conv (b_prices b) o) (b_ledger b)) (map snd (ev_txs es)) xs /\
    Permutation xs (b_txs b) /\ in_ledger_order (b_ledger b) (b_txs b) /\
    forall a, dated_version (dates (b_ledger b)) (made_to (b_ledger b) a xs) (reg (b_ledger b) a).
Proof.
  intros limit w DB compile fuel comm b (d & Hl & prices' & known0 & o1 & o2 & o3 & o & Rp & Pk & P1 & P2 & P3 & Ra & Ck & Ho & Rt & Eb).
  rewrite load_files_list in Hl. destruct (C76_in_place _ _ _ _ Hl) as (es & A1 & A2 & A3). exists es. split; [exact A1|]. split; [exact A2|]. rewrite Eb. split; [exact A3|].
  destruct (holds_names d es A3) as [Nn In_]. destruct (resolve_any _ fuel _ _ _ _ _ _ Nn Pk P1 P2 Ra) as [Eall _].
  assert (P1' : Permutation o1 (with_parents known0 (base_accounts (map fst (d_accounts d))))) by (rewrite <- Eall; exact P1).
  assert (P2' : Permutation o2 (with_parents known0 (base_accounts (map fst (d_accounts d))))) by (rewrite <- Eall; exact P2).
  destruct (C38_account_tree _ known0 o1 o2 Nn Pk P1' P2') as (T & reached & N & K). destruct (K N (le_n _)) as (_ & Na & Nd & _).
  rewrite <- Eall in Na, Nd. split; [exact Na|]. split.
  { intros n. rewrite Nd. unfold needed. rewrite In_. split; intros [?|[?|[?|(? & k & I & ?)]]]; auto; right; right; right; (split; [assumption|]); exists k; (split; [apply In_; exact I|assumption]). }
  split.
  { intros n I. specialize (Ck n I). destruct A3 as (_ & _ & _ & _ & Hacc & _ & Hk & _). exists (commodity_id d n). rewrite <- Hk. split; [exact Ck|].
    intros a Nu Ea Ne. unfold commodity_id, account_read. destruct (eqb_bytes n (B "Unbalanced")) eqn:Eu; [apply L_Dec.eqb_bytes_eq in Eu; contradiction|].
    rewrite Hacc, Ea. destruct (pa_commodity a); [congruence|reflexivity]. }
  exists o. assert (Na3 : NoDup o3) by (eapply Permutation_NoDup; [apply Permutation_sym, P3|exact Na]).
  assert (Hld : load_transactions (must_find_account compile (b_names b)) comm (book_conv (b_prices b) o) o3 true empty_ledger (map snd (ev_txs es)) = Ok (b_ledger b, b_warned b, b_txs b)).
  { unfold load_transactions. destruct A3 as (<- & _). exact Rt. }
  destruct (load_inv _ _ _ _ _ _ _ _ _ _ empty_ok Na3 Hld) as (_ & xs & n & _ & Es & _ & _ & R & D & _).
  exists xs. split; [exact Ho|]. split; [exact R|]. rewrite Es. split; [apply stable_sort_perm|]. split; [apply sorted_ledger_order|]. exact D.
Qed.
Print Assumptions C77_load_all.

(** the entries of a list of files are determined *)
Theorem C76_unique : forall w files es es', all_entries w [] files es -> all_entries w [] files es' -> es = es'.
Proof.
  intros w. assert (U : (forall before fn es, file_entries w before fn es -> forall es', file_entries w before fn es' -> es = es') /\
    (forall before fn p es, text_entries w before fn p es -> forall es', text_entries w before fn p es' -> es = es') /\
    (forall before files es, all_entries w before files es -> forall es', all_entries w before files es' -> es = es')).
  { apply entries_ind.
    - intros before fn text es E _ IH es' H. inversion H as [? ? text' ? E' H']; subst. assert (text' = text) by congruence. subst. apply IH, H'.
    - intros before fn p E es' H. inversion H; subst; congruence.
    - intros before fn p i dflt p' es E Ei _ IH es' H. inversion H as [|? ? ? i2 d2 p2 es2 E2 Ei2 H2|? ? ? path n d2 p2 files es1 es2 E2 Ef Nf H1 H2]; subst; [congruence| |].
      + rewrite E in E2. injection E2 as <- <- <-. f_equal. apply IH, H2.
      + rewrite E in E2. injection E2 as -> _ _. discriminate Ei.
    - intros before fn p path n dflt p' files es1 es2 E Ef Nf _ IH1 _ IH2 es' H. inversion H as [|? ? ? i2 d2 p2 es3 E2 Ei2 H2|? ? ? path2 n2 d2 p2 files2 es3 es4 E2 Ef2 Nf2 H1 H2]; subst; [congruence| |].
      + rewrite E in E2. injection E2 as <- _ _. discriminate Ei2.
      + rewrite E in E2. injection E2 as <- <- <- <-. assert (files2 = files) by congruence. subst files2. rewrite (IH1 _ H1) in *. rewrite (IH2 _ H2). reflexivity.
    - intros before es' H. inversion H. reflexivity.
    - intros before f files es1 es2 _ IH1 _ IH2 es' H. inversion H as [|? ? ? es3 es4 H1 H2]; subst. rewrite (IH1 _ H1) in *. rewrite (IH2 _ H2). reflexivity. }
  intros files es es' H. apply U, H.
Qed.
Print Assumptions C76_unique.

(** ** C78 the books balance, from the files to the report *)
(** If the files of the database define one commodity, then the balance report shows zero for all accounts together,
    on whichever days. *)
Theorem C78_books_balance : forall limit w DB compile fuel comm b es c, load_all limit w DB compile fuel comm b ->
  all_entries w [] (database_files w DB) es -> ev_comms es = [c] ->
  exists N, forall o fuel' P, (N <= fuel')%nat ->
    exists totals cum z, balance_report fuel' (book_conv (b_prices b) o) comm (b_tree b) (on_days P (b_ledger b)) (B "Root") = Ok (totals, cum) /\
      bget (B "Root") cum = Some z /\ a_int z = 0 /\ c_id (a_com z) = pc_id c.
Proof.
  intros limit w DB compile fuel comm b es c (d & Hl & prices' & known0 & o1 & o2 & o3 & o0 & Rp & Pk & P1 & P2 & P3 & Ra & Ck & Ho & Rt & Eb) Hes Hc.
  rewrite load_files_list in Hl. destruct (C76_in_place _ _ _ _ Hl) as (es' & A1 & A2 & A3). assert (es' = es) by (eapply C76_unique; eassumption). subst es'.
  destruct (holds_names d es A3) as [Nn In_].
  assert (Eall := proj1 (resolve_any _ fuel _ _ _ _ _ _ Nn Pk P1 P2 Ra)).
  assert (P1' : Permutation o1 (with_parents known0 (base_accounts (map fst (d_accounts d))))) by (rewrite <- Eall; exact P1).
  assert (P2' : Permutation o2 (with_parents known0 (base_accounts (map fst (d_accounts d))))) by (rewrite <- Eall; exact P2).
  destruct (C38_account_tree _ known0 o1 o2 Nn Pk P1' P2') as (T & reached & N1 & K). destruct (K N1 (le_n _)) as (_ & Na & _).
  rewrite <- Eall in Na.
  destruct (C37_root_is_zero _ known0 o1 o2 Nn Pk P1' P2') as (N & Z). exists N. intros o fuel' P Hf.
  destruct (resolve_any _ fuel' _ _ _ _ _ _ Nn Pk P1 P2 Ra) as [_ Rf].
  set (com := mkCommodity 0 (pc_id c) (pc_dec c)). rewrite Eall in Rf.
  assert (Na3 : NoDup o3) by (eapply Permutation_NoDup; [apply Permutation_sym, P3|exact Na]).
  assert (Hld : load_transactions (must_find_account compile (b_names b)) comm (book_conv (b_prices b) o0) o3 true empty_ledger (map snd (ev_txs es)) = Ok (b_ledger b, b_warned b, b_txs b)).
  { unfold load_transactions. destruct A3 as (<- & _). exact Rt. }
  destruct (Z fuel' (b_tree b) Hf Rf (must_find_account compile (b_names b)) comm (book_conv (b_prices b) o0) o3 true (map snd (ev_txs es)) (b_ledger b) (b_warned b) (b_txs b) com Na3) with (rconv := book_conv (b_prices b) o) (P := P)
    as (totals & cum & E1 & E2).
  - intros n a Hn. rewrite <- Eall. destruct (C32_account_pattern_partial compile (b_names b) n) as (_ & K2 & _). destruct (K2 a Hn) as [I _]. exact I.
  - intros a Ia. rewrite <- Eall in Ia. specialize (Ck a Ia). destruct A3 as (_ & _ & _ & _ & _ & _ & Hk & _). rewrite Hk in Ck.
    apply (known_prefix_one es [] c _ _) in Ck; [exact Ck|rewrite app_nil_r; exact Hc].
  - intros t s q It Is Eq. apply in_map_iff in It as ([f t'] & Et & It). cbn [snd] in Et. subst t'. unfold ev_txs in It. apply in_flat_map in It as (v & Iv & It).
    destruct (ev_item v) as [t0| | | | |] eqn:Ev; try contradiction. destruct It as [It|[]]. injection It as _ ->.
    apply in_split in Iv as (es1 & es2 & Ees). destruct (entries_known w) as (_ & _ & Kn). specialize (Kn [] _ es A1 es1 v es2 t Ees Ev). cbn [app] in Kn.
    rewrite Forall_forall in Kn. destruct (Kn s Is) as [Kq _]. destruct (Kq q Eq) as [id Hid]. eapply known_prefix_one; [|exact Hid]. rewrite <- Ees. exact Hc.
  - exact Hld.
  - exists totals, cum, (mkAmount 0 com). auto.
Qed.
Print Assumptions C78_books_balance.
(** an instance *)
Definition xdb : world := small_world
  [(B "commodities.coin", nls ["commodity CAD"; "  format 1.00 CAD"]%string);
   (B "accounts.coin", nls ["account Assets:Bank"; "  commodity CAD"; ""; "account Expenses:Food"]%string);
   (B "transactions.coin", nls ["2020/01/02 late"; "  Expenses:Food  2.50 CAD"; "  Assets:Bank"; ""; "include more.coin"]%string);
   (B "more.coin", nls ["2020/01/01 early"; "  Expenses:Food  1 CAD"; "  Assets:Bank"]%string)] [].
Definition xnames : list bytes := [B "Assets:Bank"; B "Expenses:Food"; B "Root"; B "Unbalanced"; B "Assets"; B "Expenses"].
Definition xcomm (n : bytes) : commodity := mkCommodity 0 (B "CAD") 2.
Definition xdb_db : db := match load_files_all 5 xdb [] with Some (Ok d) => d | _ => empty_db end.
Lemma xdb_loaded : load_files_all 5 xdb [] = Some (Ok xdb_db).
Proof. vm_compute. reflexivity. Qed.
Definition xorder : list bytes := base_accounts (map fst (d_accounts xdb_db)).
Lemma ok_pair {A C} (r : res (A * C)) c : match r with Ok (_, c') => c' = c | _ => False end -> exists a, r = Ok (a, c).
Proof. destruct r as [[a c']| |]; cbn; [intros ->; eauto|intros []|intros []]. Qed.
Lemma ok_pair3 {A C D} (r : res (A * C * D)) c (f : D -> nat) n : match r with Ok (_, c', d) => c' = c /\ f d = n | _ => False end -> exists a d, r = Ok (a, c, d) /\ f d = n.
Proof. destruct r as [[[a c'] d]| |]; cbn; [intros [-> H]; eauto|intros []|intros []]. Qed.
Example C77_example : exists b, load_all 5 xdb [] (fun p n => has_prefix p n) 5 xcomm b /\ b_names b = xnames /\ b_warned b = [] /\ List.length (b_txs b) = 2%nat.
Proof.
  destruct (ok_pair (resolve_accounts 5 (map fst (d_accounts xdb_db)) xorder xnames xnames) xnames) as [T ET]; [vm_compute; reflexivity|].
  set (o := (fun _ _ m => m) : map_order).
  destruct (ok_pair3 (let '(L1, xs) := alloc_txs (mkLedger (fun _ => mkRP 0 [] [] None None false []) 0 (fun _ => []) (fun _ => None)) (map snd (d_txs xdb_db)) in
     resolve_transactions (must_find_account (fun p n => has_prefix p n) xnames) xcomm (book_conv [] o) xnames true L1 xs) [] (@List.length rtx) 2%nat) as (L & xs & EL & Len);
    [vm_compute; split; reflexivity|].
  exists (mkBook xdb_db [] T xnames L [] xs). split; [|split; [reflexivity|split; [reflexivity|exact Len]]].
  exists xdb_db. split; [exact xdb_loaded|]. exists [], xorder, xnames, xnames, xnames, o. cbn [b_prices b_names b_tree b_ledger b_warned b_txs b_db].
  split. { exists []. split; [reflexivity|]. split; [constructor|]. split; constructor. }
  split; [reflexivity|]. do 3 (split; [reflexivity|]). split; [exact ET|]. split.
  { intros n I. unfold xnames in I. repeat (destruct I as [<-|I]; [vm_compute; reflexivity|]). destruct I. }
  split; [intros ? ? ?; reflexivity|]. split; [exact EL|reflexivity].
Qed.
Example C78_example : exists es c, all_entries xdb [] (database_files xdb []) es /\ ev_comms es = [c].
Proof.
  assert (H := xdb_loaded). rewrite load_files_list in H. destruct (C76_in_place _ _ _ _ H) as (es & A1 & _ & A3). exists es.
  destruct A3 as (_ & _ & _ & _ & _ & _ & _ & _ & _ & A3). replace (d_next xdb_db) with 1%nat in A3 by (vm_compute; reflexivity).
  destruct (ev_comms es) as [|c [|]]; try discriminate A3. exists c. auto.
Qed.

(** ** C79 which files are read *)
(** all names in the database directory share what is put before them *)
Lemma join_last ps : exists pre, forall n : bytes, join [slash] (ps ++ [n]) = pre ++ n.
Proof.
  induction ps as [|p ps [pre IH]]; [exists []; reflexivity|]. destruct ps as [|q ps].
  - exists (p ++ [slash]). intros n. cbn. rewrite <- app_assoc. reflexivity.
  - exists (p ++ [slash] ++ pre). intros n. change (join [slash] ((p :: q :: ps) ++ [n])) with (p ++ [slash] ++ join [slash] ((q :: ps) ++ [n])).
    rewrite IH, <- !app_assoc. reflexivity.
Qed.
Lemma in_dir_prefix DB : exists pre, forall n, plain_part n -> in_dir DB n = pre ++ n.
Proof.
  destruct DB as [|c0 DB0].
  - exists []. intros n Hn. cbn [in_dir app]. apply (clean_plain [n]); [discriminate|constructor; [exact Hn|constructor]].
  - set (DB := c0 :: DB0). assert (R : forall n, is_rooted (DB ++ slash :: n) = is_rooted DB) by reflexivity.
    destruct (join_last (clean_parts (is_rooted DB) [] (split_on slash DB))) as [pre H].
    assert (Hj : forall n, plain_part n -> clean_parts (is_rooted DB) [] (split_on slash (DB ++ slash :: n)) = clean_parts (is_rooted DB) [] (split_on slash DB) ++ [n]).
    { intros n Hn. rewrite L_Report.split_app, clean_parts_app. rewrite (L_Report.split_none slash n) by apply Hn.
      rewrite clean_parts_plain by (constructor; [exact Hn|constructor]). rewrite rev_involutive. reflexivity. }
    destruct (is_rooted DB) eqn:Er.
    + exists (slash :: pre). intros n Hn. unfold in_dir, DB. fold DB. unfold clean. rewrite R, Hj, H by exact Hn. reflexivity.
    + exists pre. intros n Hn. unfold in_dir, DB. fold DB. unfold clean. rewrite R, Hj by exact Hn.
      destruct (clean_parts false [] (split_on slash DB) ++ [n]) eqn:E; [apply app_eq_nil in E as [_ E]; discriminate|]. rewrite <- E, H. reflexivity.
Qed.
Definition ends_with (suffix s : bytes) : Prop := exists p, s = p ++ suffix.
(** what filepath.Glob finds in the database directory *)
Definition globs_ok (w : world) (DB : bytes) : Prop :=
  (NoDup (glob_files w (in_dir DB (B "*.coin"))) /\ Forall (ends_with (B ".coin")) (glob_files w (in_dir DB (B "*.coin")))) /\
  (NoDup (glob_files w (in_dir DB (B "*.prices"))) /\ Forall (ends_with (B ".prices")) (glob_files w (in_dir DB (B "*.prices")))).
Lemma not_both s : ends_with (B ".coin") s -> ends_with (B ".prices") s -> False.
Proof. intros [p ->] [q E]. apply (f_equal (@rev ascii)) in E. rewrite !rev_app_distr in E. discriminate. Qed.
(** no file is read twice, unless prices are in prices.coin and transactions are not in transactions.coin *)
Theorem C79_read_once_partial : forall w DB, globs_ok w DB ->
  (w_file w (in_dir DB (B "prices.coin")) = None \/ w_file w (in_dir DB (B "transactions.coin")) <> None) -> NoDup (database_files w DB).
Proof.
  intros w DB ((N1 & E1) & (N2 & E2)) H. destruct (in_dir_prefix DB) as [pre Hp].
  assert (Hc : in_dir DB (B "commodities.coin") = pre ++ B "commodities.coin") by (apply Hp; repeat split; try discriminate; intros I; repeat (destruct I as [I|I]; [discriminate|]); destruct I).
  assert (Ha : in_dir DB (B "accounts.coin") = pre ++ B "accounts.coin") by (apply Hp; repeat split; try discriminate; intros I; repeat (destruct I as [I|I]; [discriminate|]); destruct I).
  assert (Hq : in_dir DB (B "prices.coin") = pre ++ B "prices.coin") by (apply Hp; repeat split; try discriminate; intros I; repeat (destruct I as [I|I]; [discriminate|]); destruct I).
  assert (Ht : in_dir DB (B "transactions.coin") = pre ++ B "transactions.coin") by (apply Hp; repeat split; try discriminate; intros I; repeat (destruct I as [I|I]; [discriminate|]); destruct I).
  assert (D1 : in_dir DB (B "commodities.coin") <> in_dir DB (B "accounts.coin")) by (rewrite Hc, Ha; intros E; apply app_inv_head in E; discriminate).
  assert (D2 : in_dir DB (B "commodities.coin") <> in_dir DB (B "prices.coin")) by (rewrite Hc, Hq; intros E; apply app_inv_head in E; discriminate).
  assert (D3 : in_dir DB (B "commodities.coin") <> in_dir DB (B "transactions.coin")) by (rewrite Hc, Ht; intros E; apply app_inv_head in E; discriminate).
  assert (D4 : in_dir DB (B "accounts.coin") <> in_dir DB (B "prices.coin")) by (rewrite Ha, Hq; intros E; apply app_inv_head in E; discriminate).
  assert (D5 : in_dir DB (B "accounts.coin") <> in_dir DB (B "transactions.coin")) by (rewrite Ha, Ht; intros E; apply app_inv_head in E; discriminate).
  assert (D6 : in_dir DB (B "prices.coin") <> in_dir DB (B "transactions.coin")) by (rewrite Hq, Ht; intros E; apply app_inv_head in E; discriminate).
  assert (C1 : ends_with (B ".coin") (in_dir DB (B "commodities.coin"))) by (rewrite Hc; exists (pre ++ B "commodities"); rewrite <- app_assoc; reflexivity).
  assert (C2 : ends_with (B ".coin") (in_dir DB (B "accounts.coin"))) by (rewrite Ha; exists (pre ++ B "accounts"); rewrite <- app_assoc; reflexivity).
  assert (C3 : ends_with (B ".coin") (in_dir DB (B "transactions.coin"))) by (rewrite Ht; exists (pre ++ B "transactions"); rewrite <- app_assoc; reflexivity).
  unfold database_files. clear Hc Ha Hq Ht Hp.
  generalize dependent (glob_files w (in_dir DB (B "*.coin"))). generalize dependent (glob_files w (in_dir DB (B "*.prices"))). intros g2 N2 E2 g1 N1 E1.
  generalize dependent (in_dir DB (B "transactions.coin")). generalize dependent (in_dir DB (B "prices.coin")). generalize dependent (in_dir DB (B "accounts.coin")).
  generalize dependent (in_dir DB (B "commodities.coin")). intros c C1 a D1 C2 q D2 D4 t H D3 D5 D6 C3.
  rewrite Forall_forall in E1, E2.
  set (ps := if match w_file w q with Some _ => true | None => false end then [q] else g2).
  set (ts := if match w_file w t with Some _ => true | None => false end then [t] else filter (fun f => negb (eqb_bytes f c) && negb (eqb_bytes f a)) g1).
  assert (Tc : ~ In c ts /\ ~ In a ts).
  { unfold ts. destruct (w_file w t); [split; intros [I|[]]; congruence|]. split; intros I; apply filter_In in I as [_ I]; rewrite eqb_bytes_refl in I; [discriminate|rewrite andb_comm in I; discriminate]. }
  assert (Tn : NoDup ts) by (unfold ts; destruct (w_file w t); [constructor; [intros []|constructor]|apply NoDup_filter, N1]).
  assert (Pn : NoDup ps) by (unfold ps; destruct (w_file w q); [constructor; [intros []|constructor]|exact N2]).
  assert (Pc : ~ In c ps /\ ~ In a ps).
  { unfold ps. destruct (w_file w q); [split; intros [I|[]]; congruence|]. split; intros I; apply E2 in I; eapply not_both; [|exact I| |exact I]; assumption. }
  assert (Pt : forall x, In x ps -> In x ts -> False).
  { intros x I J. unfold ps in I. destruct (w_file w q) eqn:Eq.
    - destruct I as [<-|[]]. unfold ts in J. destruct (w_file w t) eqn:Et; [destruct J as [J|[]]; congruence|]. destruct H as [H|H]; congruence.
    - apply E2 in I. unfold ts in J. destruct (w_file w t); [destruct J as [<-|[]]; eapply not_both; eassumption|]. apply filter_In in J as [J _]. apply E1 in J. eapply not_both; eassumption. }
  assert (App : forall (l1 l2 : list bytes), NoDup l1 -> NoDup l2 -> (forall x, In x l1 -> In x l2 -> False) -> NoDup (l1 ++ l2)).
  { clear. induction l1 as [|x l1 IH]; intros l2 N1 N2 D; [exact N2|]. inversion N1; subst. cbn [app]. constructor.
    - rewrite in_app_iff. intros [I|I]; [auto|apply (D x); [left; reflexivity|exact I]].
    - apply IH; auto. intros y I1 I2. apply (D y); [right; exact I1|exact I2]. }
  cbn [app]. constructor; [rewrite in_app_iff; cbn [In]; intuition congruence|]. apply App; [exact Pn|constructor; [apply Tc|exact Tn]|].
  intros x I [<-|J]; [apply (proj2 Pc), I|eapply Pt; eassumption].
Qed.
Print Assumptions C79_read_once_partial.
(** otherwise the prices are read twice *)
Definition twice : world := small_world
  [(B "commodities.coin", nls ["commodity CAD"; "commodity USD"]%string); (B "accounts.coin", nls ["account A"]%string);
   (B "prices.coin", nls ["P 2020/01/01 USD 1.30 CAD"]%string); (B "2020.coin", nls ["2020/01/02 x"]%string)]
  [B "2020.coin"; B "accounts.coin"; B "commodities.coin"; B "prices.coin"].
Theorem C79_read_once_refuted : exists w DB d p, globs_ok w DB /\ load_files_all 5 w DB = Some (Ok d) /\ ~ NoDup (database_files w DB) /\ d_prices d = [p; p].
Proof.
  exists twice, [].
  assert (H : match load_files_all 5 twice [] with Some (Ok d) => match d_prices d with [p; q] => p = q | _ => False end | _ => False end) by (vm_compute; reflexivity).
  destruct (load_files_all 5 twice []) as [[d| |]|] eqn:E; try contradiction. exists d. destruct (d_prices d) as [|p [|q [|]]] eqn:Ed; try contradiction. subst q. exists p.
  split; [|split; [reflexivity|split; [|reflexivity]]].
  - split.
    + replace (glob_files twice (in_dir [] (B "*.coin"))) with [B "2020.coin"; B "accounts.coin"; B "commodities.coin"; B "prices.coin"] by (vm_compute; reflexivity). split.
      * repeat (constructor; [cbn [In]; intuition discriminate|]). constructor.
      * repeat (constructor; [match goal with |- ends_with _ ?s => exists (firstn (List.length s - 5) s); reflexivity end|]). constructor.
    + replace (glob_files twice (in_dir [] (B "*.prices"))) with (@nil bytes) by (vm_compute; reflexivity). split; constructor.
  - replace (database_files twice []) with [B "commodities.coin"; B "prices.coin"; B "accounts.coin"; B "2020.coin"; B "prices.coin"] by (vm_compute; reflexivity).
    intros N. inversion N as [|? ? _ N1]; subst. inversion N1 as [|? ? N2 _]; subst. apply N2. cbn [In]. auto.
Qed.
Print Assumptions C79_read_once_refuted.
