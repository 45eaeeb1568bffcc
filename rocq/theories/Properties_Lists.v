(** C137-C140: the listing commands, from the files to the text. *)
From Coq Require Import Permutation Sorted.
From Verif Require Import Base M_Amount M_Convert M_Date M_Names M_Tags M_Parser M_Writer M_Ledger M_Report M_Database M_Output M_Listing M_Coin M_Lists
  S_Decimal S_Amount S_Names S_Books S_Report S_Database S_Output S_Coin S_Listing S_Consistent S_Lists L_Dec L_Sort L_Amount L_Tree L_Tree2 L_Balance L_Registers L_Resolve L_Load L_Recheck L_Database L_Database2 L_Listing L_Listing2 L_Listing3 L_Output L_Output2 L_Entries L_Report L_Coin L_Coin2 L_Lists
  Properties_Names Properties_Parser Properties_Ledger Properties_Tree Properties_Report Properties_Database Properties_Listing Properties_Coin Properties_Consistent.
Local Open Scope Z_scope.

(** ** C137 *)
(** coin tags lists the tags in the notes of the files: the names matching the pattern, each once and in order; with -v every
    value once and in order; with -a the accounts used with the tag, each once, in the order of the transactions. *)
Theorem C137_tags_from_files : forall limit w DB compile fuel comm b es, load_all limit w DB compile fuel comm b ->
  all_entries w [] (database_files w DB) es ->
  let find := must_find_account compile (b_names b) in
  exists ts, ordered_as_loaded (ev_txs es) ts /\
  forall rex fv fa o_tx o_post o_keys,
    (forall i l, Permutation l (o_tx i l)) -> (forall p l, Permutation l (o_post p l)) -> (forall l, Permutation l (o_keys l)) ->
    let said := tag_said (map snd (ev_txs es)) in
    exists names vals,
      ascending names /\ (forall k, In k names <-> match rex with None => True | Some m => m k = true end /\ exists v, said k v) /\
      (forall k, In k names -> ascending (vals k) /\ forall v, In v (vals k) <-> v <> [] /\ said k v) /\
      coin_tags rex fv fa o_tx o_post o_keys b = Ok (flat_map (fun k => tag_row fv fa k (vals k) (firsts (accounts_said find (map snd ts) k))) names).
Proof.
  intros limit w DB compile fuel comm b es Hl Hes find. destruct (loaded_order _ _ _ _ _ _ _ _ Hl Hes) as (o & o3 & ts & _ & _ & _ & Ho & F & _).
  exists ts. split; [exact Ho|]. intros rex fv fa o_tx o_post o_keys H1 H2 H3 said. apply (Forall2_map_l (resolved _ _ _ _) snd) in F.
  pose proof (tag_visits_ok o_tx o_post (b_ledger b) (b_txs b) H1 H2) as V.
  destruct (C93_names (b_ledger b) (b_txs b) _ rex fa V) as (N & K). cbv zeta in K.
  set (vs := tag_visits o_tx o_post (b_ledger b) (b_txs b)) in *.
  assert (Pt : forall k v, tagged (b_ledger b) (b_txs b) k v <-> said k v).
  { intros k v. rewrite (tagged_said _ _ _ _ _ _ k v F). unfold said, tag_said. destruct Ho as (P & _). apply (Permutation_map snd) in P.
    split; intros (t & I & T); exists t; (split; [|exact T]); [exact (Permutation_in _ P I)|exact (Permutation_in _ (Permutation_sym P) I)]. }
  destruct (C93_tags (b_ledger b) (b_txs b) vs rex fv fa (o_keys (map fst (fst (collect rex fa vs ([], []))))) V) as (names & vals & A & I & Hv & E).
  { exact (Permutation_NoDup (H3 _) N). }
  { intros k. rewrite <- K. split; apply Permutation_in; [apply Permutation_sym|]; apply H3. }
  exists names, vals. split; [exact A|]. split.
  { intros k. rewrite I. split; intros (S & v & T); (split; [exact S|exists v; apply Pt, T]). }
  split. { intros k Ik. destruct (Hv k Ik) as (A1 & A2). split; [exact A1|]. intros v. rewrite A2. rewrite Pt. reflexivity. }
  unfold coin_tags. fold vs. rewrite E. f_equal. apply flat_map_ext. intros k. rewrite (uses_said _ _ _ _ _ _ k F). reflexivity.
Qed.
Print Assumptions C137_tags_from_files.
(** the list of transactions meant is the only one in that order *)
Theorem C137_order_unique : forall said ts ts', ordered_as_loaded said ts -> ordered_as_loaded said ts' -> ts = ts'.
Proof. exact as_loaded_unique. Qed.
Print Assumptions C137_order_unique.

(** ** C138 *)
(** coin stats, the written amounts being in the commodity of their account. Of the transactions in the window: with -d the pairs that
    look the same, every pair once; otherwise the findings asked for and the counts. Everything is printed as the files say it. *)
Theorem C138_stats_from_files : forall limit w DB compile fuel comm b es, load_all limit w DB compile fuel comm b ->
  all_entries w [] (database_files w DB) es ->
  let find := must_find_account compile (b_names b) in
  (forall t, In t (map snd (ev_txs es)) -> in_account_commodity find comm t) -> (forall a, In a (b_names b) -> (c_dec (comm a) <= 50)%nat) ->
  exists ts, ordered_as_loaded (ev_txs es) ts /\ List.length ts = List.length (b_txs b) /\
  forall loc, Forall2 (fun v x => loc x = location v) ts (b_txs b) -> forall begin end_, let inside := filter (fun v => in_range begin end_ (t_posted (snd v))) ts in
  (forall fu fc dflt, let at_ i := nth i inside dflt in
     coin_stats comm loc true fu fc begin end_ b =
     texts (map (fun ij => duplicate_text find comm (at_ (fst ij)) (at_ (snd ij)))
                (filter (fun ij => looks_same find (snd (at_ (snd ij))) (snd (at_ (fst ij)))) (pairs_before (List.length inside))))) /\
  (forall fu fc commodities accounts, NoDup commodities -> (forall id, In id commodities <-> In id (map pc_id (ev_comms es))) ->
     NoDup accounts -> (forall n, In n accounts <-> needed (map pa_name (ev_accounts es)) n) ->
     coin_stats comm loc false fu fc begin end_ b =
     texts (flat_map (findings find comm fu fc) inside ++
            [Ok (counts_text (List.length commodities) (List.length (ev_prices es)) (List.length accounts) (List.length inside))])).
Proof.
  intros limit w DB compile fuel comm b es Hl Hes find HQ HD.
  destruct (C77_load_all _ _ _ _ _ _ _ Hl) as (es' & A1 & _ & Hh & Nn & Kn & _). assert (es' = es) by (eapply C76_unique; eassumption). subst es'.
  destruct (loaded_order _ _ _ _ _ _ _ _ Hl Hes) as (o & o3 & ts & _ & Na3 & Hld & Ho & F0 & Hf). exists ts. split; [exact Ho|]. split; [exact (forall2_len' _ _ _ F0)|].
  fold find in Hld, F0. set (conv := book_conv (b_prices b) o) in *. intros loc Fl begin end_ inside.
  assert (F : Forall2 (fun v x => said_as find comm conv (b_ledger b) v x /\ loc x = location v /\ (forall s, In s (t_postings (snd v)) -> (c_dec (comm (account_of find s)) <= 50)%nat)) ts (b_txs b)).
  { assert (It : forall v, In v ts -> In (snd v) (map snd (ev_txs es))) by (intros v I; apply in_map; destruct Ho as (P & _); exact (Permutation_in _ P I)).
    clear Hld Ho. revert It Fl. induction F0 as [|v x ts xs R F0 IH]; intros It Fl; inversion Fl; subst; constructor; [|apply IH; [intros u I; apply It; right; exact I|assumption]].
    split; [split; [exact R|apply HQ, It; left; reflexivity]|]. split; [assumption|]. intros s Is. destruct R as (_ & _ & _ & _ & R & _). clear -R Is Hf HD.
    induction R as [|s' p ss ps (_ & _ & E & _) R IH]; [destruct Is|]. destruct Is as [<- |Is]; [|auto]. unfold account_of. fold find in Hf. rewrite E. apply HD. eapply Hf, E. }
  set (xw := trim no_tx x_posted (b_txs b) begin end_).
  assert (Fw : Forall2 (fun v x => said_as find comm conv (b_ledger b) v x /\ loc x = location v /\ (forall s, In s (t_postings (snd v)) -> (c_dec (comm (account_of find s)) <= 50)%nat)) inside xw).
  { unfold xw, inside. rewrite (C94_window _ _ _ _ _ _ _ _ _ begin end_ Na3 Hld). apply filter_Forall2; [|exact F]. intros v x (((-> & _) & _) & _). reflexivity. }
  assert (Tot : forall fd fu fc n1 n2 n3, exists items, stats_command (b_ledger b) fd fu fc begin end_ n1 n2 n3 (b_txs b) = Ok items).
  { intros fd fu fc n1 n2 n3. refine (C94_total _ _ _ _ _ _ _ _ _ begin end_ fd fu fc n1 n2 n3 Na3 Hld _). intros x p q Ix Ip Eq. clear -F Ix Ip Eq.
    induction F as [|v y ts xs (S & _ & D) F IH]; [destruct Ix|]. destruct Ix as [-> |Ix]; [|auto]. pose proof (said_values _ _ _ _ _ _ S) as V. revert V. generalize (value_of (snd v)). clear -D Ip Eq. intros f V. revert D.
    induction V as [|s r ss ps (_ & _ & Q & _) V IH]; [destruct Ip|]. intros D. destruct Ip as [-> |Ip]; [|apply IH; [exact Ip|intros s' I; apply D; right; exact I]].
    rewrite Q in Eq. injection Eq as <-. apply D. left. reflexivity. }
  split.
  - intros fu fc dflt at_. unfold coin_stats. destruct (Tot true fu fc (List.length (d_comms (b_db b))) (List.length (d_prices (b_db b))) (List.length (b_names b))) as (items & E). rewrite E. cbn [bind].
    destruct (C94_duplicates _ _ _ _ _ _ _ _ _ _ _ _ _ _ _ _ _ Na3 Hld E) as (P & HP & ->). fold xw. rewrite texts_map, map_map. rewrite <- (forall2_len' _ _ _ Fw).
    assert (G : forall i j, (i < List.length inside)%nat -> (j < List.length inside)%nat -> P (i, j) = looks_same find (snd (at_ j)) (snd (at_ i)) /\
        item_text comm loc (b_ledger b) (Duplicate (nth i xw no_tx) (nth j xw no_tx)) = duplicate_text find comm (at_ i) (at_ j)).
    { intros i j Hi Hj. rewrite (forall2_len' _ _ _ Fw) in Hi, Hj. destruct (nth_Forall2 _ _ _ dflt no_tx i Fw Hi) as (S1 & L1 & _), (nth_Forall2 _ _ _ dflt no_tx j Fw Hj) as (S2 & L2 & _). split.
      - specialize (HP i j). fold xw in HP. rewrite <- alike_iff in HP. unfold alike in HP. rewrite (equal_said _ _ _ _ _ _ _ _ S2 S1) in HP. unfold at_. revert HP.
        destruct (P (i, j)), (looks_same find _ _); intros [H1 H2]; try reflexivity; [discriminate (H1 eq_refl)|discriminate (H2 eq_refl)].
      - cbn [item_text]. unfold duplicate_text. rewrite (printed_said _ _ _ _ _ _ S1), (printed_said _ _ _ _ _ _ S2), L1, L2. reflexivity. }
    assert (Bd : forall ij, In ij (pairs_before (List.length inside)) -> (fst ij < List.length inside)%nat /\ (snd ij < List.length inside)%nat) by (intros [i j] I; apply C94_pairs in I; cbn [fst snd]; lia).
    revert Bd. generalize (pairs_before (List.length inside)). intros l Bd. f_equal. revert Bd. induction l as [|[i j] l IH]; intros Bd; [reflexivity|]. destruct (Bd (i, j) (or_introl eq_refl)) as (Hi & Hj). cbn [fst snd] in Hi, Hj.
    destruct (G i j Hi Hj) as (G1 & G2). specialize (IH (fun ij I => Bd ij (or_intror I))). cbn [filter fst snd]. rewrite G1. destruct (looks_same find _ _); [|exact IH]. cbn [map fst snd]. rewrite IH. f_equal. exact G2.
  - intros fu fc commodities accounts N1 K1 N2 K2. unfold coin_stats.
    assert (Lc : List.length (d_comms (b_db b)) = List.length commodities).
    { rewrite <- (map_length fst). apply Permutation_length. destruct Hh as (_ & _ & _ & _ & _ & Hc & _ & _ & Nc & _). apply NoDup_Permutation; [exact Nc|exact N1|]. intros id. rewrite K1. specialize (Hc id).
      assert (A : In id (map fst (d_comms (b_db b))) <-> lookup id (d_comms (b_db b)) <> None).
      { clear. induction (d_comms (b_db b)) as [|[k v] l IH]; cbn [map fst In lookup]; [intuition|]. destruct (eqb_bytes id k) eqn:E.
        - apply eqb_bytes_eq in E. subst. split; [discriminate|auto].
        - rewrite <- IH. split; [intros [-> |I]; [rewrite eqb_bytes_refl in E; discriminate|exact I]|auto]. }
      rewrite A. unfold last_such in Hc. destruct (lookup id (d_comms (b_db b))) as [[c pc]|]; cbn [option_map snd] in Hc.
      - symmetry in Hc. apply List.find_some in Hc as [I Ec]. apply eqb_bytes_eq in Ec. apply in_rev in I. split; [intros _; apply in_map_iff; exists pc; auto|discriminate].
      - split; [congruence|]. intros I. apply in_map_iff in I as (c & Ec & I). apply in_rev in I. symmetry in Hc. pose proof (List.find_none _ _ Hc _ I) as X. cbv beta in X. rewrite Ec, eqb_bytes_refl in X. discriminate. }
    assert (Ln : List.length (b_names b) = List.length accounts). { apply Permutation_length, NoDup_Permutation; [exact Nn|exact N2|]. intros n. rewrite K2. apply Kn. }
    assert (Lp : List.length (d_prices (b_db b)) = List.length (ev_prices es)) by (destruct Hh as (_ & _ & -> & _); reflexivity).
    rewrite Lc, Ln, Lp. destruct (Tot false fu fc (List.length commodities) (List.length (ev_prices es)) (List.length accounts)) as (items & E). rewrite E. cbn [bind].
    unfold stats_command in E. fold xw in E. apply bind_ok in E as (l & El & E). injection E as <-. rewrite (checks_spec _ _ _ _ _ El). rewrite texts_map, map_app. cbn [map item_text].
    f_equal. f_equal; [|rewrite (forall2_len' _ _ _ Fw); reflexivity].
    clear -Fw. induction Fw as [|v x vs xs (S & E & D) F IH]; [reflexivity|]. cbn [flat_map]. rewrite map_app, IH. f_equal. exact (findings_said _ _ _ _ _ _ _ _ _ S E D).
Qed.
Print Assumptions C138_stats_from_files.

(** ** C139 *)
(** coin accounts lists the accounts of commodities.coin and accounts.coin and the ones above them, those matching the pattern, each
    once and in order; those with a closing date, and those below one, only with -c. Each on a line with its commodity and description. *)
Theorem C139_accounts_from_files : forall limit w DB comm es,
  all_entries w [] [in_dir DB (B "commodities.coin"); in_dir DB (B "accounts.coin")] es ->
  exists N, forall fuel fc rex out, (N <= fuel)%nat -> coin_accounts limit w DB fuel comm fc rex out ->
  let listed n := needed (map pa_name (ev_accounts es)) n /\ match rex with None => True | Some m => m n = true end in
  exists names width, ascending names /\ (forall n, In n names <-> listed n /\ (fc = true \/ ~ closed_said es n)) /\
    (forall n, listed n -> (List.length n <= width)%nat) /\ (width = O \/ exists n, listed n /\ List.length n = width) /\
    out = flat_map (account_line es width) names.
Proof.
  intros limit w DB comm es Hes. set (base := base_accounts (nodup (list_eq_dec Ascii.ascii_dec) (map pa_name (ev_accounts es)))).
  exists (S (bound (with_parents base base))). intros fuel fc rex out Hf (d & known & o1 & o2 & T & names & order & Hd & Pk & P1 & P2 & Po & Hr & _ & ->) listed.
  destruct (C76_in_place _ _ _ _ Hd) as (es' & He' & _ & Hh). assert (es' = es) by (eapply C76_unique; eassumption). subst es'. clear He'.
  destruct (holds_names _ _ Hh) as (Nd & Kd).
  destruct (resolve_any fuel fuel _ _ _ _ _ _ Nd Pk P1 P2 Hr) as (En & _).
  destruct (resolve_tree fuel _ known o1 o2 Nd Pk) as (T' & E' & HT & _); [rewrite <- En; exact P1|rewrite <- En; exact P2|].
  rewrite Hr in E'. injection E' as <- _. rewrite <- En in HT. pose proof HT as (Nn & _).
  assert (Kn : forall n, In n names <-> needed (map pa_name (ev_accounts es)) n).
  { intros n. rewrite En, (all_needed _ _ n Pk). unfold needed. rewrite (Kd n). split; (intros [H|[H|[H|(H & k & Ik & Hk)]]]; auto; right; right; right; split; [exact H|exists k; split; [apply Kd, Ik|exact Hk]]). }
  assert (Fu : forall n, In n names -> (msr n < fuel)%nat).
  { intros n I. apply Nat.lt_le_trans with (2 := Hf), le_n_S. etransitivity; [exact (msr_bound _ _ I)|]. apply bound_incl. intros x Ix. apply Kn in Ix.
    apply (all_needed (nodup (list_eq_dec Ascii.ascii_dec) (map pa_name (ev_accounts es)))); [apply Permutation_refl|]. unfold needed in *. rewrite nodup_In.
    destruct Ix as [H|[H|[H|(H & k & Ik & Hk)]]]; auto. right. right. right. split; [exact H|]. exists k. split; [apply nodup_In, Ik|exact Hk]. }
  destruct Hh as (_ & _ & _ & Hdef & Ha & _).
  assert (Cl : forall n, In n names -> is_closed fuel T (has_closed d) n = true <-> closed_said es n).
  { intros n I. rewrite (closed_under names T HT (has_closed d) fuel n I (Fu n I)). unfold closed_said, has_closed, account_read, declared. split.
    - intros (p & Hp & U). apply (under_said names T p n HT I) in U. rewrite Ha in Hp. destruct (if eqb_bytes p _ then _ else _) as [a|] eqn:E; [|discriminate]. destruct (pa_closed a) as [c|] eqn:Ec; [|discriminate].
      exists p, a, c. rewrite E. auto.
    - intros (p & a & c & A & E & Ec). exists p. rewrite Ha, E, Ec. split; [reflexivity|]. apply (under_said names T p n HT I), A. }
  assert (No : NoDup order) by exact (Permutation_NoDup (Permutation_sym Po) Nn).
  assert (Ko : forall n, In n order <-> In n names) by (intros n; split; apply Permutation_in; [exact Po|apply Permutation_sym, Po]).
  destruct (C95_accounts fc rex (is_closed fuel T (has_closed d)) (account_info d) order No) as (ns & wd & A & I & W1 & W2 & ->).
  exists ns, wd. split; [exact A|]. split.
  { intros n. rewrite I, Ko. unfold listed. split.
    - intros (In_ & S & C). split; [split; [apply Kn, In_|exact S]|]. destruct C as [C|C]; [left; exact C|right]. intros X. apply (Cl n In_) in X. congruence.
    - intros ((In_ & S) & C). apply Kn in In_. split; [exact In_|]. split; [exact S|]. destruct C as [C|C]; [left; exact C|right]. destruct (is_closed _ _ _ n) eqn:E; [|reflexivity]. exfalso. apply C, (Cl n In_), E. }
  split. { intros n (H1 & H2). apply W1; [apply Ko, Kn, H1|exact H2]. }
  split. { destruct W2 as [W2|(n & H1 & H2 & H3)]; [left; exact W2|right]. exists n. split; [split; [apply Kn, Ko, H1|exact H2]|exact H3]. }
  apply flat_map_ext. intros n. unfold account_line, account_info, account_read, declared. cbn [ai_commodity ai_desc]. rewrite Ha, Hdef. reflexivity.
Qed.
Print Assumptions C139_accounts_from_files.

(** and something is listed exactly if every account has a known commodity *)
Theorem C139_listed : forall w DB es,
  all_entries w [] [in_dir DB (B "commodities.coin"); in_dir DB (B "accounts.coin")] es -> Forall named es ->
  exists limit0, forall limit, (limit0 <= limit)%nat -> forall fuel fc rex,
  (exists comm out, coin_accounts limit w DB fuel comm fc rex out) <-> (forall n, account_exists es n -> exists c, account_commodity es n c).
Proof.
  intros w DB es Hes Hn. destruct (C76_loads _ _ _ Hes Hn) as (k & K). exists k. intros limit Hl fuel fc rex. destruct (K limit Hl) as (d & E & Hh). split.
  - intros (comm & out & d' & known0 & o1 & o2 & T & names & order & Hd & Pk & P1 & P2 & Po & Hr & Ck & _) n I.
    assert (d' = d) by congruence. subst d'. destruct (holds_names _ _ Hh) as (Nd & _). destruct (resolve_any fuel fuel _ _ _ _ _ _ Nd Pk P1 P2 Hr) as (-> & _).
    exists (comm n). apply (holds_commodity d es n _ Hh), Ck, (all_needed _ _ n Pk), (holds_needed d es n Hh), I.
  - intros Hc. set (comm := fun n => match known es (commodity_id_of es n) with Some c => c | None => mkCommodity 0 [] 0 end). destruct (holds_names _ _ Hh) as (Nd & _).
    set (known0 := base_accounts (map fst (d_accounts d))). set (names := with_parents known0 known0).
    destruct (resolve_tree fuel (map fst (d_accounts d)) known0 names names Nd (Permutation_refl _) (Permutation_refl _) (Permutation_refl _)) as (T & Hr & _).
    exists comm. eexists. exists d, known0, names, names, T, names, names. split; [exact E|]. do 4 (split; [reflexivity|]). split; [exact Hr|]. split; [|reflexivity].
    intros n I. apply (holds_commodity d es n _ Hh). apply (all_needed _ _ n (Permutation_refl _)), (holds_needed d es n Hh) in I. destruct (Hc n I) as (c & Ac). apply account_commodity_iff in Ac. apply account_commodity_iff. unfold comm. rewrite Ac. reflexivity.
Qed.
Print Assumptions C139_listed.

(** ** C140 *)
Lemma lookup_key {A} k (l : list (bytes * A)) : In k (map fst l) <-> lookup k l <> None.
Proof.
  induction l as [|[k' v] l IH]; cbn [map fst In lookup]; [intuition|]. destruct (eqb_bytes k k') eqn:E.
  - apply eqb_bytes_eq in E. subst. split; [discriminate|auto].
  - rewrite <- IH. split; [intros [-> |I]; [rewrite eqb_bytes_refl in E; discriminate|exact I]|auto].
Qed.
Lemma comm_keys d es : S_Database.holds d es -> forall id, In id (map fst (d_comms d)) <-> In id (map pc_id (ev_comms es)).
Proof.
  intros (_ & _ & _ & _ & _ & Hc & _) id. rewrite lookup_key. specialize (Hc id). unfold last_such in Hc. destruct (lookup id (d_comms d)) as [[c pc]|]; cbn [option_map snd] in Hc.
  - symmetry in Hc. apply List.find_some in Hc as [I Ec]. apply eqb_bytes_eq in Ec. apply in_rev in I. split; [intros _; apply in_map_iff; exists pc; auto|discriminate].
  - split; [congruence|]. intros I. apply in_map_iff in I as (c & Ec & I). apply in_rev in I. symmetry in Hc. pose proof (List.find_none _ _ Hc _ I) as X. cbv beta in X. rewrite Ec, eqb_bytes_refl in X. discriminate.
Qed.
(** coin commodities lists the commodities of commodities.coin, each once and in order, as last defined *)
Theorem C140_commodities_from_files : forall limit w DB es, all_entries w [] [in_dir DB (B "commodities.coin")] es ->
  forall out, coin_commodities limit w DB out ->
  exists ids, ascending ids /\ (forall id, In id ids <-> In id (map pc_id (ev_comms es))) /\ out = flat_map (commodity_row es) ids.
Proof.
  intros limit w DB es Hes out (d & order & Hd & Po & ->).
  destruct (C76_in_place _ _ _ _ Hd) as (es' & He' & _ & Hh). assert (es' = es) by (eapply C76_unique; eassumption). subst es'. clear He'.
  pose proof (comm_keys _ _ Hh) as K. destruct Hh as (_ & _ & _ & _ & _ & Hc & _ & _ & Nc & _).
  destruct (C96_commodities (commodity_info d) order) as (ids & A & I & ->); [exact (Permutation_NoDup (Permutation_sym Po) Nc)|].
  exists ids. split; [exact A|].
  assert (I' : forall id, In id ids <-> In id (map fst (d_comms d))) by (intros id; rewrite I; split; apply Permutation_in; [exact Po|apply Permutation_sym, Po]).
  split. { intros id. rewrite I'. apply K. }
  assert (G : forall l, (forall id, In id l -> In id ids) -> flat_map (fun id => repeat " "%char (10 - rune_count id) ++ id ++ B " | " ++
        repeat " "%char (10 - rune_count (ci_symbol (commodity_info d id))) ++ ci_symbol (commodity_info d id) ++ B " | " ++
        (if negb (ci_nomarket (commodity_info d id)) && negb (eqb_bytes (ci_symbol (commodity_info d id)) []) then B "Q" else B " ") ++ B " | " ++ ci_name (commodity_info d id) ++ [nl]) l
      = flat_map (commodity_row es) l).
  { induction l as [|id l IH]; intros H; [reflexivity|]. cbn [flat_map]. rewrite IH by (intros x Ix; apply H; right; exact Ix). f_equal.
    unfold commodity_row, defined, commodity_info. rewrite <- Hc. pose proof (proj1 (I' id) (H id (or_introl eq_refl))) as X. apply lookup_key in X.
    destruct (lookup id (d_comms d)) as [[c pc]|]; [reflexivity|congruence]. }
  apply G. auto.
Qed.
Print Assumptions C140_commodities_from_files.
(** commodities.coin that can be read is always listed *)
Theorem C140_listed : forall w DB es, all_entries w [] [in_dir DB (B "commodities.coin")] es -> Forall named es ->
  exists limit0, forall limit, (limit0 <= limit)%nat -> exists out, coin_commodities limit w DB out.
Proof.
  intros w DB es Hes Hn. destruct (C76_loads _ _ _ Hes Hn) as (k & K). exists k. intros limit Hl. destruct (K limit Hl) as (d & E & _).
  eexists. exists d, (map fst (d_comms d)). split; [exact E|]. split; reflexivity.
Qed.
Print Assumptions C140_listed.

(** ** Instances *)
(** a database with a closed branch, two commodities (one defined twice) and an account without a declaration *)
Definition ldb : world := small_world
  [(B "commodities.coin", nls ["commodity CAD"; "  note Canadian dollar"; "  symbol C"; "  nomarket"; "  format 1.00 CAD"; ""; "commodity XYZ"; "  nomarket"; "  format 1.000 XYZ"; ""; "commodity XYZ"; "  note A fund"; "  symbol X.Y"; "  format 1.000 XYZ"]%string);
   (B "accounts.coin", nls ["account Assets:Old"; "  commodity XYZ"; "  closed 2019/01/01"; ""; "account Assets:Old:Sub"; "  note gone"; ""; "account Income"]%string)] [].
Definition lcomm (n : bytes) : commodity := if eqb_bytes n (B "Assets:Old") then mkCommodity 2 (B "XYZ") 3 else mkCommodity 0 (B "CAD") 2.
Definition ld : db := match load_list 5 ldb [B "commodities.coin"; B "accounts.coin"] empty_db with Some (Ok d) => d | _ => empty_db end.
Definition lorder : list bytes := base_accounts (map fst (d_accounts ld)).
Definition lnames : list bytes := with_parents lorder lorder.
Definition ltree : tree := match resolve_accounts 9 (map fst (d_accounts ld)) lorder lnames lnames with Ok (T, _) => T | _ => mkTree (fun _ => None) (fun _ => []) end.
Lemma ld_loaded : load_list 5 ldb [B "commodities.coin"; B "accounts.coin"] empty_db = Some (Ok ld).
Proof. vm_compute. reflexivity. Qed.
Example C139_hypotheses : (exists es, all_entries ldb [] [in_dir [] (B "commodities.coin"); in_dir [] (B "accounts.coin")] es /\ Forall named es) /\
  forall fc rex, coin_accounts 5 ldb [] 9 lcomm fc rex (accounts_command fc rex (is_closed 9 ltree (has_closed ld)) (account_info ld) lnames).
Proof.
  split.
  - destruct (C76_in_place _ _ _ _ ld_loaded) as (es & A & N & _). exists es. split; [exact A|exact N].
  - intros fc rex. exists ld, lorder, lnames, lnames, ltree, lnames, lnames. split; [exact ld_loaded|]. do 4 (split; [reflexivity|]). split.
    + destruct (ok_pair (resolve_accounts 9 (map fst (d_accounts ld)) lorder lnames lnames) lnames) as [T ET]; [vm_compute; reflexivity|]. unfold ltree. rewrite ET. reflexivity.
    + split; [|reflexivity]. replace lnames with [B "Assets:Old"; B "Assets:Old:Sub"; B "Income"; B "Root"; B "Unbalanced"; B "Assets"] by (vm_compute; reflexivity).
      intros n I. repeat (destruct I as [<-|I]; [vm_compute; reflexivity|]). destruct I.
Qed.
(** Assets:Old:Sub is below a closed account *)
Example C139_example :
  accounts_command false None (is_closed 9 ltree (has_closed ld)) (account_info ld) lnames =
    nls ["Assets         | CAD        | "; "Income         | CAD        | "; "Root           | CAD        | "; "Unbalanced     | CAD        | "]%string /\
  accounts_command true (Some (fun n => has_prefix (B "Assets:") n)) (is_closed 9 ltree (has_closed ld)) (account_info ld) lnames =
    nls ["Assets:Old     | XYZ        | "; "Assets:Old:Sub | CAD        | gone"]%string.
Proof. split; vm_compute; reflexivity. Qed.
Example C140_example : coin_commodities 5 ldb [] (nls ["       CAD |          C |   | Canadian dollar"; "       XYZ |        X.Y | Q | A fund"]%string).
Proof.
  exists (match load_list 5 ldb [B "commodities.coin"] empty_db with Some (Ok d) => d | _ => empty_db end). eexists.
  split; [vm_compute; reflexivity|]. split; [reflexivity|]. vm_compute. reflexivity.
Qed.
(** two equal transactions, a conversion of the same number, tags in notes *)
Definition mdb : world := small_world
  [(B "commodities.coin", nls ["commodity CAD"; "  format 1.00 CAD"; ""; "commodity USD"; "  format 1.00 USD"]%string);
   (B "accounts.coin", nls ["account A"; "  commodity CAD"; ""; "account U"; "  commodity USD"]%string);
   (B "transactions.coin", nls ["2020/01/02 (7) shop"; "  ; #trip: rome"; "  A  5.00 CAD"; "  Unbalanced"; ""; "2020/01/02 (7) shop"; "  A  5.00 CAD ; #pet"; "  Unbalanced"; "";
                                "2020/01/01 exchange"; "  A  -3.00 CAD"; "  U  3.00 USD"]%string)] [].
Definition mcomm (n : bytes) : commodity := if eqb_bytes n (B "U") then mkCommodity 1 (B "USD") 2 else mkCommodity 0 (B "CAD") 2.
Definition mdb_db : db := match load_files_all 5 mdb [] with Some (Ok d) => d | _ => empty_db end.
Lemma mdb_loaded : load_files_all 5 mdb [] = Some (Ok mdb_db).
Proof. vm_compute. reflexivity. Qed.
Definition morder : list bytes := base_accounts (map fst (d_accounts mdb_db)).
Definition mtree : tree := match resolve_accounts 5 (map fst (d_accounts mdb_db)) morder morder morder with Ok (T, _) => T | _ => mkTree (fun _ => None) (fun _ => []) end.
Definition mbook : book := load_book xcompile mcomm mdb_db mtree morder.
Example C138_hypotheses : load_all 5 mdb [] xcompile 5 mcomm mbook /\ (exists es, all_entries mdb [] (database_files mdb []) es) /\
  (forall a, In a (b_names mbook) -> (c_dec (mcomm a) <= 50)%nat) /\
  (forall es, all_entries mdb [] (database_files mdb []) es -> forall t, In t (map snd (ev_txs es)) -> in_account_commodity (must_find_account xcompile (b_names mbook)) mcomm t).
Proof.
  assert (Hl : load_all 5 mdb [] xcompile 5 mcomm mbook).
  { apply (load_book_ok 5 mdb [] xcompile mcomm mdb_db 5 mtree morder morder); [exact mdb_loaded|vm_compute; reflexivity|reflexivity| | |vm_compute; reflexivity].
    + destruct (ok_pair (resolve_accounts 5 (map fst (d_accounts mdb_db)) morder morder morder) morder) as [T ET]; [vm_compute; reflexivity|]. unfold mtree. rewrite ET. reflexivity.
    + replace morder with [B "A"; B "U"; B "Root"; B "Unbalanced"] by (vm_compute; reflexivity). intros n I. repeat (destruct I as [<-|I]; [vm_compute; reflexivity|]). destruct I. }
  split; [exact Hl|]. assert (H := mdb_loaded). rewrite load_files_list in H. destruct (C76_in_place _ _ _ _ H) as (es & A1 & _ & Hh). split; [exists es; exact A1|].
  split; [intros a _; unfold mcomm; destruct (eqb_bytes _ _); cbn; lia|]. intros es' A. assert (es' = es) by (eapply C76_unique; eassumption). subst es'. clear A.
  destruct Hh as (Ht & _). rewrite <- Ht. clear.
  intros t It s q a Is Eq Ef. pose (f := fun (q : amount) (a : bytes) => (c_key (a_com q) =? c_key (mcomm a))%nat && eqb_bytes (c_id (a_com q)) (c_id (mcomm a)) && (c_dec (a_com q) =? c_dec (mcomm a))%nat).
  assert (H : forallb (fun t => forallb (fun s => match ps_quantity s, must_find_account xcompile (b_names mbook) (ps_account s) with Some q, Ok a => f q a | _, _ => true end) (t_postings t)) (map snd (d_txs mdb_db)) = true) by (vm_compute; reflexivity).
  rewrite forallb_forall in H. specialize (H t It). cbv beta in H. rewrite forallb_forall in H. specialize (H s Is). cbv beta in H. rewrite Eq, Ef in H. unfold f in H. clear -H.
  rewrite !andb_true_iff in H. destruct H as ((H1 & H2) & H3). apply Nat.eqb_eq in H1, H3. apply eqb_bytes_eq in H2. destruct (a_com q), (mcomm a). cbn in *. congruence.
Qed.
Definition mloc (x : rtx) : bytes := B "transactions.coin:" ++ print_nat (Z.of_nat (x_line x)).
Example C138_example :
  coin_stats mcomm mloc true true true None None mbook = Ok (nls ["DUPLICATE TRANSACTION?"; "transactions.coin:1"; "2020/01/02 (7) shop ; #trip: rome"; "  A            5.00 CAD"; "  Unbalanced  -5.00 CAD"; ""; "transactions.coin:6"; "2020/01/02 (7) shop"; "  A            5.00 CAD ; #pet"; "  Unbalanced  -5.00 CAD"; ""]%string) /\
  coin_stats mcomm mloc false true true None None mbook = Ok (nls ["BAD CONVERSION: 2020/01/01 -3.00 CAD => 3.00 USD : transactions.coin:10"; "UNBALANCED TRANSACTION!"; "transactions.coin:1"; "2020/01/02 (7) shop ; #trip: rome"; "  A            5.00 CAD"; "  Unbalanced  -5.00 CAD"; ""; "UNBALANCED TRANSACTION!"; "transactions.coin:6"; "2020/01/02 (7) shop"; "  A            5.00 CAD ; #pet"; "  Unbalanced  -5.00 CAD"; ""; "Commodities: 2"; "Prices: 0"; "Accounts: 4"; "Transactions: 3"]%string).
Proof. split; vm_compute; reflexivity. Qed.
Example C137_example : let same (n : nat) (x : tags) := x in
  coin_tags None true true same same (fun l => l) mbook = Ok (nls ["pet"]%string ++ chr 9 :: nls ["A"; "trip: ""rome"""]%string ++ chr 9 :: nls ["A"]%string ++ chr 9 :: nls ["Unbalanced"]%string).
Proof. vm_compute. reflexivity. Qed.
