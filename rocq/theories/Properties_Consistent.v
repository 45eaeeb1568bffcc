(** C134: a database whose entries fit together loads, in whatever order maps are iterated, and only such databases load. *)
From Coq Require Import Permutation Sorted.
From Verif Require Import Base M_Amount M_Date M_Names M_Parser M_Convert M_Ledger M_Database S_Amount S_Names S_Books S_Database S_Written S_Whole S_Consistent
  L_Amount L_Dec L_Sort L_Resolve L_Resolve2 L_Check L_Load L_Entries L_Tree2 L_Database L_Database2 L_Whole L_Consistent Properties_Names Properties_Ledger Properties_Tree Properties_Database Properties_Whole
  S_Decimal S_DateText S_Ledger Properties_Parser Properties_Written M_Coin S_Coin L_Coin2 Properties_Coin Properties_Coin3.

(** the commodity of an account, as a function *)
Definition commodity_id_of (es : list event) (n : bytes) : bytes :=
  match declaration es n with
  | Some a => match pa_commodity a with [] => default_after es | c => c end
  | None => default_after es
  end.
Lemma account_commodity_iff es n c : account_commodity es n c <-> known es (commodity_id_of es n) = Some c.
Proof.
  unfold account_commodity, commodity_id_of. destruct (declaration es n) as [a|].
  - destruct (pa_commodity a) as [|x y]; split.
    + intros (id & K & [[H _]|[_ ->]]); [congruence|exact K].
    + intros K. eauto.
    + intros (id & K & [[_ ->]|[H _]]); [exact K|discriminate].
    + intros K. exists (x :: y). split; [exact K|]. left. split; [discriminate|reflexivity].
  - split; [intros (id & K & ->); exact K|eauto].
Qed.
Lemma account_commodity_fun es n c c' : account_commodity es n c -> account_commodity es n c' -> c = c'.
Proof. rewrite !account_commodity_iff. congruence. Qed.
Lemma holds_commodity d es n c : holds d es -> (find_comm d (commodity_id d n) = Some c <-> account_commodity es n c).
Proof.
  intros (_ & _ & _ & Hd & Ha & _ & Hk & _). rewrite account_commodity_iff, Hk. unfold commodity_id, commodity_id_of, account_read, declaration. rewrite Ha, Hd. tauto.
Qed.
Lemma holds_needed d es n : holds d es -> needed (map fst (d_accounts d)) n <-> account_exists es n.
Proof.
  intros H. destruct (holds_names d es H) as [_ In_]. unfold account_exists, needed. rewrite In_.
  split; intros [?|[?|[?|(? & k & I & ?)]]]; auto; right; right; right; (split; [assumption|]); exists k; (split; [apply In_; exact I|assumption]).
Qed.
Lemma add_prices_total find : forall ps db, (forall p, In p ps -> find (p_com_id p) <> None /\ find (p_cur_id p) <> None) -> exists db', add_prices find ps db = Ok db'.
Proof.
  induction ps as [|p ps IH]; intros db H; cbn [add_prices]; [eauto|]. destruct (H p (or_introl eq_refl)) as [H1 H2]. unfold must_find_commodity.
  destruct (find (p_com_id p)); [|tauto]. destruct (find (p_cur_id p)); [|tauto]. cbn [bind]. apply IH. intros p' I. apply H. right; exact I.
Qed.
Lemma sort_slice_exists {A} (key : A -> Z) (l : list A) : (exists l', sort_slice (fun a b => key a <? key b) l l') /\ (exists l', sort_slice (fun a b => key b <? key a) l l').
Proof.
  split; eexists; split; try apply stable_sort_perm; apply stable_sort_sorted; split; intros; lia.
Qed.
Lemma resolve_prices_total find ps : (forall p, In p ps -> find (p_com_id p) <> None /\ find (p_cur_id p) <> None) -> exists db ps', resolve_prices find ps db ps'.
Proof.
  intros H. destruct (add_prices_total find ps [] H) as (db & E). destruct (proj1 (sort_slice_exists p_time ps)) as (ps' & Hs).
  assert (M : exists db', Forall2 (fun (e e' : commodity * pmap) => fst e = fst e' /\ Forall2 (fun (x x' : commodity * list price) => fst x = fst x' /\ sort_slice (fun a b => p_time b <? p_time a) (snd x) (snd x')) (snd e) (snd e')) db db').
  { clear. induction db as [|[c m] db (db' & IH)]; [exists []; constructor|].
    assert (K : exists m', Forall2 (fun (x x' : commodity * list price) => fst x = fst x' /\ sort_slice (fun a b => p_time b <? p_time a) (snd x) (snd x')) m m').
    { induction m as [|[k l] m (m' & IHm)]; [exists []; constructor|]. destruct (proj2 (sort_slice_exists p_time l)) as (l' & Hl). exists ((k, l') :: m'). constructor; [split; [reflexivity|exact Hl]|exact IHm]. }
    destruct K as (m' & K). exists ((c, m') :: db'). constructor; [split; [reflexivity|exact K]|exact IH]. }
  destruct M as (db' & M). exists db', ps', db. auto.
Qed.

Lemma forallb_exists_false {A} (f : A -> bool) l : forallb f l = false -> exists x, In x l /\ f x = false.
Proof.
  induction l as [|x l IH]; cbn [forallb]; [discriminate|]. destruct (f x) eqn:E; [|intros _; exists x; split; [left; reflexivity|exact E]].
  intros H. destruct (IH H) as (y & I & K). exists y. split; [right; exact I|exact K].
Qed.

(** ** C134 *)
(** Entries that fit together resolve, whatever the orders in which the maps of accounts and prices are iterated and however the
    accounts and prices are sorted; [comm] gives each account its commodity *)
Definition resolves_always (d : db) (es : list event) : Prop :=
  (exists prices prices', resolve_prices (find_comm d) (map to_price (d_prices d)) prices prices') /\
  forall compile fuel comm known o1 o2 o3 o prices,
    Permutation known (base_accounts (map fst (d_accounts d))) -> let names := with_parents known (base_accounts (map fst (d_accounts d))) in
    Permutation o1 names -> Permutation o2 names -> Permutation o3 names -> (forall n, account_exists es n -> account_commodity es n (comm n)) ->
    exists T L ws xs, resolve_accounts fuel (map fst (d_accounts d)) known o1 o2 = Ok (T, names) /\ commodities_known d names comm /\
      load_transactions (must_find_account compile names) comm (book_conv prices o) o3 true empty_ledger (map snd (d_txs d)) = Ok (L, ws, xs).
Lemma fits_resolve d es : holds d es -> plain es -> consistent es -> resolves_always d es.
Proof.
  intros Hd Hp [C1 C2 C3]. split.
  { apply resolve_prices_total. intros p I. destruct Hd as (_ & _ & Ep & _ & _ & _ & Hk & _). rewrite Ep in I. apply in_map_iff in I as (q & <- & Iq). cbn [to_price p_com_id p_cur_id]. rewrite !Hk. apply C2, Iq. }
  intros compile fuel comm known0 o1 o2 o3 o prices Pk names P1 P2 P3 Hc. destruct (holds_names d es Hd) as [Nn _].
  destruct (C38_account_tree _ known0 o1 o2 Nn Pk P1 P2) as (T0 & reached & N & K). destruct (K N (le_n _)) as (_ & Na & Nd & _). fold names in Na, Nd.
  destruct (resolve_tree fuel _ known0 o1 o2 Nn Pk P1 P2) as (T & ET & _). fold names in ET.
  assert (In_ : forall n, In n names <-> account_exists es n) by (intros n; rewrite Nd; apply holds_needed, Hd).
  assert (Na3 : NoDup o3) by (eapply Permutation_NoDup; [apply Permutation_sym, P3|exact Na]).
  destruct (load_total (must_find_account compile names) comm (book_conv prices o) o3 (map snd (d_txs d)) Na3) as (L & ws & xs & EL).
  - apply Forall_forall. intros t It. assert (It' : In t (map snd (ev_txs es))) by (destruct Hd as (<- & _); exact It).
    assert (Fd : forall s, In s (t_postings t) -> must_find_account compile names (ps_account s) = Ok (ps_account s)).
    { intros s Is. apply (proj1 (C32_account_pattern_partial compile names (ps_account s))). apply In_. apply (Hp t s It' Is). }
    assert (Ac : forall s, In s (t_postings t) -> account_commodity es (ps_account s) (comm (ps_account s))) by (intros s Is; apply Hc; apply (Hp t s It' Is)).
    split.
    + intros s Is. exists (ps_account s). split; [apply Fd, Is|]. apply (proj2 (Hp t s It' Is)), Ac, Is.
    + destruct (C3 t It') as [Ho Hn]. cbv zeta in Ho, Hn.
      assert (Dec : (exists c, forall s, In s (t_postings t) -> comm (ps_account s) = c) \/ exists s s', In s (t_postings t) /\ In s' (t_postings t) /\ comm (ps_account s) <> comm (ps_account s')).
      { clear. destruct (t_postings t) as [|s0 l]; [left; exists (mkCommodity 0 [] 0); intros s []|].
        destruct (forallb (fun s => eq_commodity (comm (ps_account s)) (comm (ps_account s0))) (s0 :: l)) eqn:E.
        - left. exists (comm (ps_account s0)). intros s I. rewrite forallb_forall in E. apply eq_commodity_eq. apply E, I.
        - right. apply forallb_exists_false in E as (s & I & E). exists s, s0. split; [exact I|]. split; [left; reflexivity|]. intros F. rewrite F, eq_commodity_refl in E. discriminate. }
      destruct Dec as [(c & Dc)|(s & s' & Is & Is' & D)].
      * left. split; [exists c; intros s a Is Fa; rewrite (Fd s Is) in Fa; injection Fa as <-; apply Dc, Is|].
        apply Ho. exists c. intros s Is. rewrite <- (Dc s Is). apply Ac, Is.
      * right. split; [exists s, s', (ps_account s), (ps_account s'); split; [exact Is|]; split; [exact Is'|]; split; [apply Fd, Is|]; split; [apply Fd, Is'|exact D]|]. apply Hn. intros (c & H). apply D.
        rewrite (account_commodity_fun _ _ _ _ (Ac s Is) (H s Is)), (account_commodity_fun _ _ _ _ (Ac s' Is') (H s' Is')). reflexivity.
  - exists T, L, ws, xs. split; [exact ET|]. split; [|exact EL]. intros n I. apply (holds_commodity _ es); [exact Hd|]. apply Hc, In_, I.
Qed.
Theorem C134_loads : forall w DB es, all_entries w [] (database_files w DB) es -> Forall named es -> plain es -> consistent es ->
  exists limit0, forall limit, (limit0 <= limit)%nat -> exists d, load_files_all limit w DB = Some (Ok d) /\ holds d es /\ resolves_always d es.
Proof.
  intros w DB es He Hn Hp Hc. destruct (C76_loads w _ es He Hn) as (k & K). exists k. intros limit Hl. destruct (K limit Hl) as (d & E & Hd).
  exists d. rewrite load_files_list. split; [exact E|]. split; [exact Hd|]. apply fits_resolve; assumption.
Qed.
Print Assumptions C134_loads.
(** the same from the text of the files *)
Theorem C134_written : forall w DB es, all_say w [] (database_files w DB) es -> plain es -> consistent es ->
  exists limit0, forall limit, (limit0 <= limit)%nat -> exists d, load_files_all limit w DB = Some (Ok d) /\ holds d es /\ resolves_always d es.
Proof.
  intros w DB es He. destruct (says_read w) as (_ & _ & R). destruct (says_named w) as (_ & _ & N). apply C134_loads; [apply R, He|eapply N, He].
Qed.
Print Assumptions C134_written.
(** so there is a book, with the commodities the accounts have *)
Lemma resolves_book limit w DB compile fuel d es : load_files_all limit w DB = Some (Ok d) -> holds d es -> consistent es -> resolves_always d es ->
  exists comm b, load_all limit w DB compile fuel comm b.
Proof.
  intros E Hd Hc ((prices & prices' & Rp) & H).
  set (comm := fun n => match known es (commodity_id_of es n) with Some c => c | None => mkCommodity 0 [] 0 end).
  set (known0 := base_accounts (map fst (d_accounts d))). set (names := with_parents known0 (base_accounts (map fst (d_accounts d)))).
  destruct (H compile fuel comm known0 names names names (fun _ _ m => m) prices) as (T & L & ws & xs & E1 & E2 & E3); try reflexivity.
  { intros n I. destruct (co_accounts es Hc n I) as (c & Ac). apply account_commodity_iff in Ac. apply account_commodity_iff. unfold comm. rewrite Ac. reflexivity. }
  exists comm, (mkBook d prices T names L ws xs), d. split; [exact E|]. exists prices', known0, names, names, names, (fun _ _ m => m).
  cbn [b_prices b_names b_tree b_ledger b_warned b_txs b_db]. split; [exact Rp|]. do 4 (split; [reflexivity|]). split; [exact E1|]. split; [exact E2|].
  split; [intros ? ? ?; reflexivity|]. split; [exact E3|reflexivity].
Qed.
Theorem C134_book : forall w DB compile fuel es, all_entries w [] (database_files w DB) es -> Forall named es -> plain es -> consistent es ->
  exists limit0, forall limit, (limit0 <= limit)%nat -> exists comm b, load_all limit w DB compile fuel comm b.
Proof.
  intros w DB compile fuel es He Hn Hp Hc. destruct (C134_loads w DB es He Hn Hp Hc) as (k & K). exists k. intros limit Hl.
  destruct (K limit Hl) as (d & E & Hd & Hr). eapply resolves_book; eassumption.
Qed.
Print Assumptions C134_book.
(** and nothing else loads: of plainly written entries that do not fit together no book is made *)
Theorem C134_only : forall limit w DB compile fuel comm b es, all_entries w [] (database_files w DB) es -> plain es ->
  load_all limit w DB compile fuel comm b -> consistent es.
Proof.
  intros limit w DB compile fuel comm b es He Hp Hl. assert (Hl' := Hl).
  destruct (C77_load_all _ _ _ _ _ _ _ Hl) as (es' & A1 & A2 & A3 & A4 & A5 & A6 & o & xs & Ho & R & Px & _). assert (es' = es) by (eapply C76_unique; eassumption). subst es'.
  destruct Hl as (d & Hd & prices' & known0 & o1 & o2 & o3 & o' & Rp & Pk & P1 & P2 & P3 & Ra & Ck & Ho' & Rt & Eb). rewrite Eb in A3.
  assert (Ac : forall n, account_exists es n -> account_commodity es n (comm n)).
  { intros n I. apply (holds_commodity d es n); [exact A3|]. apply Ck, A5, I. }
  split.
  - intros n I. eauto.
  - intros p I. destruct A3 as (_ & _ & Ep & _ & _ & _ & Hk & _). rewrite <- !Hk. destruct Rp as (db0 & E0 & _). rewrite Ep in E0.
    assert (I' : In (to_price p) (map to_price (ev_prices es))) by (apply in_map, I).
    replace (pp_commodity p) with (p_com_id (to_price p)) by reflexivity. replace (pp_currency p) with (p_cur_id (to_price p)) by reflexivity.
    clear - E0 I'. revert E0 I'. generalize (@nil (commodity * pmap)) (map to_price (ev_prices es)) (to_price p). intros db1 l q. revert db1.
    induction l as [|x l IH]; intros db1 E0 []; cbn [add_prices] in E0; unfold must_find_commodity in E0.
    + subst x. destruct (find_comm d (p_com_id q)); [|discriminate]. destruct (find_comm d (p_cur_id q)); [|discriminate]. split; discriminate.
    + destruct (find_comm d (p_com_id x)); [|discriminate]. destruct (find_comm d (p_cur_id x)); [|discriminate]. cbn [bind] in E0. eapply IH; eassumption.
  - intros t It.
    assert (Q : exists x, In x xs /\ resolved (must_find_account compile (b_names b)) comm (book_conv (b_prices b) o) (b_ledger b) t x).
    { clear - R It. induction R as [|t' x ts xs Hx H IH]; [destruct It|]. destruct It as [<-|It]; [exists x; split; [left; reflexivity|exact Hx]|].
      destruct (IH It) as (y & I & K). exists y. split; [right; exact I|exact K]. }
    destruct Q as (x & _ & Hr). assert (Hr' := Hr). destruct Hr as (_ & _ & _ & _ & F & Hone & Hmany).
    assert (Fd : forall s, In s (t_postings t) -> must_find_account compile (b_names b) (ps_account s) = Ok (ps_account s)).
    { intros s Is. apply (proj1 (C32_account_pattern_partial compile (b_names b) (ps_account s))). apply A5. apply (Hp t s It Is). }
    assert (Acc : Forall2 (fun s p => rp_acc (heap (b_ledger b) p) = ps_account s /\ exists q, rp_qty (heap (b_ledger b) p) = Some q /\ (forall q', ps_quantity s = Some q' -> q = q')) (t_postings t) (x_posts x)).
    { clear - F Fd. induction F as [|s p ss ps (_ & _ & Ff & _ & Hq & _) F IH]; constructor.
      - split; [|exact Hq]. rewrite (Fd s (or_introl eq_refl)) in Ff. congruence.
      - apply IH. intros s' I. apply Fd. right; exact I. }
    unfold complete. cbv zeta. split.
    + intros (c & Hc). destruct (t_postings t) as [|s0 sr] eqn:Et; [right; split; reflexivity|]. rewrite <- Et in *.
      assert (Hcm : forall s, In s (t_postings t) -> comm (ps_account s) = c) by (intros s Is; eapply account_commodity_fun; [apply Ac, (Hp t s It Is)|apply Hc, Is]).
      assert (One : one_commodity comm (b_ledger b) (x_posts x) c).
      { split; [intros E; rewrite E, Et in Acc; inversion Acc|]. intros p Ip. clear - Acc Ip Hcm. induction Acc as [|s q ss qs (Es & _) Acc IH]; [destruct Ip|]. destruct Ip as [<-|Ip].
        - rewrite Es. apply Hcm. left; reflexivity.
        - apply IH; [intros; apply Hcm; right; assumption|exact Ip]. }
      destruct (Hone c One) as (M & Z0 & Fill).
      destruct (missing (t_postings t)) as [|[|m]] eqn:Em; [|left; reflexivity|lia]. right. split; [reflexivity|].
      assert (Eq : quantities (b_ledger b) (x_posts x) = written (t_postings t)).
      { clear - Acc Em. induction Acc as [|s p ss ps (_ & q & Q1 & Q2) Acc IH]; [reflexivity|]. unfold missing in Em. cbn [filter] in Em. rewrite quantities_cons, Q1. unfold written. cbn [flat_map].
        destruct (ps_quantity s) as [q'|]; [|discriminate Em]. rewrite (Q2 q' eq_refl). f_equal. apply IH. exact Em. }
      rewrite Eq in Z0. destruct Z0 as (z & Z1 & Z2).
      rewrite (add_all_same _ _ (zero_amount c)) in Z1; [injection Z1 as <-; cbn in Z2; exact Z2|].
      apply Forall_forall. intros v Iv. unfold written in Iv. apply in_flat_map in Iv as (u & Iu & Ev). destruct (ps_quantity u) as [qu|] eqn:Eu; [|destruct Ev]. destruct Ev as [<-|[]].
      cbn. exact (proj1 (proj2 (Hp t u It Iu) c (Hc u Iu)) qu Eu).
    + intros Hno. apply Hmany. intros c [_ Hc]. apply Hno. exists c. intros s Is.
      assert (Q : exists p, In p (x_posts x) /\ rp_acc (heap (b_ledger b) p) = ps_account s).
      { clear - Acc Is. induction Acc as [|s0 p ss ps (E & _) Acc IH]; [destruct Is|]. destruct Is as [<-|Is]; [exists p; split; [left; reflexivity|exact E]|].
        destruct (IH Is) as (p' & I & K). exists p'. split; [right; exact I|exact K]. }
      destruct Q as (p & Ip & Ep). rewrite <- (Hc p Ip), Ep. apply Ac, (Hp t s It Is).
Qed.
Print Assumptions C134_only.
(** *** a database in two commodities *)
Definition plain_b (d : db) (s : posting) : bool :=
  mem (ps_account s) (map fst (d_accounts d)) &&
  match find_comm d (commodity_id d (ps_account s)) with
  | Some c => match ps_quantity s with Some q => eq_commodity (a_com q) c | None => true end && match ps_balance s with Some b => eq_commodity (a_com b) c | None => true end
  | None => false
  end.
Lemma plain_dec d es : holds d es -> forallb (fun t => forallb (plain_b d) (t_postings t)) (map snd (d_txs d)) = true -> plain es.
Proof.
  intros Hd H t s It Is. assert (It' : In t (map snd (d_txs d))) by (destruct Hd as (-> & _); exact It).
  rewrite forallb_forall in H. specialize (H t It'). rewrite forallb_forall in H. specialize (H s Is). unfold plain_b in H. apply andb_true_iff in H as [H1 H2].
  split.
  - apply (holds_needed d es); [exact Hd|]. left. unfold mem in H1. apply existsb_exists in H1 as (x & I & E). apply eqb_bytes_eq in E. subst x. exact I.
  - intros c Hc. apply (holds_commodity d es) in Hc; [|exact Hd]. rewrite Hc in H2. apply andb_true_iff in H2 as [H2 H3]. split; intros q E; rewrite E in *; apply eq_commodity_eq; assumption.
Qed.
Example C134_hypotheses : exists es, all_entries ydb [] (database_files ydb []) es /\ Forall named es /\ plain es /\ consistent es /\
  List.length (ev_comms es) = 2%nat /\ List.length (ev_txs es) = 3%nat.
Proof.
  assert (H := ydb_loaded). rewrite load_files_list in H. destruct (C76_in_place _ _ _ _ H) as (es & A1 & A2 & A3). exists es.
  assert (P : plain es) by (apply (plain_dec ydb_db); [exact A3|vm_compute; reflexivity]).
  split; [exact A1|]. split; [exact A2|]. split; [exact P|]. split; [apply (C134_only _ _ _ _ _ _ _ es A1 P (proj1 C126_hypotheses))|].
  destruct A3 as (E1 & _ & _ & _ & _ & _ & _ & _ & _ & E2). cbn [app] in *. split; [rewrite <- E2; vm_compute; reflexivity|rewrite <- E1; vm_compute; reflexivity].
Qed.
(** a small one from its text *)
Definition fit_db : world := small_world
  [(B "commodities.coin", nls ["commodity CAD"]%string); (B "accounts.coin", nls ["account Bank"]%string);
   (B "transactions.coin", nls ["20/1/2"; " Bank  3.00 CAD"; " Unbalanced"]%string)] [].
Definition fit_tx (n : nat) : transaction := mkTransaction (go_date 2020 1 2) [] [] []
  [mkPosting (B "Bank") (Some (mkAmount 300 (mkCommodity 0 (B "CAD") 2))) None []; mkPosting (B "Unbalanced") None None []] n.
Definition fit_says : list event :=
  [mkEvent (B "commodities.coin") (ICommodity (mkPCommodity (B "CAD") [] 2 false [] 1)) (B "CAD");
   mkEvent (B "accounts.coin") (IAccount (mkPAccount (B "Bank") [] (B "CAD") None [] [] [] 1)) (B "CAD");
   mkEvent (B "transactions.coin") (ITransaction (fit_tx 1)) (B "CAD")].
Lemma fit_written : all_say fit_db [] (database_files fit_db []) fit_says.
Proof.
  assert (B0 : S_Written.between []) by constructor.
  replace (database_files fit_db []) with [B "commodities.coin"; B "accounts.coin"; B "transactions.coin"] by (vm_compute; reflexivity).
  apply (as_cons fit_db [] (B "commodities.coin") _ (firstn 1 fit_says) (skipn 1 fit_says)).
  { eapply say_file; [reflexivity|]. cbn [firstn fit_says map].
    eapply (say_entry fit_db [] (B "commodities.coin") 1 [] (ICommodity (mkPCommodity (B "CAD") [] 2 false [] 0)) (B "CAD") [B "commodity CAD"] []).
    - exact B0.
    - apply (ei_commodity (env_after fit_db []) [] (B "CAD") []); [constructor|idd|exact no_trail|constructor].
    - reflexivity.
    - exact I.
    - reflexivity.
    - reflexivity.
    - apply ls_end. constructor. }
  apply (as_cons fit_db _ (B "accounts.coin") _ (firstn 1 (skipn 1 fit_says)) (skipn 2 fit_says)).
  { eapply say_file; [reflexivity|]. cbn [firstn skipn fit_says map].
    eapply (say_entry fit_db _ (B "accounts.coin") 1 [] (IAccount (mkPAccount (B "Bank") [] (B "CAD") None [] [] [] 0)) (B "CAD") [B "account Bank"] []).
    - exact B0.
    - eapply (account_dec (env_after fit_db _) (B " ") (B "Bank") []); [gp|apply (name_dec [B "Bank"]); [discriminate|nm1]|exact no_trail|constructor|reflexivity|reflexivity].
    - reflexivity.
    - exact I.
    - reflexivity.
    - reflexivity.
    - apply ls_end. constructor. }
  change (skipn 2 fit_says) with (skipn 2 fit_says ++ []). apply as_cons; [|constructor].
  eapply say_file; [reflexivity|]. cbn [firstn skipn fit_says map app].
  set (before := [mkEvent (B "commodities.coin") (ICommodity (mkPCommodity (B "CAD") [] 2 false [] 1)) (B "CAD"); mkEvent (B "accounts.coin") (IAccount (mkPAccount (B "Bank") [] (B "CAD") None [] [] [] 1)) (B "CAD")]).
  eapply (say_entry fit_db before (B "transactions.coin") 1 [] (ITransaction (fit_tx 0)) (B "CAD") [B "20/1/2"; B " Bank  3.00 CAD"; B " Unbalanced"] []).
  - exact B0.
  - apply (ei_transaction (env_after fit_db before)).
    apply (transaction_lines_intro (env_after fit_db before) (go_date 2020 1 2) [] [] [] (B "20/1/2") [] [] (t_postings (fit_tx 0)) [[B " Bank  3.00 CAD"]; [B " Unbalanced"]] 0).
    + apply (h_bare _ (go_date 2020 1 2) (B "20/1/2") [] [] []); [|constructor|constructor].
      apply (date_is_ymd _ [2;0] [1] [2]); [left; split; [apply digits_dec; reflexivity|reflexivity]|d12|d12|vm_compute; reflexivity].
    + constructor.
    + discriminate.
    + constructor; [|constructor; [|constructor]].
      * apply (posting_lines_intro _ (B "Bank") (Some (mkAmount 300 (mkCommodity 0 (B "CAD") 2))) None [] _ [] []); [|constructor].
        apply (pl_amount _ (B " ") (B "Bank") (B "  ") _ (B "3.00 CAD") [] []).
        -- gp.
        -- apply (name_dec [B "Bank"]); [discriminate|nm1].
        -- gp.
        -- apply (amount_is_intro (env_after fit_db before) (mkLit false [3] [0;0]) (B " ") (B "CAD") (mkCommodity 0 (B "CAD") 2)); [lit|gp|exact idcad|reflexivity|reflexivity|cbn; lia|cbn; lia].
        -- apply tail_none. constructor.
      * apply (posting_lines_intro _ (B "Unbalanced") None None [] _ [] []); [|constructor].
        apply (pl_bare _ (B " ") (B "Unbalanced") [] []); [gp|apply (name_dec [B "Unbalanced"]); [discriminate|nm1]|apply tail_none; constructor].
  - reflexivity.
  - exact I.
  - reflexivity.
  - reflexivity.
  - apply ls_end. constructor.
Qed.
Example C134_written_hypotheses : all_say fit_db [] (database_files fit_db []) fit_says /\ plain fit_says /\ consistent fit_says.
Proof.
  assert (A : forall n, account_exists fit_says n -> account_commodity fit_says n (mkCommodity 0 (B "CAD") 2)).
  { intros n _. exists (B "CAD"). split; [reflexivity|]. cbn [fit_says ev_accounts flat_map ev_item app last_such rev List.find]. unfold last_such. cbn [rev app List.find].
    unfold declaration, last_such. destruct (eqb_bytes n (B "Unbalanced")); [reflexivity|]. cbn [flat_map ev_item fit_says ev_accounts app rev List.find].
    destruct (eqb_bytes n (pa_name (mkPAccount (B "Bank") [] (B "CAD") None [] [] [] 1))); [left; split; [discriminate|reflexivity]|reflexivity]. }
  split; [exact fit_written|]. split.
  - intros t s [<-|[]] Is. cbn in Is.
    assert (Ex : account_exists fit_says (ps_account s)) by (destruct Is as [<-|[<-|[]]]; [left; left; reflexivity|right; right; left; reflexivity]).
    split; [exact Ex|]. intros c Hc. rewrite (account_commodity_fun _ _ _ _ Hc (A _ Ex)). destruct Is as [<-|[<-|[]]]; split; intros q E; try discriminate E. injection E as <-. reflexivity.
  - split.
    + intros n I. eauto.
    + intros p [].
    + intros t [<-|[]]. unfold complete. cbv zeta. split; intros H; [left; reflexivity|]. exfalso. apply H. exists (mkCommodity 0 (B "CAD") 2). intros s Is. apply A.
      cbn in Is. destruct Is as [<-|[<-|[]]]; [left; left; reflexivity|right; right; left; reflexivity].
Qed.
