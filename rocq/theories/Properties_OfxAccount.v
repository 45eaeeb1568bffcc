(** C157: the account of a bank statement. *)
From Coq Require Import Permutation.
From Verif Require Import Base M_Amount M_Names M_Parser M_Convert M_Ledger M_Rules M_Database S_Database S_Books S_Consistent S_Lists L_Database L_Database2 L_Tree L_Tree2 L_Resolve L_Coin2 M_Coin Properties_Database Properties_Consistent Properties_Coin
  Properties_Lists M_OfxAccount S_OfxAccount S_PriceFiles Properties_PriceFiles Properties_Parser.

Lemma ofx_facts limit w DB compile fuel comm b es : load_all limit w DB compile fuel comm b -> all_entries w [] (database_files w DB) es ->
  (forall n, In n (b_names b) <-> account_exists es n) /\ (forall n, account_read (b_db b) n = declared es n).
Proof.
  intros (d & Hl & prices' & known0 & o1 & o2 & o3 & o & Rp & Pk & P1 & P2 & P3 & Ra & Ck & Ho & Rt & Eb) Hes.
  rewrite load_files_list in Hl. destruct (C76_in_place _ _ _ _ Hl) as (es' & A1 & A2 & A3). assert (es' = es) by (eapply C76_unique; eassumption). subst es'.
  destruct (holds_names d es A3) as [Nn Kd]. assert (En := proj1 (resolve_any _ fuel _ _ _ _ _ _ Nn Pk P1 P2 Ra)). split.
  - intros n. unfold account_exists. rewrite En, (all_needed _ _ n Pk). unfold needed. rewrite (Kd n).
    split; (intros [H|[H|[H|(H & k & Ik & Hk)]]]; auto; right; right; right; split; [exact H|exists k; split; [apply Kd, Ik|exact Hk]]).
  - intros n. rewrite Eb. destruct A3 as (_ & _ & _ & _ & Ha & _). unfold account_read, declared. rewrite Ha. reflexivity.
Qed.
Lemma ofx_test limit w DB compile fuel comm b es n id : load_all limit w DB compile fuel comm b -> all_entries w [] (database_files w DB) es ->
  (In n (b_names b) /\ eqb_bytes (match account_read (b_db b) n with Some a => pa_acctid a | None => [] end) id = true) <-> has_ofx_id es n id.
Proof.
  intros Hl He. destruct (ofx_facts _ _ _ _ _ _ _ _ Hl He) as [In_ Rd]. unfold has_ofx_id. rewrite In_, Rd, eqb_bytes_iff. destruct (declared es n) as [a|]; [reflexivity|]. intuition.
Qed.

(** ** C157 *)
(** the account found has the id; if no account has it none is found; if only one has, it is found for every order of the accounts *)
Theorem C157_account_of_statement_partial : forall limit w DB compile fuel comm b es, load_all limit w DB compile fuel comm b ->
  all_entries w [] (database_files w DB) es -> forall order, Permutation order (b_names b) -> forall id,
  (forall n, find_account_of_ofx_id (b_db b) order id = Some n -> has_ofx_id es n id) /\
  (find_account_of_ofx_id (b_db b) order id = None <-> forall n, ~ has_ofx_id es n id) /\
  (forall n, has_ofx_id es n id -> (forall m, has_ofx_id es m id -> m = n) -> find_account_of_ofx_id (b_db b) order id = Some n).
Proof.
  intros limit w DB compile fuel comm b es Hl He order Po id. set (test := fun n => eqb_bytes (match account_read (b_db b) n with Some a => pa_acctid a | None => [] end) id).
  assert (T : forall n, In n order /\ test n = true <-> has_ofx_id es n id).
  { intros n. rewrite <- (ofx_test _ _ _ _ _ _ _ _ n id Hl He). split; intros [I E]; (split; [|exact E]); (eapply Permutation_in; [|exact I]); [exact Po|apply Permutation_sym, Po]. }
  assert (A : forall n, find_account_of_ofx_id (b_db b) order id = Some n -> has_ofx_id es n id).
  { intros n E. apply T. apply List.find_some in E. exact E. }
  assert (N : find_account_of_ofx_id (b_db b) order id = None -> forall n, ~ has_ofx_id es n id).
  { intros E n H. apply T in H as [I H]. pose proof (List.find_none _ _ E n I) as K. cbv beta in K. unfold test in H. congruence. }
  split; [exact A|]. split.
  - split; [exact N|]. intros H. destruct (find_account_of_ofx_id (b_db b) order id) as [n|] eqn:E; [|reflexivity]. destruct (H n). apply A, eq_refl.
  - intros n H U. destruct (find_account_of_ofx_id (b_db b) order id) as [m|] eqn:E; [rewrite (U m (A m eq_refl)); reflexivity|]. destruct (N eq_refl n H).
Qed.
Print Assumptions C157_account_of_statement_partial.
(** so a statement whose id has no rules is imported to the only account with the id, without rules, and refused if there is none *)
Theorem C157_without_rules : forall limit w DB compile fuel comm b es, load_all limit w DB compile fuel comm b ->
  all_entries w [] (database_files w DB) es -> forall order, Permutation order (b_names b) -> forall ri id, (forall ars, ~ In (id, ars) (ri_accounts ri)) ->
  ((forall n, ~ has_ofx_id es n id) -> account_rules_for (find_account_of_ofx_id (b_db b) order) ri id = Fail) /\
  (forall n, has_ofx_id es n id -> (forall m, has_ofx_id es m id -> m = n) -> account_rules_for (find_account_of_ofx_id (b_db b) order) ri id = Ok (mkARules n [])).
Proof.
  intros limit w DB compile fuel comm b es Hl He order Po ri id Nr. destruct (C157_account_of_statement_partial _ _ _ _ _ _ _ _ Hl He order Po id) as (_ & N & U).
  assert (E : alookup id (ri_accounts ri) = None).
  { revert Nr. generalize (ri_accounts ri). induction l as [|[k v] l IH]; intros Nr; [reflexivity|]. cbn [alookup]. destruct (eqb_bytes id k) eqn:Ek.
    - apply eqb_bytes_iff in Ek. subst k. destruct (Nr v). left; reflexivity.
    - apply IH. intros ars I. apply (Nr ars). right; exact I. }
  unfold account_rules_for. rewrite E. split; intros; [rewrite (proj2 N) by assumption; reflexivity|erewrite U by eassumption; reflexivity].
Qed.
Print Assumptions C157_without_rules.
(** a statement without an account id has several accounts, and which is taken depends on the order of the map *)
Theorem C157_no_id_refuted : forall limit w DB compile fuel comm b es, load_all limit w DB compile fuel comm b ->
  all_entries w [] (database_files w DB) es -> (forall a, In a (ev_accounts es) -> pa_name a <> B "Root") ->
  exists order order', Permutation order (b_names b) /\ Permutation order' (b_names b) /\
    find_account_of_ofx_id (b_db b) order [] <> find_account_of_ofx_id (b_db b) order' [].
Proof.
  intros limit w DB compile fuel comm b es Hl He Nr. destruct (ofx_facts _ _ _ _ _ _ _ _ Hl He) as [In_ Rd].
  assert (D1 : declared es (B "Root") = None).
  { unfold declared. cbn [eqb_bytes]. destruct (eqb_bytes (B "Root") (B "Unbalanced")) eqn:E; [reflexivity|]. unfold last_such. destruct (List.find _ (rev (ev_accounts es))) as [a|] eqn:F; [|reflexivity].
    apply List.find_some in F as [I F]. apply in_rev in I. apply eqb_bytes_iff in F. destruct (Nr a I). symmetry. exact F. }
  assert (D2 : declared es (B "Unbalanced") = None) by reflexivity.
  assert (X : forall n, account_exists es n -> declared es n = None -> exists order, Permutation order (b_names b) /\ find_account_of_ofx_id (b_db b) order [] = Some n).
  { intros n A D. apply In_ in A. apply in_split in A as (l1 & l2 & El). exists (n :: l1 ++ l2). split; [rewrite El; apply Permutation_middle|].
    unfold find_account_of_ofx_id. cbn [List.find]. rewrite Rd, D. reflexivity. }
  destruct (X (B "Root")) as (o1 & P1 & E1); [right; left; reflexivity|exact D1|]. destruct (X (B "Unbalanced")) as (o2 & P2 & E2); [right; right; left; reflexivity|exact D2|].
  exists o1, o2. split; [exact P1|]. split; [exact P2|]. rewrite E1, E2. discriminate.
Qed.
Print Assumptions C157_no_id_refuted.
(** a database with an account of a bank *)
Definition odb : world := small_world
  [(B "commodities.coin", nls ["commodity CAD"; "  format 1.00 CAD"]%string); (B "prices.coin", []);
   (B "accounts.coin", nls ["account Assets:Bank"; "  commodity CAD"; "  ofx_acctid 0123"; ""; "account Expenses:Food"]%string);
   (B "transactions.coin", nls ["2020/01/02 late"; "  Expenses:Food  2.50 CAD"; "  Assets:Bank"]%string)] [].
Definition odb_db : db := match load_files_all 5 odb [] with Some (Ok d) => d | _ => empty_db end.
Example C157_hypotheses : exists b es, load_all 5 odb [] xcompile 5 (fun _ => pcad) b /\ all_entries odb [] (database_files odb []) es /\
  has_ofx_id es (B "Assets:Bank") (B "0123") /\ (forall m, has_ofx_id es m (B "0123") -> m = B "Assets:Bank") /\ (forall m, ~ has_ofx_id es m (B "123")) /\
  (forall a, In a (ev_accounts es) -> pa_name a <> B "Root").
Proof.
  assert (L : load_files_all 5 odb [] = Some (Ok odb_db)) by (vm_compute; reflexivity).
  destruct (load_any 5 odb [] xcompile (fun _ => pcad) odb_db 5 xnames (base_accounts (map fst (d_accounts odb_db))) xo [] [] L) as (b & Hb & _).
  { exists []. split; [vm_compute; reflexivity|]. split; [constructor|]. split; [vm_compute; constructor|constructor]. }
  { intros ? ? ?; reflexivity. }
  { reflexivity. }
  { vm_compute. reflexivity. }
  { intros n I. unfold xnames in I. repeat (destruct I as [<-|I]; [vm_compute; reflexivity|]). destruct I. }
  { match goal with |- match ?r with _ => _ end => assert (X : match r with Ok _ => true | _ => false end = true) by (vm_compute; reflexivity); destruct r; [exact I|discriminate|discriminate] end. }
  assert (H := L). rewrite load_files_list in H. destruct (C76_in_place _ _ _ _ H) as (es & A1 & _ & A3). destruct A3 as (_ & _ & _ & _ & Ha & _).
  exists b, es. split; [exact Hb|]. split; [exact A1|].
  assert (D : forall m, declared es m = account_read odb_db m) by (intros m; unfold account_read, declared; rewrite Ha; reflexivity).
  assert (U : forall m a, declared es m = Some a -> (m = B "Assets:Bank" /\ pa_acctid a = B "0123") \/ pa_acctid a = []).
  { intros m a E. rewrite D in E. unfold account_read in E. destruct (eqb_bytes m _); [discriminate|].
    assert (I : In (m, a) (d_accounts odb_db)). { revert E. generalize (d_accounts odb_db). induction l as [|[k v] l IH]; [discriminate|]. cbn [lookup]. destruct (eqb_bytes m k) eqn:Ek; [apply eqb_bytes_iff in Ek; intros [= <-]; subst; left; reflexivity|right; auto]. }
    vm_compute in I. repeat (destruct I as [I|I]; [injection I as <- <-; auto|]). destruct I. }
  split; [|split; [|split]].
  - split; [|rewrite D; vm_compute; reflexivity]. assert (E : declared es (B "Assets:Bank") <> None) by (rewrite D; vm_compute; discriminate). left.
    unfold declared in E. cbn in E. change (last_such (fun a => eqb_bytes (B "Assets:Bank") (pa_name a)) (ev_accounts es) <> None) in E. unfold last_such in E.
    destruct (List.find _ (rev (ev_accounts es))) as [a|] eqn:F; [|congruence]. apply List.find_some in F as [I F]. apply in_rev in I. apply eqb_bytes_iff in F. rewrite F. apply in_map, I.
  - intros m (_ & E). destruct (declared es m) as [a|] eqn:Dm; [|discriminate]. destruct (U m a Dm) as [[-> _]|K]; [reflexivity|]. rewrite K in E. discriminate.
  - intros m (_ & E). destruct (declared es m) as [a|] eqn:Dm; [|discriminate]. destruct (U m a Dm) as [[_ K]|K]; rewrite K in E; discriminate.
  - intros a I E. assert (N : lookup (B "Root") (d_accounts odb_db) = None) by (vm_compute; reflexivity). rewrite Ha in N. unfold last_such in N. apply in_rev in I.
    pose proof (List.find_none _ _ N a I) as K. cbv beta in K. rewrite E, eqb_bytes_refl in K. discriminate.
Qed.
