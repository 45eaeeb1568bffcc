(** What a loaded database is, and its postings as rows of the files. *)
From Coq Require Import Permutation Sorted.
From Verif Require Import Base M_Amount M_Convert M_Date M_Names M_Tags M_Parser M_Ledger M_Report M_Database M_Output M_Coin
  S_Decimal S_Amount S_Names S_Books S_Report S_Database S_Output S_Coin L_Dec L_Sort L_Amount L_Tree L_Tree2 L_Balance L_Registers L_Resolve L_Load L_Recheck L_Database L_Database2 L_Output L_Output2 L_Entries L_Report L_Coin
  Properties_Names Properties_Ledger Properties_Tree Properties_Report Properties_Database Properties_Output.
Local Open Scope Z_scope.

Lemma known_from_id n es c : ev_comms es = [c] -> forall id x, known_from n None es id = Some x -> id = pc_id c.
Proof.
  revert n. induction es as [|v es IH]; intros n H id x K; [discriminate|]. cbn [known_from ev_comms flat_map] in *.
  destruct (ev_item v); try (eapply IH; [exact H|exact K]). cbn [app] in H. injection H as -> H. rewrite known_single in K; [|unfold ev_comms; rewrite H; reflexivity].
  destruct (eqb_bytes id (pc_id c)) eqn:E; [apply eqb_bytes_iff, E|discriminate].
Qed.
Lemma known_id es c id x : ev_comms es = [c] -> known es id = Some x -> id = pc_id c.
Proof. intros H. apply known_from_id, H. Qed.
Lemma report_keys fuel conv comm T sel account totals cum : balance_report fuel conv comm T sel account = Ok (totals, cum) ->
  forall x v, bget x totals = Some v \/ bget x cum = Some v -> In x (with_children fuel (t_children T) account).
Proof.
  intros H x v Hv. unfold balance_report in H. apply bind_ok in H as (t & E1 & H). apply bind_ok in H as (m & E2 & H). injection H as -> ->.
  destruct (own_keys _ _ _ _ _ _ E1 (NoDup_nil _)) as [N1 K1]. destruct (cum_keys _ _ _ _ _ E2 N1) as [N2 K2].
  destruct Hv as [Hv|Hv]; apply bget_some_in, (in_map fst) in Hv; cbn [fst] in Hv; [|apply K2 in Hv]; apply K1 in Hv; destruct Hv as [Hv|[]]; exact Hv.
Qed.
Lemma book_facts_from limit w files compile fuel comm b es : load_from limit w files compile fuel comm b -> all_entries w [] files es ->
  let find := must_find_account compile (b_names b) in
  exists o xs, order_ok o /\ tree_of (b_names b) (b_tree b) /\
    (forall a, In a (b_names b) -> known es (commodity_id (b_db b) a) = Some (comm a)) /\
    (forall n a, find n = Ok a -> In a (b_names b)) /\
    Permutation xs (b_txs b) /\ Forall2 (resolved find comm (book_conv (b_prices b) o) (b_ledger b)) (map snd (ev_txs es)) xs /\
    NoDup (flat_map x_posts xs) /\ (forall a, dated_version (dates (b_ledger b)) (made_to (b_ledger b) a xs) (reg (b_ledger b) a)) /\
    (forall x p, In x xs -> In p (x_posts x) -> In (rp_acc (heap (b_ledger b) p)) (b_names b)) /\
    exists names known o1 o2, NoDup names /\ Permutation known (base_accounts names) /\ with_parents known (base_accounts names) = b_names b /\
      Permutation o1 (b_names b) /\ Permutation o2 (b_names b) /\ forall fuel', resolve_accounts fuel' names known o1 o2 = Ok (b_tree b, b_names b).
Proof.
  intros (d & Hl & prices' & known0 & o1 & o2 & o3 & o & Rp & Pk & P1 & P2 & P3 & Ra & Ck & Ho & Rt & Eb) Hes find.
  destruct (C76_in_place _ _ _ _ Hl) as (es' & A1 & A2 & A3). assert (es' = es) by (eapply C76_unique; eassumption). subst es'.
  destruct (holds_names d es A3) as [Nn In_]. exists o.
  assert (Eall := proj1 (resolve_any _ fuel _ _ _ _ _ _ Nn Pk P1 P2 Ra)).
  assert (P1' : Permutation o1 (with_parents known0 (base_accounts (map fst (d_accounts d))))) by (rewrite <- Eall; exact P1).
  assert (P2' : Permutation o2 (with_parents known0 (base_accounts (map fst (d_accounts d))))) by (rewrite <- Eall; exact P2).
  destruct (C38_account_tree _ known0 o1 o2 Nn Pk P1' P2') as (T & reached & N1 & K). destruct (K N1 (le_n _)) as (_ & Na & _). clear K T reached.
  rewrite <- Eall in Na.
  destruct (resolve_tree fuel _ known0 o1 o2 Nn Pk P1' P2') as (T' & E' & HT & Hroot). rewrite <- Eall in E', HT, Hroot. assert (T' = b_tree b) by congruence. subst T'.
  assert (Hfind : forall n a, find n = Ok a -> In a (b_names b)).
  { intros n a Hn. destruct (C32_account_pattern_partial compile (b_names b) n) as (_ & K2 & _). destruct (K2 a Hn) as [I _]. exact I. }
  assert (Na3 : NoDup o3) by (eapply Permutation_NoDup; [apply Permutation_sym, P3|exact Na]).
  assert (Hld : load_transactions find comm (book_conv (b_prices b) o) o3 true empty_ledger (map snd (ev_txs es)) = Ok (b_ledger b, b_warned b, b_txs b)).
  { unfold load_transactions. destruct A3 as (<- & _). exact Rt. }
  destruct (C34_registers _ _ _ _ _ _ _ _ _ _ empty_ok Na3 Hld) as (Hok & xs & Px & Rx & Nd & Hreg). exists xs.
  split; [exact Ho|]. split; [exact HT|]. split.
  { intros a Ia. specialize (Ck a Ia). destruct A3 as (_ & _ & _ & _ & _ & _ & Hk & _). rewrite Hk in Ck. rewrite Eb. exact Ck. }
  split; [exact Hfind|]. split; [exact Px|]. split; [exact Rx|]. split; [exact Nd|]. split; [intros a; apply (Hreg a)|].
  split; [|exists (map fst (d_accounts d)), known0, o1, o2; split; [exact Nn|]; split; [exact Pk|]; split; [symmetry; exact Eall|]; split; [rewrite Eall; exact P1'|]; split; [rewrite Eall; exact P2'|];
    intros fuel'; exact (proj2 (resolve_any _ fuel' _ _ _ _ _ _ Nn Pk P1 P2 Ra))].
  intros x p Ix Ip. clear -Rx Ix Ip Hfind. induction Rx as [|t y ts xs Ry R IH]; [destruct Ix|].
  destruct Ix as [->|Ix]; [|auto]. destruct Ry as (_ & _ & _ & _ & Ry & _). clear - Ry Ip Hfind. induction Ry as [|s q ss qs (_ & _ & Hs & _) Ry IH]; [destruct Ip|].
  destruct Ip as [->|Ip]; [|auto]. eapply Hfind; eauto.
Qed.
Lemma load_all_from limit w DB compile fuel comm b : load_all limit w DB compile fuel comm b <-> load_from limit w (database_files w DB) compile fuel comm b.
Proof. unfold load_all, load_from. rewrite load_files_list. reflexivity. Qed.
Definition book_facts limit w DB compile fuel comm b es (H : load_all limit w DB compile fuel comm b) := book_facts_from limit w (database_files w DB) compile fuel comm b es (proj1 (load_all_from _ _ _ _ _ _ _) H).
(** with one commodity *)
Lemma one_facts limit w DB compile fuel comm b es c : load_all limit w DB compile fuel comm b -> all_entries w [] (database_files w DB) es -> ev_comms es = [c] ->
  let com := mkCommodity 0 (pc_id c) (pc_dec c) in
  (forall a, In a (b_names b) -> comm a = com /\ commodity_id (b_db b) a = pc_id c) /\ tree_of (b_names b) (b_tree b) /\
  (forall n a, must_find_account compile (b_names b) n = Ok a -> In a (b_names b)) /\
  (forall t, In t (map snd (ev_txs es)) -> in_account_commodity (must_find_account compile (b_names b)) comm t).
Proof.
  intros Hl Hes Hc com. destruct (book_facts _ _ _ _ _ _ _ _ Hl Hes) as (_ & _ & _ & HT & Hk & Hfind & _).
  assert (Hcm : forall a, In a (b_names b) -> comm a = com /\ commodity_id (b_db b) a = pc_id c).
  { intros a Ia. specialize (Hk a Ia). split; [|exact (known_id es c _ _ Hc Hk)]. apply (known_prefix_one es [] c _ _) in Hk; [exact Hk|rewrite app_nil_r; exact Hc]. }
  split; [exact Hcm|]. split; [exact HT|]. split; [exact Hfind|].
  intros t It s q a Is Eq Ef. rewrite (proj1 (Hcm a (Hfind _ _ Ef))). apply in_map_iff in It as ([f t'] & Et & It). cbn [snd] in Et. subst t'. unfold ev_txs in It. apply in_flat_map in It as (v & Iv & It).
  destruct (ev_item v) as [t0| | | | |] eqn:Ev; try contradiction. destruct It as [It|[]]. injection It as _ ->.
  apply in_split in Iv as (es1 & es2 & Ees). destruct (entries_known w) as (_ & _ & Kn). specialize (Kn [] _ es Hes es1 v es2 t Ees Ev). cbn [app] in Kn.
  rewrite Forall_forall in Kn. destruct (Kn s Is) as [Kq _]. destruct (Kq q Eq) as [id Hid]. eapply known_prefix_one; [|exact Hid]. rewrite <- Ees. exact Hc.
Qed.
Lemma in_names names T acc x : tree_of names T -> In acc names -> under (t_parent T) acc x -> In x names.
Proof.
  intros HT Ha U. apply (reach_in _ _ HT (S (bound names)) acc); [exact Ha|]. apply (reach_under _ _ HT); [lia|exact Ha|exact U].
Qed.

(** ** Postings and rows *)
Lemma fun_of {A} (l : list nat) (m : list A) (d : A) : NoDup l -> List.length l = List.length m -> exists f, map f l = m.
Proof.
  intros N. revert m. induction N as [|p l I N IH]; intros [|r m] E; try discriminate; [exists (fun _ => d); reflexivity|]. injection E as E.
  destruct (IH m E) as (f & <-). exists (fun q => if (q =? p)%nat then r else f q). cbn [map]. rewrite Nat.eqb_refl. f_equal.
  apply map_ext_in. intros q Iq. destruct (Nat.eqb_spec q p) as [-> |]; [contradiction|reflexivity].
Qed.
Lemma forall2_map_in {A C} (R : A -> C -> Prop) f l : Forall2 R l (map f l) -> forall p, In p l -> R p (f p).
Proof.
  induction l as [|q l IH]; intros F p [] ; cbn [map] in F; inversion F; subst; auto.
Qed.
Lemma forall2_len' {A C} (R : A -> C -> Prop) l m : Forall2 R l m -> List.length l = List.length m.
Proof. induction 1; cbn [List.length]; congruence. Qed.
Lemma Forall2_impl' {A C} (P Q : A -> C -> Prop) l m : (forall x y, P x y -> Q x y) -> Forall2 P l m -> Forall2 Q l m.
Proof. intros H. induction 1; constructor; auto. Qed.
Lemma nth_rows (t : transaction) (l : list nat) k : Forall2 (fun p r => fst r = t /\ exists i, snd r = (k + i)%nat /\ nth_error l i = Some p) l (map (pair t) (seq k (List.length l))).
Proof.
  revert k. induction l as [|p l IH]; intros k; cbn [List.length seq map]; constructor.
  - split; [reflexivity|]. exists 0%nat. cbn [snd nth_error]. split; [lia|reflexivity].
  - specialize (IH (S k)). eapply Forall2_impl'; [|exact IH]. intros q r (E & i & Ei & En). split; [exact E|]. exists (S i). split; [lia|exact En].
Qed.
Section Rows.
Context (find : bytes -> res bytes) (comm : bytes -> commodity) (conv : conversion) (rexm : bytes -> bytes -> bool) (L : ledger) (tx_of : nat -> rtx).
Context (ts : list transaction) (xs : list rtx).
Hypothesis HR : Forall2 (resolved find comm conv L) ts xs.
Hypothesis HN : NoDup (flat_map x_posts xs).
Hypothesis HX : forall x p, In x xs -> In p (x_posts x) -> tx_of p = x.
Hypothesis HQ : forall t, In t ts -> in_account_commodity find comm t.
Definition row_at (p : nat) (r : row) : Prop := exists x, In (fst r) ts /\ In x xs /\ resolved find comm conv L (fst r) x /\ nth_error (x_posts x) (snd r) = Some p.
Lemma rows_rel : Forall2 row_at (flat_map x_posts xs) (rows_of ts).
Proof.
  assert (G : forall ts' xs', Forall2 (resolved find comm conv L) ts' xs' -> (forall t, In t ts' -> In t ts) -> (forall x, In x xs' -> In x xs) -> Forall2 row_at (flat_map x_posts xs') (rows_of ts')).
  { induction 1 as [|t x ts' xs' R F IH]; intros It Ix; [constructor|]. unfold rows_of. cbn [flat_map]. apply Forall2_app; [|apply IH; intros; [apply It|apply Ix]; right; assumption].
    pose proof R as R'. destruct R as (_ & _ & _ & _ & R & _). rewrite (forall2_len' _ _ _ R). eapply Forall2_impl'; [|apply nth_rows].
    intros p r (E & i & Ei & En). exists x. rewrite E, Ei. split; [apply It; left; reflexivity|]. split; [apply Ix; left; reflexivity|]. split; [exact R'|exact En]. }
  apply G; auto.
Qed.
Lemma row_facts p r : row_at p r -> exists x s, tx_of p = x /\ In x xs /\ In (fst r) ts /\ resolved find comm conv L (fst r) x /\ In p (x_posts x) /\ nth_error (x_posts x) (snd r) = Some p /\
  posting_of r = Some s /\ resolves find L (row_date r) s p /\ rp_qty (heap L p) = Some (mkAmount (row_value r) (comm (rp_acc (heap L p)))).
Proof.
  intros (x & It & Ix & R & En). pose proof (nth_error_In _ _ En) as Ip. exists x.
  pose proof (value_resolved _ _ _ _ _ _ R (HQ _ It)) as V.
  pose proof R as R'. destruct R as (_ & _ & _ & _ & F & _).
  assert (exists s, nth_error (t_postings (fst r)) (snd r) = Some s /\ resolves find L (row_date r) s p /\ rp_qty (heap L p) = Some (mkAmount (value_of (fst r) s) (comm (rp_acc (heap L p))))) as (s & Es & Rs & Rv).
  { clear -F V En. unfold row_date. revert V En. generalize (value_of (fst r)). intros vf. generalize (snd r). induction F as [|s q ss qs R F IH]; intros [|k] V En; try discriminate; inversion V; subst.
    - injection En as ->. exists s. cbn [nth_error]. auto.
    - apply IH; assumption. }
  exists s. unfold posting_of, row_value. unfold posting_of. rewrite Es. split; [apply HX; assumption|]. auto 10.
Qed.
Lemma chosen_at begin end_ tag payee a p r : row_at p r ->
  row_chosen rexm begin end_ tag payee find a r = selected rexm (dates L) (posting_info L tx_of) begin end_ tag payee p && eqb_bytes (rp_acc (heap L p)) a.
Proof.
  intros H. destruct (row_facts p r H) as (x & s & Ex & _ & _ & R & _ & _ & Es & (Rd & _ & Rf & Rn & _) & _). destruct R as (_ & _ & Ed & En & _).
  unfold row_chosen, selected, posting_info, dates, goes_to. cbn [pi_desc]. rewrite Es, Ex, Rd, Rf, Rn, Ed, En. reflexivity.
Qed.
Lemma other_at p r q : row_at p r -> first_other (x_posts (tx_of p)) p q -> exists s, nth_error (t_postings (fst r)) (if (snd r =? 0)%nat then 1 else 0) = Some s /\ find (ps_account s) = Ok (rp_acc (heap L q)).
Proof.
  intros H (Nq & l & m & El & Fl). destruct (row_facts p r H) as (x & s & Ex & Ix & _ & R & _ & En & _). rewrite Ex in El. clear Ex.
  assert (Nx : NoDup (x_posts x)). { apply in_split in Ix as (u & v & Eu). pose proof HN as N. rewrite Eu, flat_map_app in N. apply NoDup_app_iff in N as (_ & N & _). cbn [flat_map] in N. apply NoDup_app_iff in N as (N & _). exact N. }
  assert (E1 : nth_error (x_posts x) (if (snd r =? 0)%nat then 1 else 0) = Some q).
  { rewrite El in Nx, En |- *. destruct l as [|p1 [|p2 l]].
    - cbn [app] in *. destruct (snd r) as [|k]; cbn [nth_error Nat.eqb] in *; [injection En as ->; congruence|reflexivity].
    - inversion Fl; subst. cbn [app] in *. destruct (snd r) as [|k]; [reflexivity|]. cbn [nth_error] in En. inversion Nx as [|? ? N1 N2]; subst. exfalso. apply N1. eapply nth_error_In, En.
    - inversion Fl as [|? ? F1 F2]; subst. inversion F2; subst. cbn [app] in Nx. inversion Nx as [|? ? N1 N2]; subst. exfalso. apply N1. left. reflexivity. }
  destruct R as (_ & _ & _ & _ & F & _). clear -F E1. revert E1. generalize (if (snd r =? 0)%nat then 1%nat else 0%nat). induction F as [|s p' ss ps (_ & _ & Rf & _) F IH]; intros [|k] E; try discriminate.
  - injection E as ->. exists s. split; [reflexivity|exact Rf].
  - apply IH, E.
Qed.
Lemma two_other p r : row_at p r -> (2 <= List.length (t_postings (fst r)))%nat -> exists q, first_other (x_posts (tx_of p)) p q.
Proof.
  intros H Hl. destruct (row_facts p r H) as (x & s & -> & Ix & _ & R & Ip & _).
  assert (Nx : NoDup (x_posts x)). { apply in_split in Ix as (u & v & Eu). pose proof HN as N. rewrite Eu, flat_map_app in N. apply NoDup_app_iff in N as (_ & N & _). cbn [flat_map] in N. apply NoDup_app_iff in N as (N & _). exact N. }
  destruct R as (_ & _ & _ & _ & F & _). apply forall2_len' in F. rewrite F in Hl. destruct (x_posts x) as [|p1 [|p2 l]]; cbn [List.length] in Hl; try lia.
  destruct (Nat.eq_dec p p1) as [-> |N].
  - exists p2. split; [intros ->; inversion Nx as [|? ? N1 _]; subst; apply N1; left; reflexivity|]. exists [p1], l. split; [reflexivity|repeat constructor].
  - exists p1. split; [congruence|]. exists [], (p2 :: l). split; [reflexivity|constructor].
Qed.
Lemma rows_fun : exists phi, map phi (flat_map x_posts xs) = rows_of ts /\ forall p, In p (flat_map x_posts xs) -> row_at p (phi p).
Proof.
  destruct (fun_of (flat_map x_posts xs) (rows_of ts) (mkTransaction 0 [] [] [] [] 0, 0%nat) HN (forall2_len' _ _ _ rows_rel)) as (f & E). exists f. split; [exact E|].
  apply forall2_map_in. rewrite E. apply rows_rel.
Qed.
End Rows.
