(** Loading a database meets the entries of S_Database.v, and only finitely nested includes load. *)
From Verif Require Import Base M_Amount M_Regex M_Date M_Parser M_Writer M_Database S_Ledger S_Database L_Dec L_RoundTrip L_Entries L_Local.

Lemma eqb_bytes_refl a : eqb_bytes a a = true.
Proof. apply eqb_bytes_eq. reflexivity. Qed.
(** ** reading depends on what the commodity table answers *)
Lemma must_find_ext e e' id : (forall i, e_find e i = e_find e' i) -> must_find e id = must_find e' id.
Proof. intros H. unfold must_find. rewrite H. reflexivity. Qed.
Lemma tx_loop_ext e e' : (forall i, e_find e i = e_find e' i) -> forall lines nr tn ps pend, tx_loop e lines nr tn ps pend = tx_loop e' lines nr tn ps pend.
Proof.
  intros H. induction lines as [|l rest IH]; intros; cbn [tx_loop]; [reflexivity|].
  destruct (rsearch postingREX l) as [[rs cs]|]; [|reflexivity]. destruct (cap "note" cs); [|apply IH].
  rewrite !(fun id => must_find_ext e e' id H).
  match goal with |- bind ?a _ = bind ?b _ => change b with a; destruct a as [q| |]; cbn [bind]; [|reflexivity..] end.
  match goal with |- bind ?a _ = bind ?b _ => change b with a; destruct a as [x| |]; cbn [bind]; [|reflexivity..] end.
  match goal with |- bind ?a _ = bind ?b _ => change b with a; destruct a as [b0| |]; cbn [bind]; [|reflexivity..] end.
  apply IH.
Qed.
Lemma account_loop_ext e e' : e_today e = e_today e' -> forall lines nr a, account_loop e lines nr a = account_loop e' lines nr a.
Proof.
  intros H. induction lines as [|l rest IH]; intros; cbn [account_loop]; [reflexivity|].
  destruct (body_ends l); [reflexivity|]. destruct (rsearch accountBodyREX l) as [[rs cs]|]; [|reflexivity]. rewrite H.
  match goal with |- bind ?a _ = bind ?b _ => change b with a; destruct a as [q| |]; cbn [bind]; [|reflexivity..] end. apply IH.
Qed.
Lemma next_ext e e' : (forall i, e_find e i = e_find e' i) -> e_default e = e_default e' -> e_today e = e_today e' ->
  forall p, next e p = next e' p.
Proof.
  intros H1 H2 H3 [lines nr]. unfold next. cbn [p_lines p_nr]. revert nr. induction lines as [|l rest IH]; intros nr; cbn [next_lines]; [reflexivity|].
  destruct (blank l); [apply IH|]. destruct l as [|c l]; [reflexivity|]. destruct (existsb (eqc c) (B ";#%|*")); [apply IH|]. clear IH.
  destruct (has_prefix (B "include") (c :: l)); [rewrite H2; reflexivity|].
  destruct (has_prefix (B "account") (c :: l)); [unfold parse_account; rewrite H2, (account_loop_ext e e' H3); reflexivity|].
  destruct (has_prefix (B "commodity ") (c :: l)); [unfold parse_commodity; rewrite H2; reflexivity|].
  destruct (has_prefix (B "test ") (c :: l)); [rewrite H2; reflexivity|].
  destruct (has_prefix (B "P ") (c :: l)).
  { unfold parse_price. rewrite H2, H3. destruct (rsearch priceREX (c :: l)) as [[rs cs]|]; [|reflexivity]. rewrite (must_find_ext e e' _ H1). reflexivity. }
  destruct (is_digit c); [|reflexivity]. unfold parse_transaction. rewrite H2, H3. destruct (rsearch transactionREX (c :: l)) as [[rs cs]|]; [|reflexivity].
  destruct (must_parse_date (e_today e') cs); [|reflexivity..]. cbn [bind]. rewrite (tx_loop_ext e e' H1). reflexivity.
Qed.

(** ** where an entry ends, and which includes there are, does not depend on the commodities known *)
Lemma tx_loop_same e e' lines : forall nr tn ps pend r tn' ps' pend' r',
  tx_loop e lines nr tn ps pend = Ok r -> tx_loop e' lines nr tn' ps' pend' = Ok r' -> snd r = snd r'.
Proof.
  induction lines as [|l rest IH]; intros nr tn ps pend r tn' ps' pend' r' H H'; cbn [tx_loop] in H, H'.
  - injection H as <-. injection H' as <-. reflexivity.
  - destruct (rsearch postingREX l) as [[rs cs]|]; [|injection H as <-; injection H' as <-; reflexivity].
    destruct (cap "note" cs); [|eapply IH; eassumption]. unbind H. unbind H. unbind H. unbind H'. unbind H'. unbind H'. eapply IH; eassumption.
Qed.
Lemma account_loop_same e e' lines : forall nr a r a' r', account_loop e lines nr a = Ok r -> account_loop e' lines nr a' = Ok r' -> snd r = snd r'.
Proof.
  induction lines as [|l rest IH]; intros nr a r a' r' H H'; cbn [account_loop] in H, H'.
  - injection H as <-. injection H' as <-. reflexivity.
  - destruct (body_ends l); [injection H as <-; injection H' as <-; reflexivity|]. destruct (rsearch accountBodyREX l) as [[rs cs]|]; [|discriminate].
    unbind H. unbind H'. eapply IH; eassumption.
Qed.
Lemma commodity_loop_same lines : forall nr c d r c' d' r', commodity_loop lines nr c d = Ok r -> commodity_loop lines nr c' d' = Ok r' -> snd r = snd r'.
Proof.
  induction lines as [|l rest IH]; intros nr c d r c' d' r' H H'; cbn [commodity_loop] in H, H'.
  - injection H as <-. injection H' as <-. reflexivity.
  - destruct (body_ends l); [injection H as <-; injection H' as <-; reflexivity|]. destruct (rsearch commodityBodyREX l) as [[rs cs]|]; [|discriminate].
    destruct (cap "note" cs); [|eapply IH; eassumption]. destruct (cap "amount" cs); [|eapply IH; eassumption].
    destruct (cap "nomarket" cs); [|eapply IH; eassumption]. destruct (cap "symbol" cs); [|eapply IH; eassumption].
    destruct (cap "default" cs); [discriminate|eapply IH; eassumption].
Qed.
Lemma next_same e e' p : forall i d q i' d' q', next e p = Ok (Some (i, d, q)) -> next e' p = Ok (Some (i', d', q')) ->
  q = q' /\ is_include i = is_include i' /\ (is_include i = true -> i = i').
Proof.
  destruct p as [lines nr]. unfold next. cbn [p_lines p_nr]. revert nr. induction lines as [|l rest IH]; intros nr i d q i' d' q' H H'; [discriminate|].
  cbn [next_lines] in H, H'.
  destruct (blank l); [eapply IH; eassumption|]. destruct l as [|c l]; [discriminate|]. destruct (existsb (eqc c) (B ";#%|*")); [eapply IH; eassumption|]. clear IH.
  destruct (has_prefix (B "include") (c :: l)).
  { unfold parse_include in *. destruct (rsearch includeHead (c :: l)) as [[rs cs]|]; [|discriminate]. cbn [bind fst snd] in *. injection H as <- <- <-. injection H' as <- <- <-. auto. }
  destruct (has_prefix (B "account") (c :: l)).
  { unbind H. unbind H'. injection H as <- <- <-. injection H' as <- <- <-. split; [|split; [reflexivity|discriminate]]. eapply account_loop_same; eassumption. }
  destruct (has_prefix (B "commodity ") (c :: l)).
  { unbind H. unbind H'. injection H as <- <- <-. injection H' as <- <- <-. split; [|split; [reflexivity|discriminate]]. eapply commodity_loop_same; eassumption. }
  destruct (has_prefix (B "test ") (c :: l)).
  { unbind H. unbind H'. injection H as <- <- <-. injection H' as <- <- <-. split; [congruence|split; [reflexivity|discriminate]]. }
  destruct (has_prefix (B "P ") (c :: l)).
  { unbind H. unbind H'. injection H as <- <- <-. injection H' as <- <- <-. split; [|split; [reflexivity|discriminate]].
    unfold parse_price in *. destruct (rsearch priceREX (c :: l)) as [[rs cs]|]; [|discriminate]. repeat unbind E. repeat unbind E0. injection E as <-. injection E0 as <-. reflexivity. }
  destruct (is_digit c); [|discriminate]. unbind H. unbind H'. injection H as <- <- <-. injection H' as <- <- <-. split; [|split; [reflexivity|discriminate]].
  unfold parse_transaction in *. destruct (rsearch transactionREX (c :: l)) as [[rs cs]|]; [|discriminate].
  apply bind_ok in E as (? & _ & E). apply bind_ok in E as ([[[tn ps] pend] p1] & E1 & E). apply bind_ok in E as (? & _ & E). injection E as <-.
  apply bind_ok in E0 as (? & _ & E0). apply bind_ok in E0 as ([[[tn' ps'] pend'] p1'] & E1' & E0). apply bind_ok in E0 as (? & _ & E0). injection E0 as <-.
  cbn [snd]. apply (tx_loop_same _ _ _ _ _ _ _ _ _ _ _ _ E1 E1').
Qed.
Lemma next_shorter e p i d q : next e p = Ok (Some (i, d, q)) -> (List.length (p_lines q) < List.length (p_lines p))%nat.
Proof.
  intros H. destruct (next_lines_local _ _ _ _ _ _ H) as (skip & pre & E & Np & _). rewrite E, !app_length. destruct pre; [congruence|cbn [List.length]; lia].
Qed.

(** ** maps *)
Lemma lookup_store {A} k (v : A) m : forall j, lookup j (store k v m) = if eqb_bytes j k then Some v else lookup j m.
Proof.
  induction m as [|[k' v'] m IH]; intros j; cbn [store lookup]; [reflexivity|].
  destruct (eqb_bytes k k') eqn:E; cbn [lookup].
  - apply eqb_bytes_eq in E. subst k'. destruct (eqb_bytes j k); reflexivity.
  - rewrite IH. destruct (eqb_bytes j k') eqn:E1; [|reflexivity]. apply eqb_bytes_eq in E1. subst j.
    destruct (eqb_bytes k' k) eqn:E2; [|reflexivity]. apply eqb_bytes_eq in E2. subst k'. rewrite eqb_bytes_refl in E. discriminate.
Qed.
Lemma store_keys {A} k (v : A) m : forall j, In j (map fst (store k v m)) <-> j = k \/ In j (map fst m).
Proof.
  induction m as [|[k' v'] m IH]; intros j; cbn [store map In fst]; [intuition|].
  destruct (eqb_bytes k k') eqn:E; cbn [map In fst].
  - apply eqb_bytes_eq in E. subst k'. intuition.
  - rewrite IH. intuition.
Qed.
Lemma store_nodup {A} k (v : A) m : NoDup (map fst m) -> NoDup (map fst (store k v m)).
Proof.
  induction m as [|[k' v'] m IH]; cbn [store map fst]; intros H; [constructor; [intros []|constructor]|].
  inversion H as [|? ? N H']; subst. destruct (eqb_bytes k k') eqn:E; cbn [map fst].
  - apply eqb_bytes_eq in E. subst k'. constructor; assumption.
  - constructor; [|apply IH, H']. rewrite store_keys. intros [->|I]; [rewrite eqb_bytes_refl in E; discriminate|auto].
Qed.
Lemma last_such_app {A} (f : A -> bool) l x : last_such f (l ++ [x]) = if f x then Some x else last_such f l.
Proof. unfold last_such. rewrite rev_app_distr. reflexivity. Qed.

(** ** one more entry *)
Lemma known_from_app n found es v id : known_from n found (es ++ [v]) id =
  match ev_item v with
  | ICommodity c => if eqb_bytes id (pc_id c) then Some (mkCommodity (n + List.length (ev_comms es)) (pc_id c) (pc_dec c)) else known_from n found es id
  | _ => known_from n found es id
  end.
Proof.
  revert n found. induction es as [|u es IH]; intros n found; cbn [app known_from ev_comms flat_map List.length].
  - destruct (ev_item v); try reflexivity. rewrite Nat.add_0_r. reflexivity.
  - rewrite app_length. destruct (ev_item u); rewrite IH; cbn [List.length Nat.add]; try reflexivity. rewrite Nat.add_succ_r. reflexivity.
Qed.
Lemma default_app es v : default_after (es ++ [v]) = ev_default v.
Proof. unfold default_after. rewrite last_last. reflexivity. Qed.
Lemma holds_empty : holds empty_db [].
Proof. repeat split; try constructor. Qed.
Lemma holds_add d es fn i dflt d' : holds d es -> is_include i = false -> add_item d fn i dflt = Ok d' ->
  holds d' (es ++ [mkEvent fn i dflt]) /\ named (mkEvent fn i dflt).
Proof.
  intros (H1 & H2 & H3 & H4 & H5 & H6 & H7 & H8 & H9 & H10) Ni H.
  assert (G : forall A (f : event -> list A), flat_map f (es ++ [mkEvent fn i dflt]) = flat_map f es ++ f (mkEvent fn i dflt)).
  { intros A f. rewrite flat_map_app. cbn [flat_map]. rewrite app_nil_r. reflexivity. }
  assert (T1 : ev_txs (es ++ [mkEvent fn i dflt]) = ev_txs es ++ match i with ITransaction t => [(fn, t)] | _ => [] end) by apply G.
  assert (T2 : ev_tests (es ++ [mkEvent fn i dflt]) = ev_tests es ++ match i with ITest t => [(fn, t)] | _ => [] end) by apply G.
  assert (T3 : ev_prices (es ++ [mkEvent fn i dflt]) = ev_prices es ++ match i with IPrice t => [t] | _ => [] end) by apply G.
  assert (T4 : ev_accounts (es ++ [mkEvent fn i dflt]) = ev_accounts es ++ match i with IAccount t => [t] | _ => [] end) by apply G.
  assert (T5 : ev_comms (es ++ [mkEvent fn i dflt]) = ev_comms es ++ match i with ICommodity t => [t] | _ => [] end) by apply G.
  clear G. unfold holds. rewrite T1, T2, T3, T4, T5, default_app. clear T1 T2 T3 T4 T5. cbn [ev_default].
  destruct i as [t|a|c|p|t|]; cbn [add_item] in H; try discriminate Ni.
  - injection H as <-. cbn [d_txs d_tests d_prices d_default d_accounts d_comms d_next]. rewrite ?app_nil_r. split; [|intros ? [=]]. repeat apply conj; try assumption; try congruence.
    intros id. unfold known. rewrite known_from_app. cbn [ev_item]. apply H7.
  - destruct (pa_name a) as [|c0 n0] eqn:En; [discriminate|]. injection H as <-. cbn [d_txs d_tests d_prices d_default d_accounts d_comms d_next]. rewrite ?app_nil_r. split; [|intros ? [= <-]; congruence].
    repeat apply conj; try assumption; try congruence.
    + intros n. rewrite last_such_app, lookup_store, <- En, H5. reflexivity.
    + intros id. unfold known. rewrite known_from_app. cbn [ev_item]. apply H7.
    + apply store_nodup, H8.
  - injection H as <-. cbn [d_txs d_tests d_prices d_default d_accounts d_comms d_next]. rewrite ?app_nil_r. split; [|intros ? [=]]. repeat apply conj; try assumption; try congruence.
    + intros id. rewrite last_such_app, lookup_store. destruct (eqb_bytes id (pc_id c)); [reflexivity|]. apply H6.
    + intros id. unfold known. rewrite known_from_app. cbn [ev_item Nat.add]. unfold find_comm. cbn [d_comms]. rewrite lookup_store. rewrite H10.
      destruct (eqb_bytes id (pc_id c)); [reflexivity|]. apply H7.
    + apply store_nodup, H9.
    + rewrite app_length. cbn [List.length]. lia.
  - injection H as <-. cbn [d_txs d_tests d_prices d_default d_accounts d_comms d_next]. rewrite ?app_nil_r. split; [|intros ? [=]]. repeat apply conj; try assumption; try congruence.
    intros id. unfold known. rewrite known_from_app. cbn [ev_item]. apply H7.
  - injection H as <-. cbn [d_txs d_tests d_prices d_default d_accounts d_comms d_next]. rewrite ?app_nil_r. split; [|intros ? [=]]. repeat apply conj; try assumption; try congruence.
    intros id. unfold known. rewrite known_from_app. cbn [ev_item]. apply H7.
Qed.
Lemma add_named d fn i dflt : is_include i = false -> named (mkEvent fn i dflt) -> exists d', add_item d fn i dflt = Ok d'.
Proof.
  intros Ni N. destruct i as [t|a|c|p|t|]; cbn [add_item]; try discriminate Ni; eauto.
  specialize (N a eq_refl). destruct (pa_name a); [congruence|eauto].
Qed.
Lemma holds_next w d es p : holds d es -> next (db_env w d) p = next (env_after w es) p.
Proof. intros (_ & _ & _ & H4 & _ & _ & H7 & _). apply next_ext; [exact H7|exact H4|reflexivity]. Qed.

Lemma obind_ok {A C} (x : option (res A)) (f : A -> option (res C)) c : obind x f = Some (Ok c) -> exists a, x = Some (Ok a) /\ f a = Some (Ok c).
Proof. destruct x as [[a| |]|]; cbn; intros H; try discriminate. eauto. Qed.

(** ** what is loaded are the entries *)
Section Sound.
Variable w : world.
Variable rec : db -> bytes -> option (res db).
Hypothesis rec_sound : forall d before fn d', holds d before -> rec d fn = Some (Ok d') ->
  exists es, file_entries w before fn es /\ Forall named es /\ holds d' (before ++ es).
Lemma included_sound fn files : forall d before d', holds d before -> load_included rec fn files d = Some (Ok d') ->
  ~ In fn files /\ exists es, all_entries w before files es /\ Forall named es /\ holds d' (before ++ es).
Proof.
  induction files as [|f r IH]; intros d before d' Hh H; cbn [load_included] in H.
  - injection H as <-. split; [intros []|]. exists []. rewrite app_nil_r. split; [constructor|]. auto.
  - destruct (eqb_bytes f fn) eqn:E; [discriminate|]. apply obind_ok in H as (d1 & H1 & H2).
    destruct (rec_sound _ _ _ _ Hh H1) as (es1 & A1 & A2 & A3). destruct (IH _ _ _ A3 H2) as (N & es2 & C1 & C2 & C3).
    split; [intros [->|I]; [rewrite eqb_bytes_refl in E; discriminate|auto]|]. exists (es1 ++ es2). split; [econstructor; eassumption|].
    split; [apply Forall_app; auto|]. rewrite app_assoc. exact C3.
Qed.
Lemma entries_sound fn n : forall p d before d', (List.length (p_lines p) < n)%nat -> holds d before -> load_entries rec w fn n p d = Some (Ok d') ->
  exists es, text_entries w before fn p es /\ Forall named es /\ holds d' (before ++ es).
Proof.
  induction n as [|n IH]; intros p d before d' Hn Hh H; [lia|]. cbn [load_entries] in H.
  destruct (next (db_env w d) p) as [[[[i dflt] p']|]| |] eqn:En; try discriminate.
  - assert (Hs := next_shorter _ _ _ _ _ En). rewrite (holds_next w d before p Hh) in En.
    destruct (is_include i) eqn:Ei.
    + destruct i as [| | | | |path nr]; try discriminate Ei. destruct (include_files w fn path) as [files| |] eqn:Ef; try discriminate.
      apply obind_ok in H as (d1 & H1 & H2). destruct (included_sound _ _ _ _ _ Hh H1) as (N & es1 & A1 & A2 & A3).
      destruct (IH p' d1 (before ++ es1) d' ltac:(lia) A3 H2) as (es2 & C1 & C2 & C3). exists (es1 ++ es2).
      split; [eapply te_include; eassumption|]. split; [apply Forall_app; auto|]. rewrite app_assoc. exact C3.
    + assert (H' : obind (Some (add_item d fn i dflt)) (load_entries rec w fn n p') = Some (Ok d')) by (destruct i; try discriminate Ei; exact H).
      apply obind_ok in H' as (d1 & H1 & H2). injection H1 as H1. destruct (holds_add _ _ _ _ _ _ Hh Ei H1) as [Hh1 N].
      destruct (IH p' d1 _ d' ltac:(lia) Hh1 H2) as (es & C1 & C2 & C3). exists (mkEvent fn i dflt :: es).
      split; [eapply te_entry; eassumption|]. split; [constructor; assumption|]. rewrite <- app_assoc in C3. exact C3.
  - injection H as <-. rewrite (holds_next w d before p Hh) in En. exists []. rewrite app_nil_r. split; [constructor; exact En|]. auto.
Qed.
End Sound.
Lemma load_sound w limit : forall d before fn d', holds d before -> load_file limit w d fn = Some (Ok d') ->
  exists es, file_entries w before fn es /\ Forall named es /\ holds d' (before ++ es).
Proof.
  induction limit as [|k IH]; intros d before fn d' Hh H; cbn [load_file] in H; [discriminate|].
  destruct (w_file w fn) as [text|] eqn:Ef; [|discriminate].
  destruct (entries_sound w (load_file k w) IH fn _ (new_parser text) d before d' (Nat.lt_succ_diag_r _) Hh H) as (es & A1 & A2 & A3).
  exists es. split; [econstructor; eassumption|]. auto.
Qed.
Lemma list_sound w limit files : forall d before d', holds d before -> load_list limit w files d = Some (Ok d') ->
  exists es, all_entries w before files es /\ Forall named es /\ holds d' (before ++ es).
Proof.
  induction files as [|f r IH]; intros d before d' Hh H; cbn [load_list] in H.
  - injection H as <-. exists []. rewrite app_nil_r. split; [constructor|]. auto.
  - apply obind_ok in H as (d1 & H1 & H2). destruct (load_sound _ _ _ _ _ _ Hh H1) as (es1 & A1 & A2 & A3).
    destruct (IH _ _ _ A3 H2) as (es2 & C1 & C2 & C3). exists (es1 ++ es2). split; [econstructor; eassumption|].
    split; [apply Forall_app; auto|]. rewrite app_assoc. exact C3.
Qed.

(** ** and every entry is loaded when enough files can be open *)
Definition complete_at (w : world) (k : nat) (d : db) (fn : bytes) (es : list event) : Prop :=
  exists d', load_file k w d fn = Some (Ok d') /\ holds d' es.
Lemma load_complete w :
  (forall before fn es, file_entries w before fn es -> Forall named es -> exists k0, forall k d, (k0 <= k)%nat -> holds d before ->
     exists d', load_file k w d fn = Some (Ok d') /\ holds d' (before ++ es)) /\
  (forall before fn p es, text_entries w before fn p es -> Forall named es -> exists k0, forall k d n, (k0 <= k)%nat -> holds d before -> (List.length (p_lines p) < n)%nat ->
     exists d', load_entries (load_file k w) w fn n p d = Some (Ok d') /\ holds d' (before ++ es)) /\
  (forall before files es, all_entries w before files es -> Forall named es -> exists k0, forall k d, (k0 <= k)%nat -> holds d before ->
     (forall fn, ~ In fn files -> exists d', load_included (load_file k w) fn files d = Some (Ok d') /\ holds d' (before ++ es)) /\
     exists d', load_list k w files d = Some (Ok d') /\ holds d' (before ++ es)).
Proof.
  apply entries_ind.
  - intros before fn text es Ef _ IH N. destruct (IH N) as [k0 K]. exists (S k0). intros [|k] d Hk Hh; [lia|]. cbn [load_file]. rewrite Ef.
    apply K; [lia|exact Hh|]. cbn [new_parser p_lines]. lia.
  - intros before fn p En _. exists 0%nat. intros k d [|n] _ Hh Hn; [lia|]. cbn [load_entries]. rewrite (holds_next w d before p Hh), En.
    exists d. rewrite app_nil_r. auto.
  - intros before fn p i dflt p' es En Ei _ IH N. inversion N as [|? ? N1 N2]; subst. destruct (IH N2) as [k0 K]. exists k0.
    intros k d [|n] Hk Hh Hn; [lia|]. cbn [load_entries]. rewrite (holds_next w d before p Hh), En. assert (Hs := next_shorter _ _ _ _ _ En).
    destruct (add_named d fn i dflt Ei N1) as [d1 E1]. destruct (holds_add _ _ _ _ _ _ Hh Ei E1) as [Hh1 _].
    destruct (K k d1 n Hk Hh1 ltac:(lia)) as (d' & E2 & E3). exists d'. rewrite <- app_assoc in E3. split; [|exact E3].
    destruct i; try discriminate Ei; rewrite E1; exact E2.
  - intros before fn p path n0 dflt p' files es1 es2 En Ef Nf _ IH1 _ IH2 N. apply Forall_app in N as [N1 N2].
    destruct (IH1 N1) as [k1 K1]. destruct (IH2 N2) as [k2 K2]. exists (Nat.max k1 k2).
    change (include_files w fn path = Ok files) in Ef. intros k d [|n] Hk Hh Hn; [lia|]. cbn [load_entries]. rewrite (holds_next w d before p Hh), En, Ef. assert (Hs := next_shorter _ _ _ _ _ En).
    destruct (proj1 (K1 k d ltac:(lia) Hh) fn Nf) as (d1 & E1 & Hh1). rewrite E1. cbn [obind].
    destruct (K2 k d1 n ltac:(lia) Hh1 ltac:(lia)) as (d' & E2 & E3). exists d'. rewrite <- app_assoc in E3. auto.
  - intros before _. exists 0%nat. intros k d _ Hh. rewrite app_nil_r. split; [|exists d; auto]. intros fn _. exists d. auto.
  - intros before f files es1 es2 _ IH1 _ IH2 N. apply Forall_app in N as [N1 N2].
    destruct (IH1 N1) as [k1 K1]. destruct (IH2 N2) as [k2 K2]. exists (Nat.max k1 k2). intros k d Hk Hh.
    destruct (K1 k d ltac:(lia) Hh) as (d1 & E1 & Hh1). destruct (K2 k d1 ltac:(lia) Hh1) as [K3 K4]. split.
    + intros fn Nf. cbn [load_included]. destruct (eqb_bytes f fn) eqn:E; [apply eqb_bytes_eq in E; subst; exfalso; apply Nf; left; reflexivity|].
      rewrite E1. cbn [obind]. rewrite app_assoc. apply K3. intros I. apply Nf. right. exact I.
    + cbn [load_list]. rewrite E1. cbn [obind]. rewrite app_assoc. exact K4.
Qed.

(** ** chains of includes are shorter than the limit *)
Section Followed.
Variable w : world.
Variable rec : db -> bytes -> option (res db).
Lemma included_followed fn files : forall d d' g, load_included rec fn files d = Some (Ok d') -> In g files -> exists d1 d2, rec d1 g = Some (Ok d2).
Proof.
  induction files as [|f r IH]; intros d d' g H; [intros []|]. cbn [load_included] in H. destruct (eqb_bytes f fn); [discriminate|].
  apply obind_ok in H as (d1 & H1 & H2). intros [<-|I]; [eauto|]. eapply IH; eassumption.
Qed.
Lemma entries_followed fn path p : has_include p path -> forall files g n d d', (List.length (p_lines p) < n)%nat -> load_entries rec w fn n p d = Some (Ok d') ->
  include_files w fn path = Ok files -> In g files -> exists d1 d2, rec d1 g = Some (Ok d2).
Proof.
  induction 1 as [e p path nr dflt p' En|e p i dflt p' path En _ IH]; intros files g [|n] d d' Hn H Ef Ig; [lia| |lia|]; cbn [load_entries] in H.
  - destruct (next (db_env w d) p) as [[[[i2 dflt2] p2]|]| |] eqn:En2; try discriminate.
    + destruct (next_same _ _ _ _ _ _ _ _ _ En En2) as (<- & Ei & Es). specialize (Es eq_refl). subst i2. rewrite Ef in H.
      apply obind_ok in H as (d1 & H1 & _). eapply included_followed; eassumption.
    + exfalso. destruct p as [lines nr0]. unfold next in *. cbn [p_lines p_nr] in *. clear - En En2. revert nr0 En En2.
      induction lines as [|l rest IH]; intros nr0 En En2; [discriminate|]. cbn [next_lines] in *.
      destruct (blank l); [eapply IH; eassumption|]. destruct l as [|c l]; [discriminate|]. destruct (existsb (eqc c) (B ";#%|*")); [eapply IH; eassumption|].
      repeat match type of En2 with (if ?b then _ else _) = _ => destruct b end; try discriminate; apply bind_ok in En2 as (x & _ & En2); discriminate.
  - destruct (next (db_env w d) p) as [[[[i2 dflt2] p2]|]| |] eqn:En2; try discriminate.
    + destruct (next_same _ _ _ _ _ _ _ _ _ En En2) as (<- & Ei & Es). assert (Hs := next_shorter _ _ _ _ _ En2).
      assert (G : exists d1, load_entries rec w fn n p' d1 = Some (Ok d')).
      { destruct (is_include i2) eqn:Ei2.
        - destruct i2 as [| | | | |path2 nr2]; try discriminate Ei2. destruct (include_files w fn path2); try discriminate. apply obind_ok in H as (d1 & _ & H2). eauto.
        - assert (H' : obind (Some (add_item d fn i2 dflt2)) (load_entries rec w fn n p') = Some (Ok d')) by (destruct i2; try discriminate Ei2; exact H).
          apply obind_ok in H' as (d1 & _ & H2). eauto. }
      destruct G as [d1 G]. eapply IH; [|exact G|exact Ef|exact Ig]. lia.
    + exfalso. destruct p as [lines nr0]. unfold next in *. cbn [p_lines p_nr] in *. clear - En En2. revert nr0 En En2.
      induction lines as [|l rest IH]; intros nr0 En En2; [discriminate|]. cbn [next_lines] in *.
      destruct (blank l); [eapply IH; eassumption|]. destruct l as [|c l]; [discriminate|]. destruct (existsb (eqc c) (B ";#%|*")); [eapply IH; eassumption|].
      repeat match type of En2 with (if ?b then _ else _) = _ => destruct b end; try discriminate; apply bind_ok in En2 as (x & _ & En2); discriminate.
Qed.
End Followed.
Lemma load_follows w k d fn d' g : load_file (S k) w d fn = Some (Ok d') -> includes w fn g -> exists d1 d2, load_file k w d1 g = Some (Ok d2).
Proof.
  intros H (text & path & files & Ef & Hi & Ei & Ig). cbn [load_file] in H. rewrite Ef in H.
  eapply entries_followed; [exact Hi| |exact H|exact Ei|exact Ig]. cbn [new_parser p_lines]. lia.
Qed.
Lemma load_chain w l : forall k d fn d', load_file k w d fn = Some (Ok d') -> chain w fn l -> (List.length l < k)%nat.
Proof.
  induction l as [|g l IH]; intros [|k] d fn d' H C; cbn [List.length]; try (cbn in H; discriminate); [lia|].
  destruct C as [C1 C2]. destruct (load_follows _ _ _ _ _ _ H C1) as (d1 & d2 & E). specialize (IH _ _ _ _ E C2). lia.
Qed.
Lemma chain_app w f l1 l2 : chain w f (l1 ++ l2) <-> chain w f l1 /\ chain w (last l1 f) l2.
Proof.
  revert f. induction l1 as [|g l1 IH]; intros f; cbn [app chain last]; [tauto|]. rewrite IH. 
  replace (last l1 g) with (last (g :: l1) f); [tauto|]. clear. revert g f. induction l1 as [|h l1 IH]; intros g f; [reflexivity|].
  change (last (h :: l1) f = last (h :: l1) g). rewrite (IH h f), (IH h g). reflexivity.
Qed.
Fixpoint laps (n : nat) (r : list bytes) : list bytes := match n with O => [] | S n' => r ++ laps n' r end.
Lemma laps_chain w g r n : chain w g (r ++ [g]) -> chain w g (laps n (r ++ [g])).
Proof.
  intros C. induction n as [|n IH]; cbn [laps]; [exact I|]. rewrite chain_app. split; [exact C|]. rewrite last_last. exact IH.
Qed.
Lemma laps_length n r : List.length (laps n r) = (n * List.length r)%nat.
Proof. induction n; cbn [laps]; [reflexivity|]. rewrite app_length, IHn. reflexivity. Qed.
Lemma load_acyclic w k d fn d' : load_file k w d fn = Some (Ok d') -> ~ cycle_from w fn.
Proof.
  intros H (l & g & r & C). change (g :: r ++ [g]) with ([g] ++ (r ++ [g])) in C. rewrite app_assoc in C. apply chain_app in C as [C1 C2]. rewrite last_last in C2.
  assert (C3 := laps_chain w g r k C2). assert (C4 : chain w fn ((l ++ [g]) ++ laps k (r ++ [g]))) by (apply chain_app; rewrite last_last; auto).
  apply (load_chain _ _ _ _ _ _ H) in C4. rewrite app_length, laps_length, app_length, app_length in C4. cbn [List.length] in C4. nia.
Qed.
