(** Entries: where they start and end, notes inside them, definitions and prices. *)
From Coq Require Import Sorted Permutation.
From Verif Require Import Base M_Amount M_Regex M_Date M_Parser M_Writer S_Decimal S_Date S_DateText S_Ledger
  L_Dec L_Amount L_Regex L_RegexSound L_Date L_DateText L_Parser L_RoundTrip.

(** ** lines a parse function consumes *)
Definition follows (lines : list bytes) (nr : nat) (p : parser) : Prop :=
  exists k, (k <= List.length lines)%nat /\ p_lines p = skipn k lines /\ p_nr p = (nr + k)%nat.
Lemma follows_here lines nr : follows lines nr (mkParser lines nr).
Proof. exists O. cbn. repeat split; lia. Qed.
Lemma follows_next l lines nr p : follows lines (S nr) p -> follows (l :: lines) nr p.
Proof. intros (k & H1 & H2 & H3). exists (S k). cbn. repeat split; [lia|exact H2|lia]. Qed.
Lemma bind_ok {A C} (x : res A) (f : A -> res C) y : bind x f = Ok y -> exists a, x = Ok a /\ f a = Ok y.
Proof. destruct x; cbn; intros H; try discriminate. eauto. Qed.
Ltac unbind H := let a := fresh "a" in let E := fresh "E" in apply bind_ok in H as (a & E & H).

Lemma tx_loop_follows e lines : forall nr tn ps pend tn' ps' pend' p,
  tx_loop e lines nr tn ps pend = Ok (tn', ps', pend', p) -> follows lines nr p.
Proof.
  induction lines as [|l rest IH]; intros nr tn ps pend tn' ps' pend' p H; cbn [tx_loop] in H.
  - injection H as _ _ _ <-. apply follows_here.
  - destruct (rsearch postingREX l) as [[rs cs]|]; [|injection H as _ _ _ <-; apply follows_here].
    apply follows_next. destruct (cap "note" cs); [|eapply IH, H].
    unbind H. unbind H. unbind H. eapply IH, H.
Qed.
Lemma account_loop_follows e lines : forall nr a a' p, account_loop e lines nr a = Ok (a', p) -> follows lines nr p /\ pa_line a' = pa_line a.
Proof.
  induction lines as [|l rest IH]; intros nr a a' p H; cbn [account_loop] in H.
  - injection H as <- <-. split; [apply follows_here|reflexivity].
  - destruct (body_ends l); [injection H as <- <-; split; [apply follows_here|reflexivity]|].
    destruct (rsearch accountBodyREX l) as [[rs cs]|]; [|discriminate]. unbind H.
    destruct (IH _ _ _ _ H) as [H1 H2]. split; [apply follows_next, H1|]. rewrite H2. clear -E.
    repeat match type of E with match ?x with _ => _ end = _ => destruct x end; try (injection E as <-; reflexivity).
    unbind E. injection E as <-. reflexivity.
Qed.
Lemma commodity_loop_follows lines : forall nr c d c' d' p, commodity_loop lines nr c d = Ok (c', d', p) -> follows lines nr p /\ pc_line c' = pc_line c.
Proof.
  induction lines as [|l rest IH]; intros nr c d c' d' p H; cbn [commodity_loop] in H.
  - injection H as <- _ <-. split; [apply follows_here|reflexivity].
  - destruct (body_ends l); [injection H as <- _ <-; split; [apply follows_here|reflexivity]|].
    destruct (rsearch commodityBodyREX l) as [[rs cs]|]; [|discriminate].
    repeat match type of H with match ?x with _ => _ end = _ => destruct x end; try discriminate;
      (destruct (IH _ _ _ _ _ _ H) as [H1 H2]; split; [apply follows_next, H1|rewrite H2; reflexivity]).
Qed.
Lemma test_loop_follows lines : forall nr b b' p, test_loop lines nr b = (b', p) -> follows lines nr p.
Proof.
  induction lines as [|l rest IH]; intros nr b b' p H; cbn [test_loop] in H.
  - injection H as _ <-. apply follows_here.
  - apply follows_next. destruct (eqb_bytes _ _); [injection H as _ <-; apply follows_here|eapply IH, H].
Qed.
Lemma has_prefix_spec p : forall s, has_prefix p s = true -> exists r, s = p ++ r.
Proof.
  induction p as [|c p IH]; intros s H; [exists s; reflexivity|]. destruct s as [|x s]; [discriminate|]. cbn in H.
  apply andb_true_iff in H as [H1 H2]. apply eqc_eq in H1. subst x. destruct (IH s H2) as (r & ->). exists r. reflexivity.
Qed.
Lemma next_lines_spec e lines : forall nr i d p, next_lines e lines nr = Ok (Some (i, d, p)) ->
  exists k l, nth_error lines k = Some l /\ item_line i = (nr + k)%nat /\ header_line i l /\ follows (skipn (S k) lines) (S (nr + k)) p.
Proof.
  induction lines as [|l rest IH]; intros nr i d p H; [discriminate|]. cbn [next_lines] in H.
  assert (Hskip : next_lines e rest (S nr) = Ok (Some (i, d, p)) ->
    exists k l0, nth_error (l :: rest) k = Some l0 /\ item_line i = (nr + k)%nat /\ header_line i l0 /\ follows (skipn (S k) (l :: rest)) (S (nr + k)) p).
  { intros E. destruct (IH _ _ _ _ E) as (k & l0 & H1 & H2 & H3 & H4). exists (S k), l0. cbn [nth_error skipn].
    replace (nr + S k)%nat with (S nr + k)%nat by lia. auto. }
  destruct (blank l); [exact (Hskip H)|]. destruct l as [|c l]; [discriminate|].
  destruct (existsb (eqc c) (B ";#%|*")); [exact (Hskip H)|]. clear Hskip IH.
  assert (G : item_line i = nr -> header_line i (c :: l) -> follows rest (S nr) p ->
    exists k l0, nth_error ((c :: l) :: rest) k = Some l0 /\ item_line i = (nr + k)%nat /\ header_line i l0 /\ follows (skipn (S k) ((c :: l) :: rest)) (S (nr + k)) p).
  { intros G1 G2 G3. exists O, (c :: l). cbn [nth_error skipn]. rewrite Nat.add_0_r. auto. }
  destruct (has_prefix (B "include") (c :: l)) eqn:P1.
  { unbind H. injection H as <- _ <-. unfold parse_include in E. destruct (rsearch includeHead (c :: l)) as [[rs cs]|]; [|discriminate].
    injection E as <-. apply G; [reflexivity|apply has_prefix_spec, P1|apply follows_here]. }
  destruct (has_prefix (B "account") (c :: l)) eqn:P2.
  { unbind H. injection H as <- _ <-. destruct a as [a' p']. unfold parse_account in E. apply account_loop_follows in E as [E1 E2].
    apply G; [exact E2|apply has_prefix_spec, P2|exact E1]. }
  destruct (has_prefix (B "commodity ") (c :: l)) eqn:P3.
  { unbind H. injection H as <- _ <-. destruct a as [[a' d'] p']. unfold parse_commodity in E. apply commodity_loop_follows in E as [E1 E2].
    apply G; [exact E2|apply has_prefix_spec, P3|exact E1]. }
  destruct (has_prefix (B "test ") (c :: l)) eqn:P4.
  { unbind H. injection H as <- _ <-. unfold parse_test in E. destruct (rsearch testHead (c :: l)) as [[rs cs]|]; [|discriminate].
    destruct (test_loop rest (S nr) []) as [b p'] eqn:ET. injection E as <-. apply test_loop_follows in ET.
    apply G; [reflexivity|apply has_prefix_spec, P4|exact ET]. }
  destruct (has_prefix (B "P ") (c :: l)) eqn:P5.
  { unbind H. injection H as <- _ <-. unfold parse_price in E. destruct (rsearch priceREX (c :: l)) as [[rs cs]|]; [|discriminate].
    unbind E. unbind E. unbind E. injection E as <-. apply G; [reflexivity|apply has_prefix_spec, P5|apply follows_here]. }
  destruct (is_digit c) eqn:P6; [|discriminate].
  unbind H. injection H as <- _ <-. destruct a as [t p']. unfold parse_transaction in E.
  destruct (rsearch transactionREX (c :: l)) as [[rs cs]|]; [|discriminate]. unbind E. unbind E. destruct a0 as [[[tn ps] pend] p''].
  unbind E. injection E as <- <-. apply tx_loop_follows in E1. apply G; [reflexivity|exact P6|exact E1].
Qed.
Lemma nth_error_skipn {A} k : forall (l : list A) j, nth_error (skipn k l) j = nth_error l (k + j).
Proof. induction k; intros l j; [reflexivity|]. destruct l; [destruct j; reflexivity|]. cbn. apply IHk. Qed.
Lemma skipn_skipn' {A} k : forall j (l : list A), skipn j (skipn k l) = skipn (j + k) l.
Proof.
  induction k; intros j l; [rewrite Nat.add_0_r; reflexivity|]. rewrite <- plus_n_Sm.
  destruct l; [destruct j; reflexivity|]. cbn. apply IHk.
Qed.
(** positions inside the whole file *)
Definition at_pos (all : list bytes) (p : parser) : Prop :=
  exists k, (k <= List.length all)%nat /\ p_lines p = skipn k all /\ p_nr p = S k.
Lemma follows_pos all k nr p : (k <= List.length all)%nat -> nr = S k -> follows (skipn k all) nr p -> at_pos all p /\ (nr <= p_nr p)%nat.
Proof.
  intros Hk -> (j & H1 & H2 & H3). rewrite skipn_length in H1. split; [|lia].
  exists (j + k)%nat. rewrite H2, H3. split; [lia|]. split; [|lia]. apply skipn_skipn'.
Qed.
Lemma next_pos e all p i d p' : at_pos all p -> next e p = Ok (Some (i, d, p')) ->
  exists l, nth_error all (item_line i - 1) = Some l /\ header_line i l /\ (p_nr p <= item_line i)%nat /\ (item_line i < p_nr p')%nat /\ at_pos all p'.
Proof.
  intros (k & Hk & El & En) H. unfold next in H. rewrite El, En in H. apply next_lines_spec in H as (j & l & H1 & H2 & H3 & H4).
  exists l. rewrite nth_error_skipn in H1. rewrite H2, En. replace (S k + j - 1)%nat with (k + j)%nat by lia.
  split; [exact H1|]. split; [exact H3|].
  assert (Hlen : (k + j < List.length all)%nat) by (apply nth_error_Some; congruence).
  assert (ES : skipn (S j) (skipn k all) = skipn (S (k + j)) all).
  { rewrite skipn_skipn'. f_equal. lia. }
  rewrite ES in H4. apply follows_pos in H4 as [H5 H6]; [|lia|lia].
  split; [lia|]. split; [lia|exact H5].
Qed.
Lemma read_items_lines all fuel : forall e p items, at_pos all p -> read_items fuel e p = Ok items ->
  Forall (fun i => exists l, (p_nr p <= item_line i)%nat /\ nth_error all (item_line i - 1) = Some l /\ header_line i l) items /\
  StronglySorted lt (map item_line items).
Proof.
  induction fuel as [|fuel IH]; intros e p items Hp H; cbn [read_items] in H.
  - injection H as <-. split; constructor.
  - unbind H. destruct a as [[[i d] p']|]; [|injection H as <-; split; constructor].
    unbind H. injection H as <-. destruct (next_pos _ _ _ _ _ _ Hp E) as (l & H1 & H2 & H3 & H4 & H5).
    destruct (IH _ _ _ H5 E0) as [IH1 IH2]. split.
    + constructor; [exists l; auto|]. eapply Forall_impl; [|exact IH1]. intros x (l' & G1 & G2 & G3). exists l'. repeat split; auto. lia.
    + cbn [map]. constructor; [exact IH2|]. apply Forall_map. eapply Forall_impl; [|exact IH1]. intros x (l' & G1 & _). lia.
Qed.
(** the fuel of [read_text] is enough *)
Lemma next_shorter e p i d p' : next e p = Ok (Some (i, d, p')) -> (List.length (p_lines p') < List.length (p_lines p))%nat.
Proof.
  unfold next. intros H. apply next_lines_spec in H as (k & l & H1 & _ & _ & (j & H2 & H3 & _)).
  rewrite H3, !skipn_length. assert (k < List.length (p_lines p))%nat by (apply nth_error_Some; congruence). lia.
Qed.
Lemma read_items_fuel fuel : forall fuel' e p, (List.length (p_lines p) < fuel)%nat -> (List.length (p_lines p) < fuel')%nat ->
  read_items fuel e p = read_items fuel' e p.
Proof.
  induction fuel as [|fuel IH]; intros fuel' e p H H'; [lia|]. destruct fuel' as [|fuel']; [lia|]. cbn [read_items].
  destruct (next e p) as [[[[i d] p']|]| |] eqn:E; cbn [bind]; try reflexivity.
  apply next_shorter in E. rewrite (IH fuel') by lia. reflexivity.
Qed.
Lemma drop_last_nth (ls : list bytes) n l : nth_error (drop_last_empty ls) n = Some l -> nth_error ls n = Some l.
Proof.
  revert n. induction ls as [|x ls IH]; intros n H; [destruct n; discriminate|]. cbn [drop_last_empty] in H.
  assert (H' : nth_error (x :: drop_last_empty ls) n = Some l).
  { destruct x; [|exact H]. destruct ls; [destruct n; discriminate|exact H]. }
  destruct n; [exact H'|]. apply IH, H'.
Qed.
Lemma drop_cr_prefix l : exists r, l = drop_cr l ++ r.
Proof.
  unfold drop_cr. destruct (rev l) as [|c r] eqn:E; [exists []; symmetry; apply app_nil_r|].
  destruct (code c =? 13); [|exists []; symmetry; apply app_nil_r]. exists [c]. rewrite <- (rev_involutive l), E. reflexivity.
Qed.
Lemma header_ext i l r : header_line i l -> header_line i (l ++ r).
Proof.
  destruct i; cbn; try (intros (x & ->); exists (x ++ r); rewrite <- ?app_assoc; reflexivity).
  destruct l; cbn; tauto.
Qed.
Lemma read_text_lines e text items : read_text e text = Ok items ->
  Forall (fun i => exists l, line_is text (item_line i) l /\ header_line i l) items /\ StronglySorted lt (map item_line items).
Proof.
  intros H. unfold read_text in H. apply (read_items_lines (scan_lines text)) in H as [H1 H2].
  - split; [|exact H2]. eapply Forall_impl; [|exact H1]. intros i (l & G1 & G2 & G3). unfold scan_lines in G2.
    rewrite nth_error_map in G2. destruct (nth_error (drop_last_empty _) _) as [raw|] eqn:E; [|discriminate]. injection G2 as <-.
    exists raw. split; [split; [exact G1|apply drop_last_nth, E]|].
    destruct (drop_cr_prefix raw) as (r & Er). rewrite Er. apply header_ext, G3.
  - exists O. split; [lia|]. split; reflexivity.
Qed.

(** ** where a transaction ends *)
Lemma postingREX_needs l x : rsearch postingREX l = Some x ->
  exists a s c b, l = a ++ s :: c :: b /\ is_space s = true /\ (is_alpha c = true \/ c = ";"%char).
Proof.
  destruct x as [rest cs]. intros H. apply rsearch_sound in H as (pre & s & -> & M). rewrite postingREX_eq in M.
  assert (G : forall s1, (exists c b, s1 = c :: b /\ (is_alpha c = true \/ c = ";"%char)) -> forall n, mt (rplus s_) s s1 n ->
    exists a s' c b, pre ++ s = a ++ s' :: c :: b /\ is_space s' = true /\ (is_alpha c = true \/ c = ";"%char)).
  { intros s1 (c & b & -> & Hc) n Hm. apply mt_plus_set_inv in Hm as (run & Hn & -> & Hr & _).
    destruct (exists_last Hn) as (run' & x & ->). rewrite forallb_app in Hr. apply andb_true_iff in Hr as [_ Hx]. cbn in Hx.
    rewrite andb_true_r in Hx. exists (pre ++ run'), x, c, b. rewrite <- !app_assoc. auto. }
  apply mt_alt_inv in M as [M|M].
  - cbn [rseq] in M. apply mt_seq_inv in M as (s1 & n1 & n2 & M1 & M2 & _). eapply G; [|exact M1].
    apply mt_seq_inv in M2 as (s2 & n3 & n4 & M2 & _). unfold rx_account in M2. apply mt_grp_inv in M2 as (t & n' & _ & M2 & _).
    apply mt_seq_inv in M2 as (s3 & n5 & n6 & M2 & _). apply mt_seq_inv in M2 as (s4 & n7 & n8 & M2 & _).
    apply mt_set_inv in M2 as (c & -> & Hc & _). exists c, s4. auto.
  - apply mt_seq_inv in M as (s1 & n1 & n2 & M1 & M2 & _). eapply G; [|exact M1].
    apply mt_seq_inv in M2 as (s2 & n3 & n4 & M2 & _). apply mt_set_inv in M2 as (c & -> & Hc & _). apply eqc_eq in Hc. subst c.
    exists ";"%char, s2. auto.
Qed.

(** ** note lines inside a transaction *)
Definition is_posting_line (l : bytes) : Prop := exists x, rsearch postingREX l = Some x.
Lemma add_last_core ps ns ps' : add_last_notes ps ns = Ok ps' ->
  map posting_core ps' = map posting_core ps /\ concat (map ps_notes ps') = concat (map ps_notes ps) ++ ns /\ ps <> [].
Proof.
  unfold add_last_notes. destruct (rev ps) as [|s r] eqn:E; [discriminate|]. intros H. injection H as <-.
  assert (Ep : ps = rev r ++ [s]) by (rewrite <- (rev_involutive ps), E; reflexivity). subst ps. cbn [rev].
  rewrite !map_app, !concat_app. cbn [map concat]. rewrite !app_nil_r, <- app_assoc. split; [reflexivity|]. split; [reflexivity|].
  destruct (rev r); discriminate.
Qed.
Lemma add_last_ok ps ns : ps <> [] -> exists ps', add_last_notes ps ns = Ok ps'.
Proof.
  intros H. unfold add_last_notes. destruct (rev ps) eqn:E; [|eexists; reflexivity].
  apply (f_equal (@rev _)) in E. rewrite rev_involutive in E. contradiction.
Qed.
(** states that differ by one note [n] *)
Definition st_notes (tn : list bytes) (ps : list posting) (pend : list bytes) : list bytes :=
  tn ++ concat (map ps_notes ps) ++ pend.
Definition more (n : bytes) (tn : list bytes) (ps : list posting) (pend tn' : list bytes) (ps' : list posting) (pend' : list bytes) : Prop :=
  map posting_core ps' = map posting_core ps /\
  exists a b, st_notes tn ps pend = a ++ b /\ st_notes tn' ps' pend' = a ++ n :: b.
Lemma core_nil ps ps' : map posting_core ps' = map posting_core ps -> (ps = [] <-> ps' = []).
Proof. destruct ps, ps'; cbn; intros H; split; intros; congruence. Qed.
Lemma flush_notes tn ps pend tn' ps' : flush tn ps pend = Ok (tn', ps') ->
  map posting_core ps' = map posting_core ps /\ st_notes tn' ps' [] = st_notes tn ps pend.
Proof.
  unfold flush, st_notes. intros H. destruct pend as [|p pend].
  - injection H as <- <-. auto.
  - destruct ps as [|s ps].
    + injection H as <- <-. cbn. rewrite app_nil_r. auto.
    + destruct (add_last_notes (s :: ps) (p :: pend)) as [ps1| |] eqn:E; [|discriminate|discriminate].
      cbn [bind] in H. injection H as <- <-. apply add_last_core in E as (E1 & E2 & _). rewrite E1, E2, app_nil_r. auto.
Qed.
Lemma flush_ok tn ps pend : exists tn' ps', flush tn ps pend = Ok (tn', ps').
Proof.
  unfold flush. destruct pend as [|p pend]; [eauto|]. destruct ps as [|s ps]; [eauto|].
  destruct (add_last_ok (s :: ps) (p :: pend)) as (ps' & ->); [discriminate|]. cbn. eauto.
Qed.
Lemma tx_loop_more e n lines : forall nr tn ps pend tn' ps' pend' r_tn r_ps r_pend p,
  more n tn ps pend tn' ps' pend' ->
  tx_loop e lines nr tn ps pend = Ok (r_tn, r_ps, r_pend, p) ->
  exists q_tn q_ps q_pend q, tx_loop e lines (S nr) tn' ps' pend' = Ok (q_tn, q_ps, q_pend, q) /\
    p_lines q = p_lines p /\ more n r_tn r_ps r_pend q_tn q_ps q_pend.
Proof.
  induction lines as [|l rest IH]; intros nr tn ps pend tn' ps' pend' r_tn r_ps r_pend p HM H; cbn [tx_loop] in H |- *.
  - injection H as <- <- <- <-. do 4 eexists. split; [reflexivity|]. auto.
  - destruct (rsearch postingREX l) as [[rs cs]|].
    2:{ injection H as <- <- <- <-. do 4 eexists. split; [reflexivity|]. auto. }
    destruct (cap "note" cs) as [|c nt] eqn:EN.
    + unbind H. unbind H. unbind H. rewrite E. cbn [bind]. destruct HM as (HM1 & x & y & HM2 & HM3).
      change (flush tn ps pend = Ok a0) in E0. destruct a0 as [tn1 ps1].
      destruct (flush_ok tn' ps' pend') as (tn2 & ps2 & EF). unfold flush in EF. rewrite EF. cbn [bind]. rewrite E1. cbn [bind fst snd].
      cbn [fst snd] in H. destruct (flush_notes _ _ _ _ _ E0) as [F1 F2]. destruct (flush_notes _ _ _ _ _ EF) as [F3 F4].
      eapply IH; [|exact H]. split; [rewrite !map_app; cbn [map]; congruence|].
      exists x, (y ++ short_note cs). unfold st_notes in *. rewrite !map_app, !concat_app. cbn [map concat].
      rewrite !app_nil_r in *. cbn [ps_notes]. rewrite !app_assoc, F2, F4, HM2, HM3, <- !app_assoc. auto.
    + eapply IH; [|exact H]. destruct HM as (HM1 & x & y & HM2 & HM3). split; [exact HM1|].
      exists x, (y ++ [c :: nt]). unfold st_notes in *. rewrite !app_assoc, <- (app_assoc tn), <- (app_assoc tn'), HM2, HM3, <- !app_assoc. auto.
Qed.
Lemma tx_loop_note_in e n nl pre : (forall l, In l pre -> is_posting_line l) ->
  rsearch postingREX nl = Some ([], [("note"%string, n)]) -> n <> [] ->
  forall post nr tn ps pend r_tn r_ps r_pend p,
  tx_loop e (pre ++ post) nr tn ps pend = Ok (r_tn, r_ps, r_pend, p) ->
  exists q_tn q_ps q_pend q, tx_loop e (pre ++ nl :: post) nr tn ps pend = Ok (q_tn, q_ps, q_pend, q) /\
    p_lines q = p_lines p /\ more n r_tn r_ps r_pend q_tn q_ps q_pend.
Proof.
  intros Hpre Hnl Hn. induction pre as [|l pre IH]; intros post nr tn ps pend r_tn r_ps r_pend p H.
  - cbn [app tx_loop] in *. rewrite Hnl. change (cap "note" [("note"%string, n)]) with n. destruct n as [|c n]; [congruence|].
    eapply tx_loop_more; [|exact H]. split; [reflexivity|]. exists (st_notes tn ps pend), [].
    rewrite app_nil_r. split; [reflexivity|]. unfold st_notes. rewrite <- !app_assoc. reflexivity.
  - cbn [app tx_loop] in *. destruct (Hpre l (or_introl eq_refl)) as ([rs cs] & El). rewrite El in *.
    assert (Hpre' : forall l0, In l0 pre -> is_posting_line l0) by (intros; apply Hpre; right; assumption).
    destruct (cap "note" cs) as [|c nt].
    + unbind H. unbind H. unbind H. rewrite E. cbn [bind]. rewrite E0. cbn [bind]. rewrite E1. cbn [bind]. eapply IH; eassumption.
    + eapply IH; eassumption.
Qed.
Lemma parse_note_in e line pre nl post n nr t p :
  (forall l, In l pre -> is_posting_line l) -> rsearch postingREX nl = Some ([], [("note"%string, n)]) -> n <> [] ->
  parse_transaction e line (pre ++ post) nr = Ok (t, p) -> t_postings t <> [] ->
  exists t' p', parse_transaction e line (pre ++ nl :: post) nr = Ok (t', p') /\ p_lines p' = p_lines p /\
    t_posted t' = t_posted t /\ t_code t' = t_code t /\ t_desc t' = t_desc t /\
    map posting_core (t_postings t') = map posting_core (t_postings t) /\
    exists a b, all_notes t = a ++ b /\ all_notes t' = a ++ n :: b.
Proof.
  intros Hpre Hnl Hn H Hne. unfold parse_transaction in *. destruct (rsearch transactionREX line) as [[rs cs]|]; [|discriminate].
  unbind H. rewrite E. cbn [bind]. unbind H. destruct a0 as [[[tn ps] pend] p0]. unbind H. injection H as <- <-.
  destruct (tx_loop_note_in e n nl pre Hpre Hnl Hn _ _ _ _ _ _ _ _ _ E0) as (q_tn & q_ps & q_pend & q & EQ & Eq & (C1 & x & y & C2 & C3)).
  rewrite EQ. cbn [bind]. cbn [t_postings] in Hne.
  assert (P : map posting_core a0 = map posting_core ps /\ concat (map ps_notes a0) = concat (map ps_notes ps) ++ pend).
  { destruct pend; [injection E1 as <-; rewrite app_nil_r; auto|]. apply add_last_core in E1 as (? & ? & _). auto. }
  destruct P as [P1 P2].
  assert (Hps : q_ps <> []). { intros Hq. apply (core_nil _ _ C1) in Hq. subst ps. apply core_nil in P1. destruct P1 as [P1 _]. apply Hne, P1. reflexivity. }
  assert (Q : exists qs, match q_pend with [] => Ok q_ps | _ => add_last_notes q_ps q_pend end = Ok qs /\
     map posting_core qs = map posting_core q_ps /\ concat (map ps_notes qs) = concat (map ps_notes q_ps) ++ q_pend).
  { destruct q_pend; [exists q_ps; rewrite app_nil_r; auto|]. destruct (add_last_ok q_ps (b :: q_pend) Hps) as (qs & EQS). exists qs.
    split; [exact EQS|]. apply add_last_core in EQS as (? & ? & _). auto. }
  destruct Q as (qs & EQS & Q1 & Q2). rewrite EQS. cbn [bind]. do 2 eexists. split; [reflexivity|].
  cbn [t_posted t_code t_desc t_postings t_notes]. repeat split; auto; [congruence|].
  exists x, y. unfold all_notes. cbn [t_notes t_postings]. rewrite P2, Q2. unfold st_notes in *. auto.
Qed.

(** ** definitions *)
Lemma fails_lit kw t : has_prefix kw t = false -> fails (rlit kw) t.
Proof.
  revert t. induction kw as [|c kw IH]; intros t H; [discriminate|]. destruct t as [|x t].
  - intros R cs k. destruct kw; reflexivity.
  - cbn [has_prefix] in H. destruct kw as [|c' kw].
    + cbn [rlit]. apply fails_set. cbn [hd_not]. destruct (eqc c x) eqn:E; [exfalso; cbn in H; discriminate H|reflexivity].
    + change (rlit (c :: c' :: kw)) with (RSeq (rchar c) (rlit (c' :: kw))). destruct (eqc c x) eqn:E.
      * apply fails_set_seq_r, IH. exact H.
      * apply fails_seq_l, fails_set. exact E.
Qed.
(** spaces, then a keyword: does not match spaces followed by another text *)
Lemma fails_spaces b sp t : forallb is_space sp = true -> hd_not is_space t ->
  (forall s, hd_is is_space s -> fails b s) -> fails b t -> fails (RSeq (rplus s_) b) (sp ++ t).
Proof.
  intros Hs Ht Hb1 Hb2. apply fails_plus_seq. intros run rest E _ Hr.
  revert sp Hs E. induction run as [|c run IH]; intros sp Hs E.
  - cbn in E. subst rest. destruct sp as [|x sp]; cbn [app]; [exact Hb2|]. apply Hb1. cbn in Hs. apply andb_true_iff in Hs as [Hx _]. exact Hx.
  - cbn in Hr. apply andb_true_iff in Hr as [Hc Hr]. destruct sp as [|x sp].
    + cbn in E. rewrite E in Ht. cbn in Ht. congruence.
    + cbn in E. injection E as <- E. cbn in Hs. apply andb_true_iff in Hs as [_ Hs]. apply (IH Hr sp Hs E).
Qed.
Lemma fails_lit_space c kw s : is_space c = false -> hd_is is_space s -> fails (rlit (c :: kw)) s.
Proof.
  intros Hc Hs. apply fails_lit. destruct s as [|x s]; [contradiction|]. cbn in Hs |- *.
  destruct (eqc c x) eqn:E; [|reflexivity]. apply eqc_eq in E. subst. congruence.
Qed.
Lemma fails_kw c kw b sp t : is_space c = false -> forallb is_space sp = true -> hd_not is_space t -> has_prefix (c :: kw) t = false ->
  fails (RSeq (rplus s_) (RSeq (rlit (c :: kw)) b)) (sp ++ t).
Proof.
  intros Hc Hs Ht Hp. apply fails_spaces; auto.
  - intros s Hh. apply fails_seq_l, fails_lit_space; assumption.
  - apply fails_seq_l, fails_lit, Hp.
Qed.
(** keyword line: spaces kw space value *)
Lemma takes_kw kw b v new (P : bytes -> Prop) : (exists c r, kw = c :: r /\ is_space c = false) -> hd_is (fun c => negb (is_space c)) v ->
  takes b v new P -> takes (rseq [rplus s_; rlit kw; rplus s_; b]) (B "  " ++ kw ++ B " " ++ v) new P.
Proof.
  intros (c & r & -> & Hc) Hv Hb. cbn [rseq].
  eapply takes_eq; [eapply takes_seq with (t1 := B "  ") (c1 := []) (P1 := hd_not is_space);
    [apply takes_spaces; [discriminate|reflexivity|auto]|
     eapply takes_seq with (t1 := c :: r) (c1 := []) (P1 := fun _ => True); [apply takes_lit|
      eapply takes_seq with (t1 := B " ") (c1 := []) (P1 := hd_not is_space); [apply takes_spaces; [discriminate|reflexivity|auto]|exact Hb|]|]|]| |].
  - intros rest _. eapply hd_is_not; [|apply hd_is_app, Hv]. intros x Hx. apply negb_true_iff, Hx.
  - intros; exact I.
  - intros rest _. cbn [app hd_not]. exact Hc.
  - reflexivity.
  - rewrite !app_nil_r. reflexivity.
Qed.

(** ** body lines of definitions *)
Definition aA1 := rseq [rplus s_; rlit (B "note"); rplus s_; RGrp "note" (RSeq S_ (rplus any_))].
Definition aA2 := rseq [rplus s_; rlit (B "commodity"); rplus s_; rx_commodity].
Definition aA3 := rseq [rplus s_; rlit (B "closed"); rplus s_; rx_date].
Definition aA4 := rseq [rplus s_; rlit (B "ofx_bankid"); rplus s_; RGrp "ofx_bankid" (rplus d_)].
Definition aA5 := rseq [rplus s_; rlit (B "ofx_acctid"); rplus s_; RGrp "ofx_acctid" (rplus d_)].
Definition aA6 := rseq [rplus s_; rlit (B "csv_acctid"); rplus s_; RGrp "csv_acctid" (rplus w_)].
Lemma accountBodyREX_eq : accountBodyREX = ralt [aA1; aA2; aA3; aA4; aA5; aA6].
Proof. reflexivity. Qed.
Ltac kw_alts := cbn [ralt]; repeat (apply takes_alt_r; [intros ? ->; rewrite app_nil_r; apply fails_kw; reflexivity|]).
Ltac kw_start := match goal with |- rsearch ?r ?t = _ => rewrite <- (app_nil_r t); apply takes_search with (P := at_end); [|reflexivity] end.
Lemma nonspace_hd v : starts_with (fun c => negb (is_space c)) v -> hd_is (fun c => negb (is_space c)) v.
Proof. destruct v; auto. Qed.
Ltac kw_here := try apply takes_alt_l; apply takes_kw; [do 2 eexists; split; reflexivity| |].
Lemma search_a_note v : line_text v -> starts_with (fun c => negb (is_space c)) v -> (2 <= List.length v)%nat ->
  rsearch accountBodyREX (B "  note " ++ v) = Some ([], [("note"%string, v)]).
Proof.
  intros Hl Hs Hn. rewrite accountBodyREX_eq. kw_start. kw_alts. change (B "  note " ++ v) with (B "  " ++ B "note" ++ B " " ++ v). kw_here.
  - apply nonspace_hd, Hs.
  - apply takes_grp. destruct v as [|c [|c' v]]; cbn in Hn; [lia|lia|].
    eapply takes_eq; [eapply takes_seq with (t1 := [c]) (t2 := c' :: v) (c1 := []) (c2 := []) (P1 := fun _ => True)| |]; [apply takes_set, Hs| | | |].
    + apply takes_plus; [discriminate| |intros rest ->; exact I]. apply forallb_forall. intros x Hx.
      unfold line_text in Hl. rewrite Forall_forall in Hl. specialize (Hl x (or_intror Hx)). lia.
    + intros; exact I.
    + reflexivity.
    + reflexivity.
Qed.
Lemma id_hd i : id_ok i -> hd_is (fun c => negb (is_space c)) i.
Proof. intros (c & r & -> & Hc & _). cbn. rewrite (alpha_not_space _ Hc). reflexivity. Qed.
Lemma at_end_nil f s : at_end s -> hd_not f s.
Proof. intros ->. exact I. Qed.
Lemma search_a_commodity v : id_ok v -> rsearch accountBodyREX (B "  commodity " ++ v) = Some ([], [("commodity"%string, v)]).
Proof.
  intros H. rewrite accountBodyREX_eq. kw_start. change (B "  commodity " ++ v) with (B "  " ++ B "commodity" ++ B " " ++ v). kw_alts. kw_here.
  - apply id_hd, H.
  - eapply takes_weaken; [|apply takes_id, H]. apply at_end_nil.
Qed.
Lemma search_a_closed n : 0 <= year_of n <= 9999 -> rsearch accountBodyREX (B "  closed " ++ format_date n) = Some ([], wdate_caps n).
Proof.
  intros H. rewrite accountBodyREX_eq. kw_start. change (B "  closed " ++ format_date n) with (B "  " ++ B "closed" ++ B " " ++ format_date n).
  kw_alts. kw_here.
  - destruct (date_head n H) as (c & r & -> & Hc). cbn. rewrite (digit_not_space _ Hc). reflexivity.
  - eapply takes_weaken; [|assert (T := takes_written n H); rewrite DateREX_eq in T; exact T]. intros s ->. exact I.
Qed.
Lemma word_hd v : v <> [] -> forallb is_word v = true -> hd_is (fun c => negb (is_space c)) v.
Proof. intros Hn H. destruct v as [|c v]; [congruence|]. cbn in H |- *. apply andb_true_iff in H as [Hc _]. rewrite (word_not_space _ Hc). reflexivity. Qed.
Lemma digit_word_all v : forallb is_digit v = true -> forallb is_word v = true.
Proof.
  intros H. rewrite forallb_forall in *. intros x Hx. apply H in Hx. clear -Hx. unfold is_word. rewrite Hx, orb_true_r. reflexivity.
Qed.
Lemma search_a_bankid v : v <> [] -> forallb is_digit v = true -> rsearch accountBodyREX (B "  ofx_bankid " ++ v) = Some ([], [("ofx_bankid"%string, v)]).
Proof.
  intros Hn H. rewrite accountBodyREX_eq. kw_start. change (B "  ofx_bankid " ++ v) with (B "  " ++ B "ofx_bankid" ++ B " " ++ v).
  kw_alts. kw_here; [apply word_hd, digit_word_all, H; exact Hn|]. apply takes_grp, takes_plus; [exact Hn|exact H|apply at_end_nil].
Qed.
Lemma search_a_acctid v : v <> [] -> forallb is_digit v = true -> rsearch accountBodyREX (B "  ofx_acctid " ++ v) = Some ([], [("ofx_acctid"%string, v)]).
Proof.
  intros Hn H. rewrite accountBodyREX_eq. kw_start. change (B "  ofx_acctid " ++ v) with (B "  " ++ B "ofx_acctid" ++ B " " ++ v).
  kw_alts. kw_here; [apply word_hd, digit_word_all, H; exact Hn|]. apply takes_grp, takes_plus; [exact Hn|exact H|apply at_end_nil].
Qed.
Lemma search_a_csvid v : v <> [] -> forallb is_word v = true -> rsearch accountBodyREX (B "  csv_acctid " ++ v) = Some ([], [("csv_acctid"%string, v)]).
Proof.
  intros Hn H. rewrite accountBodyREX_eq. kw_start. change (B "  csv_acctid " ++ v) with (B "  " ++ B "csv_acctid" ++ B " " ++ v).
  kw_alts. kw_here; [apply word_hd; [exact Hn|exact H]|]. apply takes_grp, takes_plus; [exact Hn|exact H|apply at_end_nil].
Qed.

(** the lines an account is written as *)
Definition opt_line (k : bytes) (v : bytes) : list bytes := match v with [] => [] | _ => [k ++ v] end.
Definition account_body (a : paccount) : list bytes :=
  opt_line (B "  note ") (pa_desc a) ++ [B "  commodity " ++ pa_commodity a] ++
  (match pa_closed a with None => [] | Some d => [B "  closed " ++ format_date d] end) ++
  opt_line (B "  ofx_bankid ") (pa_bankid a) ++ opt_line (B "  ofx_acctid ") (pa_acctid a) ++ opt_line (B "  csv_acctid ") (pa_csvid a).
Lemma opt_line_text k v : text_of (opt_line k v) = match v with [] => [] | _ => put_line (k ++ v) end.
Proof. unfold opt_line, text_of. destruct v; [reflexivity|]. cbn [map concat]. apply app_nil_r. Qed.
Lemma text_one l : text_of [l] = put_line l.
Proof. unfold text_of. cbn [map concat]. apply app_nil_r. Qed.
Lemma write_account_lines a : write_account a = text_of ((B "account " ++ pa_name a) :: account_body a).
Proof.
  change ((B "account " ++ pa_name a) :: account_body a) with ([B "account " ++ pa_name a] ++ account_body a).
  unfold account_body. rewrite !text_app, !opt_line_text, !text_one. unfold write_account.
  destruct (pa_desc a), (pa_closed a), (pa_bankid a), (pa_acctid a), (pa_csvid a); rewrite ?text_one; reflexivity.
Qed.
Lemma body_line c r : uni_space c = false -> body_ends (B "  " ++ c :: r) = false.
Proof.
  intros H. unfold body_ends, blank. cbn [app B list_ascii_of_string forallb]. change (is_ascii_space " "%char) with true. cbn [andb].
  unfold uni_space in H. destruct (is_ascii_space c); [discriminate|]. cbn [andb orb]. reflexivity.
Qed.
Lemma account_body_read e a rest nr : account_ok a ->
  forall a0, pa_name a0 = pa_name a -> pa_desc a0 = [] -> pa_closed a0 = None -> pa_bankid a0 = [] -> pa_acctid a0 = [] -> pa_csvid a0 = [] ->
  body_ends (hd [] rest) = true ->
  account_loop e (account_body a ++ rest) nr a0 =
  Ok (mkPAccount (pa_name a) (pa_desc a) (pa_commodity a) (pa_closed a) (pa_bankid a) (pa_acctid a) (pa_csvid a) (pa_line a0),
      mkParser rest (nr + List.length (account_body a))).
Proof.
  intros (_ & Hd & Hc & Hcl & Hb & Ha & Hv) [nm ds cm cl bk ac cv ln] E1 E2 E3 E4 E5 E6 Hr. cbn in E1, E2, E3, E4, E5, E6 |- *. subst nm ds cl bk ac cv.
  unfold account_body.
  (* the end *)
  assert (G0 : forall nr x, account_loop e rest nr x = Ok (x, mkParser rest nr)).
  { intros nr0 x. destruct rest as [|l r]; [reflexivity|]. cbn [account_loop]. cbn in Hr. rewrite Hr. reflexivity. }
  (* csv *)
  assert (G1 : forall nr x, pa_csvid x = [] -> account_loop e (opt_line (B "  csv_acctid ") (pa_csvid a) ++ rest) nr x =
    Ok (mkPAccount (pa_name x) (pa_desc x) (pa_commodity x) (pa_closed x) (pa_bankid x) (pa_acctid x) (pa_csvid a) (pa_line x),
        mkParser rest (nr + List.length (opt_line (B "  csv_acctid ") (pa_csvid a))))).
  { intros nr0 x Ex. unfold opt_line. destruct (pa_csvid a) as [|v vr] eqn:E.
    - cbn [app List.length]. rewrite G0, Nat.add_0_r. destruct x; cbn in Ex |- *; subst; reflexivity.
    - cbn [app]. cbn [account_loop]. change (body_ends _) with false. cbn match.
      rewrite search_a_csvid by (discriminate || exact Hv). change (cap "note" _) with (@nil ascii).
      cbn [bind]. cbv iota beta. cbn [cap String.eqb Ascii.eqb eqb]. cbn [bind]. rewrite G0. cbn [List.length]. rewrite Nat.add_1_r. reflexivity. }
  assert (G2 : forall nr x, pa_acctid x = [] -> pa_csvid x = [] ->
    account_loop e (opt_line (B "  ofx_acctid ") (pa_acctid a) ++ opt_line (B "  csv_acctid ") (pa_csvid a) ++ rest) nr x =
    Ok (mkPAccount (pa_name x) (pa_desc x) (pa_commodity x) (pa_closed x) (pa_bankid x) (pa_acctid a) (pa_csvid a) (pa_line x),
        mkParser rest (nr + List.length (opt_line (B "  ofx_acctid ") (pa_acctid a) ++ opt_line (B "  csv_acctid ") (pa_csvid a))))).
  { intros nr0 x Ex1 Ex2. unfold opt_line at 1 3. destruct (pa_acctid a) as [|v vr] eqn:E.
    - cbn [app]. rewrite G1 by exact Ex2. destruct x; cbn in Ex1 |- *; subst; reflexivity.
    - cbn [app]. cbn [account_loop]. change (body_ends _) with false. cbn match.
      rewrite search_a_acctid by (discriminate || exact Ha).
      cbn [cap String.eqb Ascii.eqb eqb bind]. rewrite G1 by exact Ex2. cbn [List.length pa_name pa_desc pa_commodity pa_closed pa_bankid pa_acctid pa_csvid pa_line]. rewrite Nat.add_succ_r. reflexivity. }
  assert (G3 : forall nr x, pa_bankid x = [] -> pa_acctid x = [] -> pa_csvid x = [] ->
    account_loop e (opt_line (B "  ofx_bankid ") (pa_bankid a) ++ opt_line (B "  ofx_acctid ") (pa_acctid a) ++ opt_line (B "  csv_acctid ") (pa_csvid a) ++ rest) nr x =
    Ok (mkPAccount (pa_name x) (pa_desc x) (pa_commodity x) (pa_closed x) (pa_bankid a) (pa_acctid a) (pa_csvid a) (pa_line x),
        mkParser rest (nr + List.length (opt_line (B "  ofx_bankid ") (pa_bankid a) ++ opt_line (B "  ofx_acctid ") (pa_acctid a) ++ opt_line (B "  csv_acctid ") (pa_csvid a))))).
  { intros nr0 x Ex1 Ex2 Ex3. unfold opt_line at 1 4. destruct (pa_bankid a) as [|v vr] eqn:E.
    - cbn [app]. rewrite G2 by assumption. destruct x; cbn in Ex1 |- *; subst; reflexivity.
    - cbn [app]. cbn [account_loop]. change (body_ends _) with false. cbn match.
      rewrite search_a_bankid by (discriminate || exact Hb).
      cbn [cap String.eqb Ascii.eqb eqb bind]. rewrite G2 by assumption. cbn [List.length pa_name pa_desc pa_commodity pa_closed pa_bankid pa_acctid pa_csvid pa_line]. rewrite Nat.add_succ_r. reflexivity. }
  assert (G4 : forall nr x, pa_closed x = None -> pa_bankid x = [] -> pa_acctid x = [] -> pa_csvid x = [] ->
    account_loop e ((match pa_closed a with None => [] | Some d => [B "  closed " ++ format_date d] end) ++ opt_line (B "  ofx_bankid ") (pa_bankid a) ++ opt_line (B "  ofx_acctid ") (pa_acctid a) ++ opt_line (B "  csv_acctid ") (pa_csvid a) ++ rest) nr x =
    Ok (mkPAccount (pa_name x) (pa_desc x) (pa_commodity x) (pa_closed a) (pa_bankid a) (pa_acctid a) (pa_csvid a) (pa_line x),
        mkParser rest (nr + List.length ((match pa_closed a with None => [] | Some d => [B "  closed " ++ format_date d] end) ++ opt_line (B "  ofx_bankid ") (pa_bankid a) ++ opt_line (B "  ofx_acctid ") (pa_acctid a) ++ opt_line (B "  csv_acctid ") (pa_csvid a))))).
  { intros nr0 x Ex1 Ex2 Ex3 Ex4. destruct (pa_closed a) as [d|] eqn:E.
    - specialize (Hcl d eq_refl). cbn [app]. cbn [account_loop]. change (body_ends _) with false. cbn match.
      rewrite search_a_closed by lia.
      assert (EP : must_parse_date (e_today e) (wdate_caps d) = Ok d).
      { unfold must_parse_date. destruct (e_today e) as [[y m] dd]. assert (P := parse_written y m dd d [] Hcl (fun _ _ => Forall_nil _)). cbn [app] in P. rewrite P. reflexivity. }
      assert (ED : exists c r, cap "date" (wdate_caps d) = c :: r).
      { destruct (date_head d ltac:(lia)) as (c & r & Er & _). exists c, r. exact Er. }
      destruct ED as (c & r & ED). rewrite ED, EP. change (cap "note" (wdate_caps d)) with (@nil ascii). change (cap "commodity" (wdate_caps d)) with (@nil ascii).
      cbn [bind]. rewrite G3 by assumption. cbn [List.length pa_name pa_desc pa_commodity pa_closed pa_bankid pa_acctid pa_csvid pa_line]. rewrite Nat.add_succ_r. reflexivity.
    - cbn [app]. rewrite G3 by assumption. destruct x; cbn in Ex1 |- *; subst; reflexivity. }
  assert (G5 : forall nr x, pa_closed x = None -> pa_bankid x = [] -> pa_acctid x = [] -> pa_csvid x = [] ->
    account_loop e ([B "  commodity " ++ pa_commodity a] ++ (match pa_closed a with None => [] | Some d => [B "  closed " ++ format_date d] end) ++ opt_line (B "  ofx_bankid ") (pa_bankid a) ++ opt_line (B "  ofx_acctid ") (pa_acctid a) ++ opt_line (B "  csv_acctid ") (pa_csvid a) ++ rest) nr x =
    Ok (mkPAccount (pa_name x) (pa_desc x) (pa_commodity a) (pa_closed a) (pa_bankid a) (pa_acctid a) (pa_csvid a) (pa_line x),
        mkParser rest (nr + List.length ([B "  commodity " ++ pa_commodity a] ++ (match pa_closed a with None => [] | Some d => [B "  closed " ++ format_date d] end) ++ opt_line (B "  ofx_bankid ") (pa_bankid a) ++ opt_line (B "  ofx_acctid ") (pa_acctid a) ++ opt_line (B "  csv_acctid ") (pa_csvid a))))).
  { intros nr0 x Ex1 Ex2 Ex3 Ex4. cbn [app account_loop]. change (body_ends _) with false. cbn match.
    rewrite search_a_commodity by exact Hc. change (cap "note" [("commodity"%string, pa_commodity a)]) with (@nil ascii).
    change (cap "commodity" [("commodity"%string, pa_commodity a)]) with (pa_commodity a).
    destruct Hc as (c & r & Ec & _). rewrite Ec. cbn [bind]. rewrite <- Ec. rewrite G4 by assumption.
    cbn [List.length pa_name pa_desc pa_commodity pa_closed pa_bankid pa_acctid pa_csvid pa_line]. rewrite Nat.add_succ_r. reflexivity. }
  rewrite <- !app_assoc. destruct (pa_desc a) as [|c d] eqn:E.
  - change (opt_line (B "  note ") []) with (@nil bytes). etransitivity; [apply G5; reflexivity|]. reflexivity.
  - change (opt_line (B "  note ") (c :: d)) with [B "  note " ++ c :: d]. destruct Hd as [Hd|(Hd1 & Hd2 & Hd3)]; [discriminate|]. cbn [app account_loop]. change (body_ends _) with false. cbn match.
    rewrite search_a_note by assumption. change (cap "note" [("note"%string, c :: d)]) with (c :: d). cbn [bind].
    etransitivity; [apply G5; reflexivity|]. cbn [app List.length pa_name pa_desc pa_commodity pa_closed pa_bankid pa_acctid pa_csvid pa_line]. rewrite !Nat.add_succ_r. reflexivity.
Qed.

(** ** reading back one entry *)
Definition entry_reads (e : env) (i : item) (ls : list bytes) : Prop :=
  ls <> [] /\ Forall line_text ls /\
  forall rest nr, next_lines e (ls ++ item_sep i ++ rest) nr = Ok (Some (item_at nr i, e_default e, mkParser (item_sep i ++ rest) (nr + List.length ls))).
Lemma next_account e n rest nr : next_lines e ((B "account " ++ n) :: rest) nr =
  do r <- parse_account e (B "account " ++ n) rest nr; Ok (Some (IAccount (fst r), e_default e, snd r)).
Proof. reflexivity. Qed.
Lemma next_commodity e n rest nr : next_lines e ((B "commodity " ++ n) :: rest) nr =
  do r <- parse_commodity e (B "commodity " ++ n) rest nr; Ok (Some (ICommodity (fst (fst r)), snd (fst r), snd r)).
Proof. reflexivity. Qed.
Lemma next_price e n rest nr : next_lines e ((B "P " ++ n) :: rest) nr =
  do r <- parse_price e (B "P " ++ n) rest nr; Ok (Some (IPrice (fst r), e_default e, snd r)).
Proof. reflexivity. Qed.
Lemma search_head_account n : name_ok n -> match_caps accountHeadREX (B "account " ++ n) = [("account"%string, n)].
Proof.
  intros H. unfold match_caps. rewrite <- (app_nil_r (B "account " ++ n)).
  rewrite takes_search with (new := [("account"%string, n)]) (P := at_end); [reflexivity| |reflexivity].
  change accountHeadREX with (rseq [rlit (B "account"); rplus s_; rx_account]). cbn [rseq].
  eapply takes_eq; [eapply takes_seq with (t1 := B "account") (c1 := []) (P1 := fun _ => True); [apply takes_lit|
    eapply takes_seq with (t1 := B " ") (c1 := []) (P1 := hd_not is_space); [apply takes_spaces; [discriminate|reflexivity|auto]|
      eapply takes_weaken; [|apply takes_account, H]|]|]| |].
  - intros s ->. exact I.
  - intros rest _. destruct (name_ok_head _ H) as (c & r & -> & Hc). cbn. apply alpha_not_space, Hc.
  - intros; exact I.
  - reflexivity.
  - reflexivity.
Qed.
Lemma line_word v : forallb is_word v = true -> line_text v.
Proof. apply line_of, word_lchar. Qed.
Lemma line_opt k v : line_text k -> line_text v -> Forall line_text (opt_line k v).
Proof. intros. unfold opt_line. destruct v; constructor; [|constructor]. apply line_app; assumption. Qed.
Lemma account_reads e a : account_ok a -> entry_reads e (IAccount a) ((B "account " ++ pa_name a) :: account_body a).
Proof.
  intros H. split; [discriminate|]. split.
  - destruct H as (Hn & Hd & Hc & Hcl & Hb & Ha & Hv). constructor; [apply line_app; [apply line_lit; reflexivity|apply line_name, Hn]|].
    unfold account_body. repeat (apply Forall_app; split).
    + apply line_opt; [apply line_lit; reflexivity|]. destruct Hd as [->|(Hd & _)]; [constructor|exact Hd].
    + constructor; [|constructor]. apply line_app; [apply line_lit; reflexivity|apply line_id, Hc].
    + destruct (pa_closed a) as [d|] eqn:E; [|constructor]. constructor; [|constructor]. specialize (Hcl d eq_refl).
      apply line_app; [apply line_lit; reflexivity|apply line_date; lia].
    + apply line_opt; [apply line_lit; reflexivity|]. apply line_word, digit_word_all, Hb.
    + apply line_opt; [apply line_lit; reflexivity|]. apply line_word, digit_word_all, Ha.
    + apply line_opt; [apply line_lit; reflexivity|]. apply line_word, Hv.
  - intros rest nr. cbn [app item_sep].
    rewrite next_account.
    unfold parse_account. rewrite search_head_account by apply H. change (cap "account" [("account"%string, pa_name a)]) with (pa_name a).
    rewrite account_body_read with (a := a); try reflexivity; [|exact H]. cbn [bind fst snd item_at pa_line List.length].
    rewrite Nat.add_succ_r. reflexivity.
Qed.

(** commodities *)
Definition cA1 := rseq [rplus s_; rlit (B "note"); rplus s_; RGrp "note" (rplus any_)].
Definition cA2 := rseq [rplus s_; rlit (B "format"); rplus s_; RGrp "format" (rx_amount_n "amount" "decimals" "commodity")].
Definition cA3 := rseq [rplus s_; RGrp "nomarket" (rlit (B "nomarket")); RStar s_].
Definition cA4 := rseq [rplus s_; rlit (B "symbol"); rplus s_; RGrp "symbol" (rplus (RSet (fun c => is_word c || eqc c "."%char)))].
Definition cA5 := rseq [rplus s_; RGrp "default" (rlit (B "default")); RStar s_].
Lemma commodityBodyREX_eq : commodityBodyREX = ralt [cA1; cA2; cA3; cA4; cA5].
Proof. reflexivity. Qed.
Lemma search_c_note v : line_text v -> starts_with (fun c => negb (is_space c)) v ->
  rsearch commodityBodyREX (B "  note " ++ v) = Some ([], [("note"%string, v)]).
Proof.
  intros Hl Hs. rewrite commodityBodyREX_eq. kw_start. kw_alts. change (B "  note " ++ v) with (B "  " ++ B "note" ++ B " " ++ v). kw_here.
  - apply nonspace_hd, Hs.
  - apply takes_grp. apply takes_plus; [destruct v; [contradiction|discriminate]| |apply at_end_nil]. apply forallb_forall. intros x Hx.
    unfold line_text in Hl. rewrite Forall_forall in Hl. specialize (Hl x Hx). lia.
Qed.
Definition one_lit (d : nat) : literal := mkLit false [1] (repeat 0 d).
Lemma one_lit_ok d : lit_ok (one_lit d).
Proof. split; [|split]; cbn; [constructor; [lia|constructor]| |discriminate]. unfold digits_ok. induction d; constructor; [lia|assumption]. Qed.
Lemma one_lit_text d : lit_text (one_lit d) = match d with O => B "1" | d => B "1." ++ rep "0"%char d end.
Proof. unfold one_lit, lit_text. cbn [l_neg l_int l_frac]. destruct d; [reflexivity|]. cbn [repeat]. rewrite <- (map_repeat_zero (S d)). reflexivity. Qed.
Lemma search_c_format d i : id_ok i ->
  rsearch commodityBodyREX (B "  format " ++ lit_text (one_lit d) ++ B " " ++ i) =
  Some ([], ("format"%string, lit_text (one_lit d) ++ B " " ++ i) :: ("commodity"%string, i) :: ("amount"%string, lit_text (one_lit d)) :: lit_caps "decimals" (one_lit d)).
Proof.
  intros Hi. rewrite commodityBodyREX_eq. kw_start.
  change (B "  format " ++ lit_text (one_lit d) ++ B " " ++ i) with (B "  " ++ B "format" ++ B " " ++ lit_text (one_lit d) ++ B " " ++ i). kw_alts. kw_here.
  - eapply (hd_is_app _ (lit_text (one_lit d))). rewrite one_lit_text. destruct d; reflexivity.
  - apply takes_grp. eapply takes_weaken; [|apply takes_amount; [apply one_lit_ok|discriminate|reflexivity|exact Hi]]. apply at_end_nil.
Qed.
Lemma search_c_nomarket : rsearch commodityBodyREX (B "  nomarket") = Some ([], [("nomarket"%string, B "nomarket")]).
Proof. reflexivity. Qed.
Definition commodity_body (c : pcommodity) : list bytes :=
  opt_line (B "  note ") (pc_name c) ++ [B "  format " ++ lit_text (one_lit (pc_dec c)) ++ B " " ++ pc_id c] ++ (if pc_nomarket c then [B "  nomarket"] else []).
Lemma write_commodity_lines c : write_commodity c = text_of ((B "commodity " ++ pc_id c) :: commodity_body c).
Proof.
  change ((B "commodity " ++ pc_id c) :: commodity_body c) with ([B "commodity " ++ pc_id c] ++ commodity_body c).
  unfold commodity_body. rewrite !text_app, !opt_line_text, !text_one, one_lit_text. unfold write_commodity.
  destruct (pc_name c), (pc_dec c), (pc_nomarket c); rewrite ?text_one; reflexivity.
Qed.
Lemma one_lit_decimals d : pred (List.length (cap "decimals" (lit_caps "decimals" (one_lit d)))) = d.
Proof. unfold lit_caps. destruct d; [reflexivity|]. cbn [one_lit l_frac repeat]. cbn [cap String.eqb Ascii.eqb eqb List.length pred map]. rewrite map_length, repeat_length. reflexivity. Qed.
Lemma commodity_body_read c rest nr ln dflt : commodity_ok c -> pc_symbol c = [] -> body_ends (hd [] rest) = true ->
  commodity_loop (commodity_body c ++ rest) nr (mkPCommodity (pc_id c) [] 2 false [] ln) dflt =
  Ok (mkPCommodity (pc_id c) (pc_name c) (pc_dec c) (pc_nomarket c) [] ln, dflt, mkParser rest (nr + List.length (commodity_body c))).
Proof.
  intros (Hi & Hn) Hs Hr.
  assert (G0 : forall nr x, commodity_loop rest nr x dflt = Ok (x, dflt, mkParser rest nr)).
  { intros nr0 x. destruct rest as [|l r]; [reflexivity|]. cbn [commodity_loop]. cbn in Hr. rewrite Hr. reflexivity. }
  assert (G1 : forall nr x, pc_nomarket x = false -> commodity_loop ((if pc_nomarket c then [B "  nomarket"] else []) ++ rest) nr x dflt =
     Ok (mkPCommodity (pc_id x) (pc_name x) (pc_dec x) (pc_nomarket c) (pc_symbol x) (pc_line x), dflt,
         mkParser rest (nr + List.length (if pc_nomarket c then [B "  nomarket"] else [])))).
  { intros nr0 x Hx. destruct (pc_nomarket c).
    - cbn [app commodity_loop]. change (body_ends _) with false. cbn match. rewrite search_c_nomarket. cbn [cap String.eqb Ascii.eqb eqb].
      change (cap "nomarket" [("nomarket"%string, B "nomarket")]) with (B "nomarket"). cbn [B list_ascii_of_string]. rewrite G0. cbn [List.length]. rewrite Nat.add_1_r. reflexivity.
    - cbn [app List.length]. rewrite G0, Nat.add_0_r. destruct x; cbn in Hx |- *; subst; reflexivity. }
  assert (G2 : forall nr x, pc_nomarket x = false -> commodity_loop ([B "  format " ++ lit_text (one_lit (pc_dec c)) ++ B " " ++ pc_id c] ++ (if pc_nomarket c then [B "  nomarket"] else []) ++ rest) nr x dflt =
     Ok (mkPCommodity (pc_id x) (pc_name x) (pc_dec c) (pc_nomarket c) (pc_symbol x) (pc_line x), dflt,
         mkParser rest (nr + List.length ([B "  format " ++ lit_text (one_lit (pc_dec c)) ++ B " " ++ pc_id c] ++ (if pc_nomarket c then [B "  nomarket"] else []))))).
  { intros nr0 x Hx. cbn [app commodity_loop]. change (body_ends _) with false. cbn match.
    pose proof (search_c_format (pc_dec c) (pc_id c) Hi) as ES. cbn [app] in ES. rewrite ES. clear ES.
    match goal with |- context [cap "note" ?l] => set (cs := l) end.
    assert (E1 : cap "note" cs = []) by (unfold cs, lit_caps; destruct (l_frac _); reflexivity).
    assert (E2 : cap "amount" cs = lit_text (one_lit (pc_dec c))) by reflexivity.
    assert (E3 : cap "decimals" cs = cap "decimals" (lit_caps "decimals" (one_lit (pc_dec c)))) by reflexivity.
    rewrite E1, E2, E3, one_lit_decimals. destruct (lit_nonempty _ (one_lit_ok (pc_dec c))) as (a & b & ->).
    rewrite G1 by exact Hx. cbn [pc_id pc_name pc_dec pc_nomarket pc_symbol pc_line List.length]. rewrite Nat.add_succ_r. reflexivity. }
  unfold commodity_body. rewrite <- !app_assoc. destruct (pc_name c) as [|n0 n] eqn:E.
  - change (opt_line (B "  note ") []) with (@nil bytes). etransitivity; [apply G2; reflexivity|]. reflexivity.
  - change (opt_line (B "  note ") (n0 :: n)) with [B "  note " ++ n0 :: n]. destruct Hn as [Hn|(Hn1 & Hn2)]; [discriminate|].
    cbn [app commodity_loop]. change (body_ends _) with false. cbn match.
    pose proof (search_c_note (n0 :: n) Hn1 Hn2) as ES. cbn [app] in ES. rewrite ES. clear ES.
    change (cap "note" [("note"%string, n0 :: n)]) with (n0 :: n). etransitivity; [apply G2; reflexivity|].
    cbn [pc_id pc_name pc_dec pc_nomarket pc_symbol pc_line app List.length]. rewrite !Nat.add_succ_r. reflexivity.
Qed.
Lemma search_head_commodity n : id_ok n -> match_caps commodityHeadREX (B "commodity " ++ n) = [("commodity"%string, n)].
Proof.
  intros H. unfold match_caps. rewrite <- (app_nil_r (B "commodity " ++ n)).
  rewrite takes_search with (new := [("commodity"%string, n)]) (P := at_end); [reflexivity| |reflexivity].
  change commodityHeadREX with (rseq [rlit (B "commodity"); rplus s_; rx_commodity]). cbn [rseq].
  eapply takes_eq; [eapply takes_seq with (t1 := B "commodity") (c1 := []) (P1 := fun _ => True); [apply takes_lit|
    eapply takes_seq with (t1 := B " ") (c1 := []) (P1 := hd_not is_space); [apply takes_spaces; [discriminate|reflexivity|auto]|
      eapply takes_weaken; [|apply takes_id, H]|]|]| |].
  - apply at_end_nil.
  - intros rest _. destruct H as (c & r & -> & Hc & _). cbn. apply alpha_not_space, Hc.
  - intros; exact I.
  - reflexivity.
  - reflexivity.
Qed.
Lemma commodity_reads e c : commodity_ok c -> pc_symbol c = [] -> entry_reads e (ICommodity c) ((B "commodity " ++ pc_id c) :: commodity_body c).
Proof.
  intros H Hs. split; [discriminate|]. split.
  - destruct H as (Hi & Hn). constructor; [apply line_app; [apply line_lit; reflexivity|apply line_id, Hi]|].
    unfold commodity_body. repeat (apply Forall_app; split).
    + apply line_opt; [apply line_lit; reflexivity|]. destruct Hn as [->|(Hd & _)]; [constructor|exact Hd].
    + constructor; [|constructor]. apply line_app; [apply line_lit; reflexivity|]. apply line_app; [apply line_literal, one_lit_ok|].
      apply line_app; [apply line_lit; reflexivity|apply line_id, Hi].
    + destruct (pc_nomarket c); constructor; [apply line_lit; reflexivity|constructor].
  - intros rest nr. cbn [app item_sep].
    rewrite next_commodity.
    unfold parse_commodity. rewrite search_head_commodity by apply H. change (cap "commodity" [("commodity"%string, pc_id c)]) with (pc_id c).
    rewrite commodity_body_read; try reflexivity; [|exact H|exact Hs]. cbn [bind fst snd item_at List.length]. rewrite Hs.
    rewrite Nat.add_succ_r. reflexivity.
Qed.

(** prices *)
Definition rx_price : rx := RSeq (rlit (B "P ")) (RSeq rx_date (RSeq (rplus s_) (RSeq (RGrp "commodity1" (RSeq (RSet is_alpha) (RStar w_)))
  (RSeq (rplus s_) (rx_amount_n "amount" "decimals" "commodity2"))))).
Lemma priceREX_eq : priceREX = rx_price. Proof. reflexivity. Qed.
Definition price_line (p : pprice) : bytes :=
  B "P " ++ format_date (pp_time p) ++ B " " ++ pp_commodity p ++ B " " ++ lit_text (own_lit (pp_value p)) ++ B " " ++ pp_currency p.
Lemma lit_hd_nonspace l rest : lit_ok l -> hd_not is_space (lit_text l ++ rest).
Proof.
  intros H. eapply hd_is_not; [|apply hd_is_app, lit_head, H].
  intros c Hc. apply orb_true_iff in Hc as [Hc|Hc]; [apply digit_not_space, Hc|]. apply eqc_eq in Hc. subst c. reflexivity.
Qed.
Lemma search_price n c l i : 0 <= year_of n <= 9999 -> id_ok c -> lit_ok l -> id_ok i ->
  rsearch priceREX (B "P " ++ format_date n ++ B " " ++ c ++ B " " ++ lit_text l ++ B " " ++ i) =
  Some ([], (("commodity2"%string, i) :: ("amount"%string, lit_text l) :: lit_caps "decimals" l) ++ [("commodity1"%string, c)] ++ wdate_caps n).
Proof.
  intros Hn Hc Hl Hi. rewrite priceREX_eq. assert (TD := takes_written n Hn). rewrite DateREX_eq in TD.
  match goal with |- rsearch ?r ?t = _ => rewrite <- (app_nil_r t); apply takes_search with (P := at_end); [|reflexivity] end.
  unfold rx_price.
  eapply takes_eq; [eapply takes_seq with (c1 := []) (P1 := fun _ => True); [apply takes_lit|
    eapply takes_seq with (P1 := ends_date); [exact TD|
     eapply takes_seq with (t1 := B " ") (c1 := []) (P1 := hd_not is_space); [apply takes_spaces; [discriminate|reflexivity|auto]|
      eapply takes_seq with (P1 := hd_not is_word); [apply takes_id, Hc|
       eapply takes_seq with (t1 := B " ") (c1 := []) (P1 := hd_not is_space); [apply takes_spaces; [discriminate|reflexivity|auto]|
        eapply takes_weaken; [|apply (takes_amount _ _ _ l (B " ") i); [exact Hl|discriminate|reflexivity|exact Hi]]; apply at_end_nil|]|]|]|]|]| |].
  - intros rest _. rewrite <- app_assoc. apply lit_hd_nonspace, Hl.
  - intros rest _. reflexivity.
  - intros rest _. destruct Hc as (x & r & -> & Hx & _). cbn. apply alpha_not_space, Hx.
  - intros rest _. cbn. split; [reflexivity|]. repeat split; discriminate.
  - intros; exact I.
  - rewrite <- ?app_assoc. reflexivity.
  - rewrite ?app_nil_r, <- ?app_assoc. reflexivity.
Qed.
Lemma price_reads e p : price_ok e p -> entry_reads e (IPrice p) [price_line p].
Proof.
  intros (Hy & Hc & Hv & Hcur). split; [discriminate|]. split.
  - constructor; [|constructor]. unfold price_line.
    apply line_app; [apply line_lit; reflexivity|]. apply line_app; [apply line_date; lia|].
    apply line_app; [apply line_lit; reflexivity|]. apply line_app; [apply line_id, Hc|].
    apply line_app; [apply line_lit; reflexivity|]. apply line_app; [apply line_literal, own_lit_ok|].
    apply line_app; [apply line_lit; reflexivity|]. rewrite Hcur. apply line_id, Hv.
  - intros rest nr. cbn [app item_sep].
    unfold price_line. rewrite next_price. unfold parse_price. rewrite search_price; [|lia|exact Hc|apply own_lit_ok|rewrite Hcur; apply Hv].
    set (cs := _ ++ _ ++ _).
    assert (E1 : cap "commodity2" cs = pp_currency p) by reflexivity.
    assert (E2 : cap "amount" cs = lit_text (own_lit (pp_value p))) by reflexivity.
    assert (E3 : cap "commodity1" cs = pp_commodity p) by (unfold cs, lit_caps; destruct (l_frac _); reflexivity).
    assert (E4 : must_parse_date (e_today e) cs = Ok (pp_time p)).
    { unfold must_parse_date. destruct (e_today e) as [[y m] d]. unfold cs. rewrite app_assoc, parse_written; [reflexivity|exact Hy|].
      intros k Hk. apply Forall_forall. intros [a b] Hin. cbn [fst]. intros ->.
      apply in_app_or in Hin as [[Hin|[Hin|Hin]]|[Hin|[]]].
      - injection Hin as <- _. cbn in Hk. intuition discriminate.
      - injection Hin as <- _. cbn in Hk. intuition discriminate.
      - unfold lit_caps in Hin. destruct (l_frac _); [contradiction|]. destruct Hin as [Hin|[]]. injection Hin as <- _. cbn in Hk. intuition discriminate.
      - injection Hin as <- _. cbn in Hk. intuition discriminate. }
    rewrite E1, E2, E3, E4. cbn [bind]. unfold must_find. rewrite Hcur, (proj2 (proj2 (proj2 Hv))). cbn [bind].
    rewrite (own_parse e _ Hv). cbn [bind fst snd item_at List.length]. rewrite Hcur, Nat.add_1_r. reflexivity.
Qed.
Lemma tx_reads e acc_dec t : transaction_ok e t -> exists ls, write_transaction acc_dec t = Ok (text_of ls) /\ entry_reads e (ITransaction t) ls.
Proof.
  intros H. destruct (write_file_one e acc_dec t H) as (aw & mw & E). exists (tx_lines aw mw t). split; [exact E|].
  split; [|split].
  - intros E'. assert (P := tx_lines_pos aw mw t). rewrite E' in P. cbn in P. lia.
  - destruct H as (Hh & _ & Hp). unfold tx_lines. apply Forall_app. split; [apply line_head, Hh|].
    unfold plines. apply Forall_concat, Forall_map. eapply Forall_impl; [|exact Hp]. intros s Hs. apply (line_posting e), Hs.
  - intros rest nr. cbn [item_sep app]. apply next_tx; [exact H|reflexivity].
Qed.
Lemma item_reads e acc_dec i : item_ok e i -> exists ls, write_item acc_dec i = Ok (text_of ls) /\ entry_reads e i ls.
Proof.
  destruct i as [t|a|c|p|t|f n]; cbn [item_ok write_item]; intros H; try contradiction.
  - apply tx_reads, H.
  - rewrite write_account_lines. eexists. split; [reflexivity|]. apply account_reads, H.
  - rewrite write_commodity_lines. eexists. split; [reflexivity|]. apply commodity_reads; apply H.
  - exists [price_line p]. split; [|apply price_reads, H]. unfold write_price, write_amount. destruct H as (_ & _ & Hv & Hcur).
    rewrite (own_format e _ Hv). cbn [bind]. rewrite text_one. unfold put_line, price_line. rewrite Hcur, <- !app_assoc. reflexivity.
Qed.
Lemma items_read e acc_dec is_ : Forall (item_ok e) is_ ->
  exists ls, write_items acc_dec is_ = Ok (text_of ls) /\ Forall line_text ls /\ (List.length is_ <= List.length ls)%nat /\
    forall fuel nr k, (List.length is_ < fuel)%nat -> exists js, read_items fuel e (mkParser (repeat [] k ++ ls) nr) = Ok js /\ Forall2 same_item is_ js.
Proof.
  intros H. unfold write_items. induction H as [|i is_ Hi _ IH].
  - exists []. split; [reflexivity|]. split; [constructor|]. split; [cbn; lia|]. intros fuel nr k Hf. destruct fuel as [|fuel]; [lia|].
    cbn [read_items]. unfold next. cbn [p_lines p_nr]. rewrite next_skip. cbn. exists []. split; [reflexivity|constructor].
  - destruct (item_reads e acc_dec i Hi) as (li & Ei & Hne & Hl & Hn). destruct IH as (ls & E & Hls & Hlen & IH).
    exists (li ++ item_sep i ++ ls). cbn [res_map]. rewrite Ei. cbn [bind]. apply bind_ok in E as (x & E1 & E2). injection E2 as E2. rewrite E1. cbn [bind concat].
    split; [rewrite E2, !text_app, <- !app_assoc; reflexivity|]. split; [repeat (apply Forall_app; split); auto; destruct i; repeat constructor|].
    split; [rewrite !app_length; destruct li; [congruence|cbn [List.length]; lia]|].
    intros fuel nr k Hf. destruct fuel as [|fuel]; [lia|]. cbn [read_items]. unfold next. cbn [p_lines p_nr]. rewrite next_skip, Hn.
    cbn [bind]. rewrite env_eta. cbn [List.length] in Hf.
    assert (Es : item_sep i = repeat [] (List.length (item_sep i))) by (destruct i; reflexivity). rewrite Es.
    destruct (IH fuel (nr + k + List.length li)%nat (List.length (item_sep i)) ltac:(lia)) as (js & EJ & HJ).
    unfold bytes in *. rewrite EJ. cbn [bind]. eexists. split; [reflexivity|]. constructor; [|exact HJ]. destruct i; reflexivity.
Qed.
Lemma write_read_items e acc_dec is_ : Forall (item_ok e) is_ ->
  exists text js, write_items acc_dec is_ = Ok text /\ read_text e text = Ok js /\ Forall2 same_item is_ js.
Proof.
  intros H. destruct (items_read e acc_dec is_ H) as (ls & E1 & E2 & E3 & E4).
  destruct (E4 (S (List.length ls)) 1%nat O ltac:(lia)) as (js & E5 & E6). exists (text_of ls), js. split; [exact E1|]. split; [|exact E6].
  unfold read_text, new_parser. rewrite scan_text by exact E2. exact E5.
Qed.

(** a note without the space after ';' *)
Lemma takes_semi0 nm n : line_text n -> hd_not (eqc " "%char) n -> takes (semi_note nm) (B ";" ++ n) [(nm, n)] at_end.
Proof.
  intros H Hn. unfold semi_note. cbn [rseq].
  eapply takes_eq; [eapply takes_seq with (t1 := [";"%char]) (c1 := []) (P1 := fun _ => True);
    [apply takes_char|eapply takes_seq with (t1 := []) (c1 := []) (P1 := hd_not (eqc " "%char));
      [apply takes_opt_none|apply takes_grp, takes_any; [exact H|]|]|]| |].
  - intros rest HR. apply fails_set, HR.
  - intros rest HR. exact HR.
  - intros rest ->. rewrite app_nil_r. exact Hn.
  - intros; exact I.
  - reflexivity.
  - reflexivity.
Qed.
Lemma search_nline0 sp n : sp <> [] -> forallb is_space sp = true -> line_text n -> hd_not (eqc " "%char) n ->
  rsearch postingREX (sp ++ B ";" ++ n) = Some ([], [("note"%string, n)]).
Proof.
  intros Hs1 Hs2 Hn Hsp. rewrite postingREX_eq. rewrite <- (app_nil_r (sp ++ B ";" ++ n)).
  apply takes_search with (P := at_end); [|reflexivity].
  apply takes_alt_r.
  - intros rest ->. rewrite app_nil_r. cbn [rseq]. apply fails_spaces; [exact Hs2|reflexivity| |].
    + intros s Hs. apply fails_seq_l, fails_grp, fails_seq_l, fails_seq_l, fails_set. eapply hd_is_not; [|exact Hs]. apply space_not_alpha.
    + apply fails_seq_l, fails_grp, fails_seq_l, fails_seq_l, fails_set. reflexivity.
  - eapply takes_eq; [eapply takes_seq with (t1 := sp) (c1 := []) (P1 := hd_not is_space);
     [apply takes_spaces; [exact Hs1|exact Hs2|auto]|apply takes_semi0; [exact Hn|exact Hsp]|]| |].
    + intros; reflexivity.
    + reflexivity.
    + reflexivity.
Qed.
Lemma same_write acc_dec t t' : same_transaction t t' -> write_transaction acc_dec t = write_transaction acc_dec t'.
Proof. destruct t, t'. unfold same_transaction, at_line. cbn. intros H. injection H as -> -> -> -> ->. reflexivity. Qed.
Lemma same_writes acc_dec ts ts' : Forall2 same_transaction ts ts' -> write_transactions acc_dec ts = write_transactions acc_dec ts'.
Proof.
  intros H. unfold write_transactions. f_equal. induction H as [|t t' ts ts' H _ IH]; [reflexivity|]. cbn [res_map].
  rewrite (same_write acc_dec _ _ H), IH. reflexivity.
Qed.
Lemma transactions_of_map ts : transactions_of (map ITransaction ts) = ts.
Proof. induction ts; [reflexivity|]. cbn. f_equal. assumption. Qed.
