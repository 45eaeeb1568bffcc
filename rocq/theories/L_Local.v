(** What is read as an entry depends only on its own lines and the first line after it. *)
From Verif Require Import Base M_Amount M_Regex M_Date M_Parser M_Writer S_Ledger L_Dec L_RoundTrip L_Entries.

Lemma hd_nil {A} (l : list A) : hd_error l = None -> l = [].
Proof. destruct l; [reflexivity|discriminate]. Qed.
Lemma tx_loop_local e lines : forall nr tn ps pend tn' ps' pend' p, tx_loop e lines nr tn ps pend = Ok (tn', ps', pend', p) ->
  exists pre, lines = pre ++ p_lines p /\ p_nr p = (nr + List.length pre)%nat /\
  forall rest2 nr2, hd_error rest2 = hd_error (p_lines p) ->
    tx_loop e (pre ++ rest2) nr2 tn ps pend = Ok (tn', ps', pend', mkParser rest2 (nr2 + List.length pre)).
Proof.
  induction lines as [|l rest IH]; intros nr tn ps pend tn' ps' pend' p H; cbn [tx_loop] in H.
  - injection H as <- <- <- <-. exists []. cbn [app List.length p_lines p_nr]. split; [reflexivity|]. split; [lia|].
    intros rest2 nr2 Hr. apply hd_nil in Hr. subst. cbn [tx_loop]. rewrite Nat.add_0_r. reflexivity.
  - destruct (rsearch postingREX l) as [[rs cs]|] eqn:Er.
    + assert (G : forall tn1 ps1 pend1, tx_loop e rest (S nr) tn1 ps1 pend1 = Ok (tn', ps', pend', p) ->
        exists pre, l :: rest = (l :: pre) ++ p_lines p /\ p_nr p = (nr + List.length (l :: pre))%nat /\
        forall rest2 nr2, hd_error rest2 = hd_error (p_lines p) ->
          tx_loop e (pre ++ rest2) (S nr2) tn1 ps1 pend1 = Ok (tn', ps', pend', mkParser rest2 (nr2 + List.length (l :: pre)))).
      { intros tn1 ps1 pend1 E. destruct (IH _ _ _ _ _ _ _ _ E) as (pre & E1 & E2 & E3). exists pre. cbn [app List.length]. split; [congruence|]. split; [lia|].
        intros rest2 nr2 Hr. rewrite (E3 rest2 (S nr2) Hr). do 3 f_equal. lia. }
      destruct (cap "note" cs) as [|c0 n0] eqn:En.
      * unbind H. unbind H. unbind H. destruct (G _ _ _ H) as (pre & E2 & E3 & E4). exists (l :: pre). split; [exact E2|]. split; [exact E3|].
        intros rest2 nr2 Hr. cbn [app tx_loop]. rewrite Er, En. 
        rewrite E. cbn [bind]. rewrite E0. cbn [bind]. rewrite E1. cbn [bind]. apply E4, Hr.
      * destruct (G _ _ _ H) as (pre & E2 & E3 & E4). exists (l :: pre). split; [exact E2|]. split; [exact E3|].
        intros rest2 nr2 Hr. cbn [app tx_loop]. rewrite Er, En. apply E4, Hr.
    + injection H as <- <- <- <-. exists []. cbn [app List.length p_lines p_nr]. split; [reflexivity|]. split; [lia|].
      intros rest2 nr2 Hr. destruct rest2 as [|l2 rest2]; [discriminate|]. injection Hr as ->. cbn [tx_loop]. rewrite Er, Nat.add_0_r. reflexivity.
Qed.
(** the account with the line it was found at left out *)
Definition acc0 (a : paccount) : item := item_at 0 (IAccount a).
Lemma account_loop_local e lines : forall nr a a' p, account_loop e lines nr a = Ok (a', p) ->
  exists pre, lines = pre ++ p_lines p /\ p_nr p = (nr + List.length pre)%nat /\
  forall rest2 nr2 n2, hd_error rest2 = hd_error (p_lines p) ->
    let at2 a := mkPAccount (pa_name a) (pa_desc a) (pa_commodity a) (pa_closed a) (pa_bankid a) (pa_acctid a) (pa_csvid a) n2 in
    account_loop e (pre ++ rest2) nr2 (at2 a) = Ok (at2 a', mkParser rest2 (nr2 + List.length pre)).
Proof.
  induction lines as [|l rest IH]; intros nr a a' p H; cbn [account_loop] in H.
  - injection H as <- <-. exists []. cbn [app List.length p_lines p_nr]. split; [reflexivity|]. split; [lia|].
    intros rest2 nr2 n2 Hr. apply hd_nil in Hr. subst. cbn [account_loop]. rewrite Nat.add_0_r. reflexivity.
  - destruct (body_ends l) eqn:Eb.
    + injection H as <- <-. exists []. cbn [app List.length p_lines p_nr]. split; [reflexivity|]. split; [lia|].
      intros rest2 nr2 n2 Hr. destruct rest2 as [|l2 rest2]; [discriminate|]. injection Hr as ->. cbn [account_loop]. rewrite Eb, Nat.add_0_r. reflexivity.
    + destruct (rsearch accountBodyREX l) as [[rs cs]|] eqn:Er; [|discriminate]. apply bind_ok in H as (a1 & E & H).
      destruct (IH _ _ _ _ H) as (pre & E1 & E2 & E3). exists (l :: pre). cbn [app List.length]. split; [congruence|]. split; [lia|].
      intros rest2 nr2 n2 Hr. specialize (E3 rest2 (S nr2) n2 Hr). cbn beta zeta in *. cbn [account_loop]. rewrite Eb, Er.
      replace (nr2 + S (List.length pre))%nat with (S nr2 + List.length pre)%nat by lia. rewrite <- E3. clear E3 H IH E1 E2.
      cbn [pa_name pa_desc pa_commodity pa_closed pa_bankid pa_acctid pa_csvid pa_line].
      repeat match type of E with match ?x with _ => _ end = _ => destruct x end; try (injection E as <-; reflexivity).
      destruct (must_parse_date (e_today e) cs); [|discriminate|discriminate]. cbn [bind] in *. injection E as <-. reflexivity.
Qed.
Lemma commodity_loop_local lines : forall nr c d c' d' p, commodity_loop lines nr c d = Ok (c', d', p) ->
  exists pre, lines = pre ++ p_lines p /\ p_nr p = (nr + List.length pre)%nat /\
  forall rest2 nr2 n2, hd_error rest2 = hd_error (p_lines p) ->
    let at2 c := mkPCommodity (pc_id c) (pc_name c) (pc_dec c) (pc_nomarket c) (pc_symbol c) n2 in
    commodity_loop (pre ++ rest2) nr2 (at2 c) d = Ok (at2 c', d', mkParser rest2 (nr2 + List.length pre)).
Proof.
  induction lines as [|l rest IH]; intros nr c d c' d' p H; cbn [commodity_loop] in H.
  - injection H as <- <- <-. exists []. cbn [app List.length p_lines p_nr]. split; [reflexivity|]. split; [lia|].
    intros rest2 nr2 n2 Hr. apply hd_nil in Hr. subst. cbn [commodity_loop]. rewrite Nat.add_0_r. reflexivity.
  - destruct (body_ends l) eqn:Eb.
    + injection H as <- <- <-. exists []. cbn [app List.length p_lines p_nr]. split; [reflexivity|]. split; [lia|].
      intros rest2 nr2 n2 Hr. destruct rest2 as [|l2 rest2]; [discriminate|]. injection Hr as ->. cbn [commodity_loop]. rewrite Eb, Nat.add_0_r. reflexivity.
    + destruct (rsearch commodityBodyREX l) as [[rs cs]|] eqn:Er; [|discriminate].
      assert (G : forall c1 d1, commodity_loop rest (S nr) c1 d1 = Ok (c', d', p) ->
        exists pre, l :: rest = (l :: pre) ++ p_lines p /\ p_nr p = (nr + List.length (l :: pre))%nat /\
        forall rest2 nr2 n2, hd_error rest2 = hd_error (p_lines p) ->
          let at2 c := mkPCommodity (pc_id c) (pc_name c) (pc_dec c) (pc_nomarket c) (pc_symbol c) n2 in
          commodity_loop (pre ++ rest2) (S nr2) (at2 c1) d1 = Ok (at2 c', d', mkParser rest2 (nr2 + List.length (l :: pre)))).
      { intros c1 d1 E. destruct (IH _ _ _ _ _ _ E) as (pre & E1 & E2 & E3). exists pre. cbn [app List.length]. split; [congruence|]. split; [lia|].
        intros rest2 nr2 n2 Hr. cbn beta zeta in *. rewrite (E3 rest2 (S nr2) n2 Hr). do 3 f_equal. lia. }
      destruct (cap "note" cs) eqn:C1; [destruct (cap "amount" cs) eqn:C2; [destruct (cap "nomarket" cs) eqn:C3; [destruct (cap "symbol" cs) eqn:C4; [destruct (cap "default" cs) eqn:C5|]|]|]|]; try discriminate;
        (destruct (G _ _ H) as (pre & E2 & E3 & E4); exists (l :: pre); split; [exact E2|]; split; [exact E3|];
         intros rest2 nr2 n2 Hr; specialize (E4 rest2 nr2 n2 Hr); cbn beta zeta in *; cbn [app commodity_loop];
         rewrite Eb, Er, C1; try rewrite C2; try rewrite C3; try rewrite C4; try rewrite C5; exact E4).
Qed.
Lemma test_loop_local lines : forall nr b b' p, test_loop lines nr b = (b', p) ->
  exists pre, lines = pre ++ p_lines p /\ p_nr p = (nr + List.length pre)%nat /\
  forall rest2 nr2, hd_error rest2 = hd_error (p_lines p) -> test_loop (pre ++ rest2) nr2 b = (b', mkParser rest2 (nr2 + List.length pre)).
Proof.
  induction lines as [|l rest IH]; intros nr b b' p H; cbn [test_loop] in H.
  - injection H as <- <-. exists []. cbn [app List.length p_lines p_nr]. split; [reflexivity|]. split; [lia|].
    intros rest2 nr2 Hr. apply hd_nil in Hr. subst. cbn [test_loop]. rewrite Nat.add_0_r. reflexivity.
  - destruct (eqb_bytes (trim_space l) (B "end test")) eqn:E.
    + injection H as <- <-. exists [l]. cbn [app List.length p_lines p_nr]. split; [reflexivity|]. split; [lia|].
      intros rest2 nr2 Hr. cbn [test_loop]. rewrite E. do 2 f_equal. lia.
    + destruct (IH _ _ _ _ H) as (pre & E1 & E2 & E3). exists (l :: pre). cbn [app List.length]. split; [congruence|]. split; [lia|].
      intros rest2 nr2 Hr. cbn [test_loop]. rewrite E, (E3 rest2 (S nr2) Hr). do 2 f_equal. lia.
Qed.
(** a test whose text ends at once *)
Lemma next_lines_local e lines : forall nr i d p, next_lines e lines nr = Ok (Some (i, d, p)) ->
  exists skip pre, lines = skip ++ pre ++ p_lines p /\ pre <> [] /\ item_line i = (nr + List.length skip)%nat /\
    p_nr p = (nr + List.length skip + List.length pre)%nat /\
  (forall rest2 nr2, hd_error rest2 = hd_error (p_lines p) ->
    next_lines e (skip ++ pre ++ rest2) nr2 =
      Ok (Some (item_at (nr2 + List.length skip) i, d, mkParser rest2 (nr2 + List.length skip + List.length pre)))) /\
  (forall t, i = ITest t -> exists h body, pre = h :: body /\ test_loop (body ++ p_lines p) (S (nr + List.length skip)) [] = (pt_result t, p) /\
     forall after nr2, next_lines e (skip ++ h :: after) nr2 =
       let '(b, p2) := test_loop after (S (nr2 + List.length skip)) [] in
       Ok (Some (ITest (mkPTest (pt_cmd t) b (nr2 + List.length skip)), d, p2))).
Proof.
  induction lines as [|l rest IH]; intros nr i d p H; [discriminate|]. cbn [next_lines] in H.
  match goal with |- ?G => assert (Hskip : (forall r n, next_lines e (l :: r) n = next_lines e r (S n)) -> next_lines e rest (S nr) = Ok (Some (i, d, p)) -> G) end.
  { intros Hs E. destruct (IH _ _ _ _ E) as (skip & pre & E1 & E2 & E3 & E4 & E5 & E6). exists (l :: skip), pre.
    cbn [app List.length]. split; [congruence|]. split; [exact E2|]. split; [lia|]. split; [lia|]. split.
    - intros rest2 nr2 Hr. rewrite Hs, (E5 rest2 (S nr2) Hr). replace (nr2 + S (List.length skip))%nat with (S nr2 + List.length skip)%nat by lia. reflexivity.
    - intros t Et. destruct (E6 t Et) as (h & bd & F1 & F2 & F3). exists h, bd. split; [exact F1|].
      replace (nr + S (List.length skip))%nat with (S nr + List.length skip)%nat by lia. split; [exact F2|].
      intros after nr2. rewrite Hs, F3. replace (nr2 + S (List.length skip))%nat with (S nr2 + List.length skip)%nat by lia. reflexivity. }
  destruct (blank l) eqn:Eb; [apply Hskip; [intros r n; cbn [next_lines]; rewrite Eb; reflexivity|exact H]|]. destruct l as [|c l]; [discriminate|].
  destruct (existsb (eqc c) (B ";#%|*")) eqn:Ec; [apply Hskip; [intros r n; cbn [next_lines]; rewrite Eb, Ec; reflexivity|exact H]|]. clear Hskip IH.
  match goal with |- ?G => assert (K : forall body, rest = body ++ p_lines p -> item_line i = nr -> p_nr p = (S nr + List.length body)%nat ->
    (forall rest2 nr2, hd_error rest2 = hd_error (p_lines p) ->
      next_lines e ((c :: l) :: body ++ rest2) nr2 = Ok (Some (item_at nr2 i, d, mkParser rest2 (S nr2 + List.length body)))) ->
    (forall t, i = ITest t -> test_loop (body ++ p_lines p) (S nr) [] = (pt_result t, p) /\
      forall after nr2, next_lines e ((c :: l) :: after) nr2 =
       let '(b, p2) := test_loop after (S nr2) [] in Ok (Some (ITest (mkPTest (pt_cmd t) b nr2), d, p2))) -> G) end.
  { intros body K1 K2 K3 K4 K5. exists [], ((c :: l) :: body). cbn [app List.length]. split; [congruence|]. split; [discriminate|]. split; [lia|].
    split; [lia|]. split.
    - intros rest2 nr2 Hr. etransitivity; [exact (K4 rest2 nr2 Hr)|]. rewrite !Nat.add_0_r. do 4 f_equal. lia.
    - intros t Et. destruct (K5 t Et) as [F1 F2]. exists (c :: l), body. rewrite Nat.add_0_r. split; [reflexivity|]. split; [exact F1|].
      intros after nr2. etransitivity; [exact (F2 after nr2)|]. rewrite Nat.add_0_r. reflexivity. }
  destruct (has_prefix (B "include") (c :: l)) eqn:P1.
  { unbind H. injection H as <- <- <-. unfold parse_include in E. destruct (rsearch includeHead (c :: l)) as [[rs cs]|] eqn:Er; [|discriminate].
    injection E as <-. cbn [fst snd p_lines p_nr] in *. apply (K []); [reflexivity|reflexivity|cbn [List.length]; lia| |discriminate].
    intros rest2 nr2 Hr. cbn [next_lines app List.length]. rewrite Eb, Ec, P1. unfold parse_include. rewrite Er. cbn [bind fst snd item_at]. do 4 f_equal. lia. }
  destruct (has_prefix (B "account") (c :: l)) eqn:P2.
  { unbind H. injection H as <- <- <-. destruct a as [a' p']. unfold parse_account in E. cbn [fst snd] in *.
    assert (El := proj2 (account_loop_follows _ _ _ _ _ _ E)). destruct (account_loop_local _ _ _ _ _ _ E) as (pre & E1 & E2 & E3).
    apply (K pre); [exact E1|exact El|exact E2| |discriminate].
    intros rest2 nr2 Hr. cbn [next_lines app]. rewrite Eb, Ec, P1, P2. unfold parse_account. specialize (E3 rest2 (S nr2) nr2 Hr). cbn beta zeta in E3.
    cbn [pa_name pa_desc pa_commodity pa_closed pa_bankid pa_acctid pa_csvid pa_line] in E3. rewrite E3. reflexivity. }
  destruct (has_prefix (B "commodity ") (c :: l)) eqn:P3.
  { unbind H. injection H as <- <- <-. destruct a as [[a' d'] p']. unfold parse_commodity in E. cbn [fst snd] in *.
    assert (El := proj2 (commodity_loop_follows _ _ _ _ _ _ _ E)). destruct (commodity_loop_local _ _ _ _ _ _ _ E) as (pre & E1 & E2 & E3).
    apply (K pre); [exact E1|exact El|exact E2| |discriminate].
    intros rest2 nr2 Hr. cbn [next_lines app]. rewrite Eb, Ec, P1, P2, P3. unfold parse_commodity. specialize (E3 rest2 (S nr2) nr2 Hr). cbn beta zeta in E3.
    cbn [pc_id pc_name pc_dec pc_nomarket pc_symbol pc_line] in E3. rewrite E3. reflexivity. }
  destruct (has_prefix (B "test ") (c :: l)) eqn:P4.
  { unbind H. injection H as <- <- <-. unfold parse_test in E. destruct (rsearch testHead (c :: l)) as [[rs cs]|] eqn:Er; [|discriminate].
    destruct (test_loop rest (S nr) []) as [b p'] eqn:ET. injection E as <-. cbn [fst snd] in *.
    destruct (test_loop_local _ _ _ _ _ ET) as (pre & E1 & E2 & E3).
    apply (K pre); [exact E1|reflexivity|exact E2| |].
    - intros rest2 nr2 Hr. cbn [next_lines app]. rewrite Eb, Ec, P1, P2, P3, P4. unfold parse_test. rewrite Er, (E3 rest2 (S nr2) Hr). reflexivity.
    - intros t Et. injection Et as <-. cbn [pt_result pt_cmd]. split; [rewrite <- E1; exact ET|].
      intros after nr2. cbn [next_lines app]. rewrite Eb, Ec, P1, P2, P3, P4. unfold parse_test. rewrite Er. destruct (test_loop after (S nr2) []). reflexivity. }
  destruct (has_prefix (B "P ") (c :: l)) eqn:P5.
  { unbind H. injection H as <- <- <-. unfold parse_price in E. destruct (rsearch priceREX (c :: l)) as [[rs cs]|] eqn:Er; [|discriminate].
    unbind E. unbind E. unbind E. injection E as <-. cbn [fst snd p_lines p_nr] in *. apply (K []); [reflexivity|reflexivity|cbn [List.length]; lia| |discriminate].
    intros rest2 nr2 Hr. cbn [next_lines app List.length]. rewrite Eb, Ec, P1, P2, P3, P4, P5. unfold parse_price. rewrite Er, E0. cbn [bind]. rewrite E1. cbn [bind]. rewrite E2. cbn [bind fst snd item_at].
    do 4 f_equal. lia. }
  destruct (is_digit c) eqn:P6; [|discriminate].
  unbind H. injection H as <- <- <-. destruct a as [t p']. unfold parse_transaction in E. cbn [fst snd] in *.
  destruct (rsearch transactionREX (c :: l)) as [[rs cs]|] eqn:Er; [|discriminate]. unbind E. unbind E. destruct a0 as [[[tn ps] pend] p''].
  unbind E. injection E as <- <-. destruct (tx_loop_local _ _ _ _ _ _ _ _ _ _ E1) as (pre & F1 & F2 & F3).
  apply (K pre); [exact F1|reflexivity|exact F2| |discriminate].
  intros rest2 nr2 Hr. cbn [next_lines app]. rewrite Eb, Ec, P1, P2, P3, P4, P5, P6. unfold parse_transaction. rewrite Er, E0. cbn [bind].
  rewrite (F3 rest2 (S nr2) Hr). cbn [bind]. rewrite E2. cbn [bind fst snd]. reflexivity.
Qed.
Lemma next_lines_none e lines : forall nr nr2, next_lines e lines nr = Ok None -> next_lines e lines nr2 = Ok None.
Proof.
  induction lines as [|l rest IH]; intros nr nr2 H; [reflexivity|]. cbn [next_lines] in *.
  destruct (blank l); [eapply IH, H|]. destruct l as [|c l]; [reflexivity|]. destruct (existsb (eqc c) (B ";#%|*")); [eapply IH, H|].
  repeat match type of H with (if ?b then _ else _) = _ => destruct b end; try discriminate; apply bind_ok in H as (x & _ & H); discriminate.
Qed.
