(** C154: "coin test file", from the text of the file to the verdicts, for tests of balance and register. *)
From Coq Require Import Permutation Sorted.
From Verif Require Import Base M_Amount M_Convert M_Date M_Names M_Tags M_Parser M_Ledger M_Report M_Database M_Output M_Coin M_Flags M_RegLine M_Commands M_TestReport M_Main
  S_Decimal S_Amount S_Names S_Books S_Report S_Database S_Output S_Coin S_Commands S_TestReport S_Flags S_RegLine S_Main L_Dec L_Resolve L_Tree L_Tree2 L_Words L_Flags L_Coin2
  Properties_Parser Properties_Database Properties_Coin Properties_Coin3 Properties_TestReport Properties_Flags Properties_RegLine Properties_Main.
Local Open Scope Z_scope.

(** ** Specification *)
Section Covered.
Variables (td : today) (es : list event) (names : list bytes) (parent : bytes -> option bytes) (find : bytes -> res bytes) (rexm : bytes -> bytes -> bool)
  (comm : bytes -> commodity) (id : bytes -> bytes).
(** [out] is the listing that the command of the test calls for, by the entries of the file *)
Inductive listing_for (t : ptest) (out : bytes) : Prop :=
| by_balance name line account begin end_ payee tag level zero com own total lines :
    spaced (pt_cmd t) (name :: line) -> called Balance name -> balance_meaning td find line account begin end_ payee tag level zero ->
    (forall x, under parent account x -> comm x = com) -> posted_totals es names parent find rexm begin end_ tag payee own total ->
    listed parent id com account level zero own total lines -> out = table_text lines -> listing_for t out
| by_register name line given pattern args q acc com shown lines :
    spaced (pt_cmd t) (name :: line) -> called Register name -> command_line (register_options td) given (pattern :: args) line -> asks td given q ->
    find pattern = Ok acc -> plain_request parent comm com (chosen_by rexm find q) (file_rows es) q acc ->
    rows_shown parent (account_listed parent q acc) (chosen_by rexm find q) (file_rows es) shown -> lines_of_rows find com id q acc shown lines ->
    out = title q acc (c_id com) ++ register_text lines -> listing_for t out.
(** the tests covered: accepted command lines of balance, or of register without aggregation, over accounts in one commodity with numbers that
    can be printed *)
Inductive covered (t : ptest) : Prop :=
| covered_balance name line account begin end_ payee tag level zero com :
    spaced (pt_cmd t) (name :: line) -> called Balance name -> balance_meaning td find line account begin end_ payee tag level zero ->
    (forall x, under parent account x -> comm x = com) ->
    (forall own total, posted_totals es names parent find rexm begin end_ tag payee own total ->
       forall x, under parent account x -> printable (mkAmount (own x) com) /\ printable (mkAmount (total x) com)) -> covered t
| covered_register name line given pattern args q acc com :
    spaced (pt_cmd t) (name :: line) -> called Register name -> command_line (register_options td) given (pattern :: args) line -> asks td given q ->
    find pattern = Ok acc -> plain_request parent comm com (chosen_by rexm find q) (file_rows es) q acc ->
    (forall shown, rows_shown parent (account_listed parent q acc) (chosen_by rexm find q) (file_rows es) shown ->
       forall i r, nth_error shown i = Some r -> printable (mkAmount (row_value r) com) /\ printable (mkAmount (sum_so_far shown i) com)) -> covered t.
End Covered.
(** what is said about a test of the file [f] whose output should be [out] *)
Inductive judged (diff : bytes -> bytes -> bytes) (f : bytes) (t : ptest) (out : bytes) : bytes -> Prop :=
| judged_open : pt_result t = [] -> judged diff f t out []
| judged_ok : pt_result t <> [] -> pt_result t = out -> judged diff f t out (B "OK " ++ about f t ++ [nl])
| judged_fail : pt_result t <> [] -> pt_result t <> out -> judged diff f t out (B "FAIL " ++ about f t ++ [nl] ++ diff (pt_result t) out).

(** ** C154 *)
Lemma alias_known td fuel compile rexm o comm b tx_of loc order rest name :
  (called Balance name -> test_commands td fuel compile rexm o comm b tx_of loc order rest name = Some (test_balance td fuel compile rexm o comm b tx_of)) /\
  (called Register name -> test_commands td fuel compile rexm o comm b tx_of loc order rest name = Some (test_register td fuel compile rexm o comm b tx_of loc order)).
Proof. split; intros H; apply alias_called in H; unfold test_commands; rewrite H; reflexivity. Qed.
(** each covered test prints its listing, for every order of maps *)
Theorem C154_tests : forall td limit w fn compile rexm fuel comm b es, load_from limit w [fn] compile fuel comm b -> all_entries w [] [fn] es ->
  forall tx_of, (forall x p, In x (b_txs b) -> In p (x_posts x) -> tx_of p = x) ->
  let find := must_find_account compile (b_names b) in let parent := t_parent (b_tree b) in let id := commodity_id (b_db b) in
  (forall t, In t (map snd (ev_txs es)) -> in_account_commodity find comm t) ->
  exists N, forall o fuel' loc order rest t, (N <= fuel')%nat -> covered td es (b_names b) parent find rexm comm t ->
    exists out, prints (test_commands td fuel' compile rexm o comm b tx_of loc order rest) t out /\ listing_for td es (b_names b) parent find rexm comm id t out.
Proof.
  intros td limit w fn compile rexm fuel comm b es Hl Hes tx_of Htx find parent id Hq.
  destruct (C147_test_balance td limit w fn compile rexm fuel comm b es Hl Hes tx_of Htx Hq) as (N1 & H1).
  destruct (C150_test_register td limit w fn compile rexm fuel comm b es Hl Hes tx_of Htx Hq) as (N2 & H2).
  exists (N1 + N2)%nat. intros o fuel' loc order rest t Hf Hc.
  destruct Hc as [name line account begin end_ payee tag level zero com S C M K P|name line given pattern args q acc com S C L A F R P].
  - pose proof (proj1 (alias_known td fuel' compile rexm o comm b tx_of loc order rest name) C) as E.
    destruct (H1 o fuel' _ t name line account begin end_ payee tag level zero com ltac:(lia) E S M K) as (own & total & T & Z).
    destruct (Z (P own total T)) as (lines & Li & Pr & _). exists (table_text lines). split; [exact Pr|]. eapply by_balance; eauto.
  - pose proof (proj2 (alias_known td fuel' compile rexm o comm b tx_of loc order rest name) C) as E.
    destruct (H2 o fuel' loc order _ t name line given pattern args q acc com ltac:(lia) E S L A F R) as (shown & T & Z).
    destruct (Z (P shown T)) as (lines & Li & Pr & _). eexists. split; [exact Pr|]. eapply by_register; eauto.
Qed.
Print Assumptions C154_tests.
(** so the whole run: with -v a verdict for each test with an expected text, in order, OK exactly if the text is the listing; without it the last
    line says OK exactly if all of them are *)
Theorem C154_run : forall td limit w fn compile rexm fuel comm b es, load_from limit w [fn] compile fuel comm b -> all_entries w [] [fn] es ->
  forall tx_of, (forall x p, In x (b_txs b) -> In p (x_posts x) -> tx_of p = x) ->
  let find := must_find_account compile (b_names b) in let parent := t_parent (b_tree b) in let id := commodity_id (b_db b) in
  (forall t, In t (map snd (ev_txs es)) -> in_account_commodity find comm t) ->
  let tests := ev_tests es in
  (forall (f : bytes) t, In (f, t) tests -> ~ In ":"%char f /\ covered td es (b_names b) parent find rexm comm t) ->
  exists N, forall o fuel' loc order rest, (N <= fuel')%nat ->
  let cs := test_commands td fuel' compile rexm o comm b tx_of loc order rest in
  exists outs, Forall2 (fun ft out => listing_for td es (b_names b) parent find rexm comm id (snd ft) out) tests outs /\
    forall diff F F',
    (o_files (test_report cs diff true F tests) = Ok F' ->
     o_err (test_report cs diff true F tests) = [] /\
     exists texts, Forall2 (fun fo text => judged diff (fst (fst fo)) (snd (fst fo)) (snd fo) text) (combine tests outs) texts /\
       o_out (test_report cs diff true F tests) = concat texts) /\
    (tests <> [] -> o_files (test_report cs diff false F tests) = Ok F' ->
     o_err (test_report cs diff false F tests) = [] /\
     exists text ok last, o_out (test_report cs diff false F tests) = text ++ verdict_line ok last /\ In last (map fst tests) /\
       (ok = true <-> Forall2 (fun ft out => pt_result (snd ft) = [] \/ pt_result (snd ft) = out) tests outs)).
Proof.
  intros td limit w fn compile rexm fuel comm b es Hl Hes tx_of Htx find parent id Hq tests Hc.
  destruct (C154_tests td limit w fn compile rexm fuel comm b es Hl Hes tx_of Htx Hq) as (N & H). exists N. intros o fuel' loc order rest Hf cs.
  assert (X : exists outs, Forall2 (fun ft out => prints cs (snd ft) out /\ listing_for td es (b_names b) parent find rexm comm id (snd ft) out) tests outs).
  { clearbody tests. induction tests as [|[f t] l IH]; [exists []; constructor|]. destruct IH as (outs & IH); [intros g u I; apply (Hc g u); right; exact I|].
    destruct (H o fuel' loc order rest t Hf) as (out & P & L); [apply (Hc f t); left; reflexivity|]. exists (out :: outs). constructor; [split; assumption|exact IH]. }
  destruct X as (outs & X). exists outs. split; [eapply f2_impl; [|exact X]; intros a c [_ K]; exact K|].
  assert (P : Forall2 (fun ft out => prints cs (snd ft) out) tests outs) by (eapply f2_impl; [|exact X]; intros a c [K _]; exact K). clear X.
  assert (One : forall t u v, prints cs t u -> prints cs t v -> u = v) by (intros t u v Q R; apply run_prints in Q; apply run_prints in R; congruence).
  assert (K : forall (f : bytes) t, In (f, t) tests -> ~ In ":"%char f /\ exists out, prints cs t out).
  { intros f t I. split; [apply (Hc f t I)|]. clear -P I. induction P as [|a c l l' Q P IH]; [destruct I|]. destruct I as [-> |I]; [exists c; exact Q|exact (IH I)]. }
  clearbody tests cs. intros diff F F'. split.
  - intros Ok'. destruct (C127_verbose cs diff F tests F' K Ok') as (E & texts & T & Eo). split; [exact E|]. exists texts. split; [|exact Eo]. clear -P T One.
    revert texts T. induction P as [|[f t] out l l' Q P IH]; intros texts T; inversion T as [|? text ? texts' T1 T2]; subst; cbn [combine]; constructor; [|apply IH; exact T2].
    cbn [fst snd] in *. destruct T1 as [Op|[An Pa]|out' An Pa Ne].
    + apply judged_open. destruct (pt_result t) eqn:Er; [reflexivity|]. destruct Op. unfold answered. rewrite Er. intros D. discriminate D.
    + apply judged_ok; [exact An|]. eapply One; eassumption.
    + rewrite (One _ _ _ Pa Q) in *. apply judged_fail; [exact An|]. congruence.
  - intros Ne Ok'. destruct (C127_quiet cs diff F tests F' Ne K Ok') as (E & texts & ok & last & Eo & Il & Iff & _). split; [exact E|]. exists (concat texts), ok, last.
    split; [exact Eo|]. split; [exact Il|]. rewrite Iff. clear -P One. split.
    + intros H. induction P as [|[f t] out l l' Q P IH]; constructor; [|apply IH; intros g u I; apply (H g u); right; exact I]. cbn [snd] in *.
      destruct (pt_result t) as [|c r] eqn:Er; [left; reflexivity|right]. destruct (eqb_bytes (c :: r) out) eqn:D; [apply eqb_bytes_eq; exact D|].
      exfalso. apply (H f t (or_introl eq_refl)). split; [unfold answered; rewrite Er; discriminate|]. exists out. split; [exact Q|]. rewrite Er. intros Y. rewrite Y, eqb_bytes_refl in D. discriminate D.
    + intros H f t I (An & out & Po & Nr). induction H as [|ft out' l l' R H IH]; [destruct I|]. inversion P; subst. destruct I as [-> |I]; [|apply IH; assumption].
      cbn [snd] in *. destruct R as [R|R]; [exact (An R)|]. apply Nr. rewrite R. eapply One; eassumption.
Qed.
Print Assumptions C154_run.
(** a test naming none of the commands of coin prints nothing: it ends the run (C127_stopped) *)
Theorem C154_unknown : forall td fuel compile rexm o comm b tx_of loc order rest t name line,
  spaced (pt_cmd t) (name :: line) -> (forall c, ~ called c name) ->
  forall out, ~ prints (test_commands td fuel compile rexm o comm b tx_of loc order rest) t out.
Proof.
  intros td fuel compile rexm o comm b tx_of loc order rest t name line S U out P. apply run_prints in P. unfold run_command in P. rewrite (L_Words.words_spaced _ _ S) in P.
  unfold test_commands in P. destruct (alias name) as [c|] eqn:E; [apply alias_called in E; exact (U c E)|discriminate P].
Qed.
Print Assumptions C154_unknown.
(** ** Examples *)
Definition qd : Z := match set_date qtoday (B "2020/1/2") with Ok d => d | _ => 0 end.
Definition qrex (p s : bytes) : bool := eqb_bytes p s.
Lemma zsum_bound k l : 0 <= k -> Forall (fun z => Z.abs z <= k) l -> Z.abs (zsum l) <= k * Z.of_nat (List.length l).
Proof. intros Hk F. induction F as [|z l H F IH]; [cbn; lia|]. cbn [zsum fold_right List.length]. rewrite Nat2Z.inj_succ. unfold zsum in *. cbn [fold_right]. lia. Qed.
(** the file of C147_hypotheses, its test, and the conditions of the theorems *)
Example C154_hypotheses : exists es, all_entries qdb [] [B "t.coin"] es /\ ev_tests es = [(B "t.coin", qtest)] /\
  let find := must_find_account M_Pattern.account_match (b_names qbook) in
  (forall t, In t (map snd (ev_txs es)) -> in_account_commodity find xcomm t) /\
  covered qtoday es (b_names qbook) (t_parent (b_tree qbook)) find qrex xcomm qtest.
Proof.
  destruct (C76_in_place _ _ _ _ qdb_loaded) as (es & A1 & _ & A3). exists es. split; [exact A1|].
  assert (Et : d_txs qdb_db = ev_txs es) by apply A3. assert (Es : d_tests qdb_db = ev_tests es) by apply A3.
  split; [rewrite <- Es; vm_compute; reflexivity|]. intros find. split.
  - rewrite <- Et. intros t I. apply in_commodity_ok. revert t I. apply forallb_forall. vm_compute. reflexivity.
  - assert (HT : tree_of (b_names qbook) (b_tree qbook)).
    { destruct C147_hypotheses as (HL & _). destruct (L_Coin2.book_facts_from _ _ _ _ _ _ _ _ HL A1) as (_ & _ & _ & HT & _). exact HT. }
    assert (Ia : In (B "Expenses:Food") (b_names qbook)) by (vm_compute; auto 10).
    apply covered_balance with (name := B "balance") (line := qline) (account := B "Expenses:Food") (begin := Some qd) (end_ := None) (payee := []) (tag := []) (level := 0) (zero := true) (com := xcomm []).
    + rewrite <- (eq_refl : words (pt_cmd qtest) = B "balance" :: qline). apply L_Words.spaced_words.
    + left. reflexivity.
    + destruct C146_example as (d & M). assert (d = qd); [|subst d; exact M].
      destruct M as (given & args & C & _ & V & _). assert (E : given = [(B "b", B "2020/1/2"); (B "z", B "true")]).
      { apply balance_accepts in C. vm_compute in C. injection C as <- _. reflexivity. }
      subst given. pose proof (date_value qtoday _ "b"%string _ V) as D. vm_compute in D. injection D as <-. vm_compute. reflexivity.
    + intros x _. reflexivity.
    + intros own total (Eo & below & Hb & ->).
      assert (Bo : forall x, In x (b_names qbook) -> Z.abs (own x) <= 350).
      { intros x I. rewrite Eo, <- Et. assert (F : forallb (fun x => Z.abs (posted_to find (wanted qrex (Some qd) None [] []) (map snd (d_txs qdb_db)) x) <=? 350) (b_names qbook) = true) by (vm_compute; reflexivity).
        rewrite forallb_forall in F. apply Z.leb_le, (F x I). }
      intros x U. assert (Ix : In x (b_names qbook)) by (eapply L_Coin2.in_names; eassumption). unfold printable. cbn [a_com a_int xcomm c_dec].
      split; (split; [repeat constructor|]).
      * specialize (Bo x Ix). lia.
      * destruct (Hb x Ix) as (Nd & Mb). assert (L : (List.length (below x) <= List.length (b_names qbook))%nat).
        { apply NoDup_incl_length; [exact Nd|]. intros y Iy. apply Mb in Iy. eapply L_Coin2.in_names; eassumption. }
        replace (List.length (b_names qbook)) with 6%nat in L by (vm_compute; reflexivity).
        assert (Z.abs (zsum (map own (below x))) <= 350 * Z.of_nat (List.length (map own (below x)))); [|rewrite map_length in *; lia].
        apply zsum_bound; [lia|]. apply Forall_map, Forall_forall. intros y Iy. apply Mb in Iy. apply Bo. eapply L_Coin2.in_names; eassumption.
Qed.
Example C154_example : let cs := test_commands qtoday 20 M_Pattern.account_match qrex xo xcomm qbook qtx_of (fun _ => []) [] (fun _ _ => []) in
  forall diff verbose, let o := test_report cs diff verbose (fun _ => None) [(B "t.coin", qtest)] in
  o_out o = (if verbose then B "OK t.coin:16 balance -b 2020/1/2 -z food" else B "OK t.coin") ++ [nl] /\ o_err o = [].
Proof. intros cs diff []; cbv zeta; split; vm_compute; reflexivity. Qed.
