(** C56, C80: import rules. *)
From Coq Require Import Permutation.
From Verif Require Import Base M_Amount M_Regex M_Parser M_Writer M_Names M_Rules S_Ledger S_Rules L_Regex L_Parser L_RoundTrip L_Rules Properties_Parser.
Local Open Scope nat_scope.

Lemma find_first matches payee rs : first_match matches payee rs (List.find (fun r => matches (r_pattern r) payee) rs).
Proof.
  induction rs as [|r rs IH]; cbn [List.find]; [intros ? []|]. destruct (matches (r_pattern r) payee) eqn:E.
  - exists [], rs. split; [reflexivity|]. split; [exact E|]. intros ? [].
  - destruct (List.find _ rs) as [x|] eqn:F; cbn [first_match] in *.
    + destruct IH as (b & a & -> & H1 & H2). exists (r :: b), a. split; [reflexivity|]. split; [exact H1|]. intros r' [<-|I]; [exact E|apply H2, I].
    + intros r' [<-|I]; [exact E|apply IH, I].
Qed.

(** ** C56 the first matching rule wins *)
(** From the text of a rules file: for the account of an id the rule found is the first one whose pattern matches, in
    written order, with sets in the place of their references. *)
Theorem C56_rules_file_partial : forall find valid matches by_ofx_id text gs, file_is gs (scan_lines text) -> gs <> [] -> good_file find valid [] gs ->
  exists ri, read_rules find valid text = Ok (Some ri) /\
  (forall id above a ls n rs, group_for id (rev gs) = Some (above, a, ls) -> find a = Ok n -> means find above ls rs ->
     exists ars N, account_rules_for by_ofx_id ri id = Ok ars /\ ar_account ars = n /\
     forall fuel payee, N <= fuel -> exists o, rule_for matches fuel (ri_sets ri) payee (ar_rules ars) = Some o /\ first_match matches payee rs o) /\
  (forall id, group_for id (rev gs) = None ->
     account_rules_for by_ofx_id ri id = match by_ofx_id id with Some a => Ok (mkARules a []) | None => Fail end).
Proof.
  intros find valid matches by_ text gs F Ne Good.
  assert (Nl : scan_lines text <> []).
  { destruct F as (seps & rest & -> & _ & Hg). destruct gs; [congruence|]. inversion Hg; subst. destruct seps; discriminate. }
  destruct (file_run find valid gs _ F Nl Good) as (line & rest & ri & El & Es & (_ & I2 & I3)). exists ri. split; [unfold read_rules; rewrite El, Es; reflexivity|]. split.
  - intros id above a ls n rs G Fn M. destruct (I2 _ _ _ _ _ _ G M Fn) as (ars & E1 & E2 & E3). destruct (rule_for_first matches _ _ _ E3) as [N HN].
    exists ars, N. split; [unfold account_rules_for; rewrite E1; reflexivity|]. split; [exact E2|]. intros fuel payee Hf. eexists. split; [apply HN, Hf|apply find_first].
  - intros id G. unfold account_rules_for. rewrite (I3 _ G). reflexivity.
Qed.
Print Assumptions C56_rules_file_partial.

(** Whatever file is read: as long as no set refers to itself, each lookup ends with the first match. *)
Definition refs_below (n : nat) (es : list rentry) : Prop := forall i, In (ESet i) es -> i < n.
Definition refs_ok (ri : rindex) : Prop :=
  (forall i s, nth_error (ri_sets ri) i = Some s -> refs_below (S i) (s_rules s)) /\
  (forall id ars, alookup id (ri_accounts ri) = Some ars -> refs_below (List.length (ri_sets ri)) (ar_rules ars)).
Definition reading_ok (ri : rindex) (g : option reading) : Prop :=
  match g with
  | None => True
  | Some g => match g_target g with
              | TSet n => List.length (ri_sets ri) = S n
              | TAccount _ => True end /\ refs_below (List.length (ri_sets ri)) (g_entries g)
  end.
Lemma nth_set_nth n es sets : forall i s, nth_error (set_nth n es sets) i = Some s ->
  exists s0, nth_error sets i = Some s0 /\ (s = s0 \/ (i = n /\ s_rules s = es)).
Proof.
  revert n. induction sets as [|x sets IH]; intros n i s H; [destruct n, i; discriminate|].
  destruct n as [|n]; cbn [set_nth] in H; destruct i as [|i]; cbn [nth_error] in *.
  - injection H as <-. exists x. split; [reflexivity|]. right. auto.
  - exists s. auto.
  - injection H as <-. exists x. auto.
  - destruct (IH _ _ _ H) as (s0 & E & [->|[-> E2]]); exists s0; auto.
Qed.
Lemma set_nth_length n es sets : List.length (set_nth n es sets) = List.length sets.
Proof. revert n. induction sets; intros [|n]; cbn; auto. Qed.
Lemma finish_ok ri g : refs_ok ri -> reading_ok ri g -> refs_ok (finish ri g).
Proof.
  intros [H1 H2] G. destruct g as [[t es l]|]; [|exact (conj H1 H2)]. cbn [reading_ok finish g_target g_entries] in *. destruct G as [G1 G2]. destruct t as [id|n].
  - destruct (alookup id (ri_accounts ri)) as [ars|] eqn:E; [|exact (conj H1 H2)]. split; cbn [ri_sets ri_accounts]; [exact H1|]. intros id' ars' E'. destruct (eqb_bytes id' id) eqn:Q.
    + apply eqb_bytes_true in Q. subst. rewrite alookup_same in E'. injection E' as <-. exact G2.
    + rewrite alookup_other in E' by exact Q. eapply H2, E'.
  - split; cbn [ri_sets ri_accounts].
    + intros i s E. destruct (nth_set_nth _ _ _ _ _ E) as (s0 & E0 & [->|[-> ->]]); [eapply H1, E0|]. rewrite <- G1. exact G2.
    + rewrite set_nth_length. exact H2.
Qed.
Lemma header_ok find ri line ri' g' : refs_ok ri -> header find ri line = Ok (ri', g') -> refs_ok ri' /\ reading_ok ri' g'.
Proof.
  intros [H1 H2] H. unfold header in H. destruct (rprefix headerRE line) as [[r cs]|]; [|injection H as <- <-; split; [exact (conj H1 H2)|exact I]].
  destruct (cap "1" cs) as [|c id0].
  - injection H as <- <-. split; [|split; [cbn; rewrite app_length; cbn; lia|intros i []]]. split; cbn [ri_sets ri_accounts].
    + intros i s E. destruct (Nat.lt_ge_cases i (List.length (ri_sets ri))) as [L|L].
      * rewrite nth_error_app1 in E by exact L. eapply H1, E.
      * rewrite nth_error_app2 in E by exact L. destruct (i - List.length (ri_sets ri)) as [|[|]]; cbn in E; try discriminate. injection E as <-. intros j [].
    + intros id ars E i I. rewrite app_length. pose proof (H2 _ _ E i I). lia.
  - set (id := c :: id0) in *. destruct (find (cap "2" cs)) as [a| |]; try discriminate. cbn [bind] in H. injection H as <- <-. split; [|split; [exact I|intros i []]]. split; cbn [ri_sets ri_accounts]; [exact H1|].
    intros id' ars E. destruct (eqb_bytes id' id) eqn:Q; [apply eqb_bytes_true in Q; subst id'; rewrite alookup_same in E; injection E as <-; intros i []|]. rewrite alookup_other in E by exact Q. eapply H2, E.
Qed.
Lemma last_named_bound n sets : forall i f j, (forall k, f = Some k -> k < i) -> last_named i n sets f = Some j -> j < i + List.length sets.
Proof.
  induction sets as [|s sets IH]; intros i f j Hf H; cbn [last_named List.length] in *; [specialize (Hf _ H); lia|].
  apply IH in H; [lia|]. intros k E. destruct (eqb_bytes n (s_name s)); [injection E as <-; lia|specialize (Hf _ E); lia].
Qed.
Lemma add_note_refs es n i : In (ESet i) (add_note es n) -> In (ESet i) es.
Proof.
  unfold add_note. destruct (rev es) as [|e r] eqn:E; [auto|]. destruct e as [ru|k]; [|auto]. rewrite in_app_iff. intros [I|[I|[]]]; [|discriminate].
  apply in_rev. rewrite E. right. apply in_rev. exact I.
Qed.
Lemma body_ok find valid ri g cs g' : reading_ok ri (Some g) -> body find valid ri g cs = Ok g' -> reading_ok ri (Some g').
Proof.
  intros [H1 H2] H. unfold body in H. destruct (cap "1" cs) as [|c a0].
  - destruct (cap "4" cs) as [|c a0].
    + injection H as <-. destruct (g_last g); [|exact (conj H1 H2)]. split; [exact H1|]. intros i I. apply add_note_refs in I. apply H2, I.
    + destruct (sets_by_name ri (c :: a0)) as [n|] eqn:E; [|discriminate]. injection H as <-. split; [exact H1|]. cbn [g_entries]. intros i I. apply in_app_iff in I as [I|[I|[]]]; [apply H2, I|]. injection I as <-.
      unfold sets_by_name in E. apply last_named_bound in E; [lia|discriminate].
  - destruct (if eqb_bytes (c :: a0) (B "--") then Ok None else do a <- find (c :: a0); Ok (Some a)) as [acc| |]; try discriminate. cbn [bind] in H. destruct (valid (cap "3" cs)); [|discriminate]. injection H as <-.
    split; [exact H1|]. cbn [g_entries]. intros i I. apply in_app_iff in I as [I|[I|[]]]; [apply H2, I|discriminate].
Qed.
Lemma loop_ok find valid lines : forall ri g ri', refs_ok ri -> reading_ok ri g -> rules_loop find valid ri g lines = Ok ri' -> refs_ok ri'.
Proof.
  induction lines as [|line rest IH]; intros ri g ri' H1 H2 H; cbn [rules_loop] in H; [injection H as <-; apply finish_ok; assumption|].
  destruct g as [g0|].
  - destruct (rprefix bodyRE line) as [[r cs]|].
    + destruct (body find valid ri g0 cs) as [g'| |] eqn:E; try discriminate. cbn [bind] in H. eapply IH; [exact H1|eapply body_ok; eassumption|exact H].
    + destruct (header find (finish ri (Some g0)) line) as [[ri1 g1]| |] eqn:E; try discriminate. cbn [bind fst snd] in H. apply header_ok in E as [E1 E2]; [|apply finish_ok; assumption]. eapply IH; eassumption.
  - destruct (header find ri (trim_space line)) as [[ri1 g1]| |] eqn:E; try discriminate. cbn [bind fst snd] in H. apply header_ok in E as [E1 E2]; [|exact H1]. eapply IH; eassumption.
Qed.
Lemma read_ok find valid text ri : read_rules find valid text = Ok (Some ri) -> refs_ok ri.
Proof.
  unfold read_rules. destruct (scan_lines text) as [|l ls]; [discriminate|]. unfold scan_rules. destruct (header find empty_index l) as [[ri1 g1]| |] eqn:E; try discriminate. cbn [bind fst snd].
  destruct (rules_loop find valid ri1 g1 ls) as [ri2| |] eqn:E2; try discriminate. cbn [bind]. intros H. injection H as <-.
  apply header_ok in E as [A B]; [|split; intros [|] ? H; discriminate]. eapply loop_ok; eassumption.
Qed.
Lemma expands_below sets : (forall i s, nth_error sets i = Some s -> refs_below i (s_rules s)) ->
  forall n es, n <= List.length sets -> refs_below n es -> exists rs, expands sets es rs.
Proof.
  intros H n. induction n as [n IH] using lt_wf_ind. intros es L. induction es as [|[r|i] es IHe]; intros R.
  - exists []. constructor.
  - destruct IHe as [rs E]; [intros i I; apply R; right; exact I|]. exists (r :: rs). constructor. exact E.
  - destruct IHe as [rs E]; [intros j I; apply R; right; exact I|]. pose proof (R i (or_introl eq_refl)) as Li.
    destruct (nth_error sets i) as [s|] eqn:Es; [|apply nth_error_None in Es; lia]. destruct (IH i Li (s_rules s)) as [rs1 E1]; [lia|apply H; exact Es|].
    exists (rs1 ++ rs). econstructor; eassumption.
Qed.
Theorem C56_lookup_ends : forall find valid matches by_ofx_id text ri id ars, read_rules find valid text = Ok (Some ri) ->
  (forall i s, nth_error (ri_sets ri) i = Some s -> ~ In (ESet i) (s_rules s)) -> account_rules_for by_ofx_id ri id = Ok ars ->
  exists rs N, expands (ri_sets ri) (ar_rules ars) rs /\
  forall fuel payee, N <= fuel -> exists o, rule_for matches fuel (ri_sets ri) payee (ar_rules ars) = Some o /\ first_match matches payee rs o.
Proof.
  intros find valid matches by_ text ri id ars H NoSelf A. destruct (read_ok _ _ _ _ H) as [R1 R2].
  assert (Rb : refs_below (List.length (ri_sets ri)) (ar_rules ars)).
  { unfold account_rules_for in A. destruct (alookup id (ri_accounts ri)) as [x|] eqn:E; [injection A as <-; eapply R2, E|]. destruct (by_ id); [|discriminate]. injection A as <-. intros i []. }
  destruct (expands_below (ri_sets ri)) with (n := List.length (ri_sets ri)) (es := ar_rules ars) as [rs X]; [|lia|exact Rb|].
  - intros i s E j I. pose proof (R1 i s E j I) as L. destruct (Nat.eq_dec j i) as [->|]; [exfalso; eapply NoSelf; eassumption|lia].
  - destruct (rule_for_first matches _ _ _ X) as [N HN]. exists rs, N. split; [exact X|]. intros fuel payee Hf. eexists. split; [apply HN, Hf|apply find_first].
Qed.
Print Assumptions C56_lookup_ends.

(** the file of rules_test.go *)
Definition rnames : list bytes := map B ["Assets:Bank:Checking"; "Assets:Bank:Savings"; "Expenses:Groceries"; "Expenses:Auto"; "Expenses:Auto:Gas"; "Expenses:Miscellaneous"; "Income:Salary"; "Income:Interest"; "Liabilities:Credit:MC"]%string.
Definition rfind (p : bytes) : res bytes := if existsb (eqb_bytes p) rnames then Ok p else Panic.
Definition rtext : bytes := nls ["";
"common";
"  Expenses:Groceries       FRESHCO|COSTCO WHOLESALE|FARM BOY|LOBLAWS";
"  Expenses:Auto:Gas        COSTCO GAS|PETROCAN|SHELL";
"389249328477983 Assets:Bank:Savings";
"  Income:Interest     Interest";
"392843029797099 Assets:Bank:Checking";
"    @common";
"  Income:Salary       ACME PAY ";
"479347938749398 Liabilities:Credit:MC";
"  Expenses:Auto            HUYNDAI|TOYOTA";
"  ; service/maintenance";
"  @common";
"  Expenses:Miscellaneous   "]%string.
Definition rgroups : list sgroup :=
  [(HSet (B "common"), [SRule (B "Expenses:Groceries") (B "FRESHCO|COSTCO WHOLESALE|FARM BOY|LOBLAWS"); SRule (B "Expenses:Auto:Gas") (B "COSTCO GAS|PETROCAN|SHELL")]);
   (HAccount (B "389249328477983") (B "Assets:Bank:Savings"), [SRule (B "Income:Interest") (B "Interest")]);
   (HAccount (B "392843029797099") (B "Assets:Bank:Checking"), [SSet (B "common"); SRule (B "Income:Salary") (B "ACME PAY")]);
   (HAccount (B "479347938749398") (B "Liabilities:Credit:MC"), [SRule (B "Expenses:Auto") (B "HUYNDAI|TOYOTA"); SNote (B "service/maintenance"); SSet (B "common"); SRule (B "Expenses:Miscellaneous") []])].
Ltac sp := split; [reflexivity|repeat constructor; discriminate].
Lemma visible_b c m d : is_space c = false -> is_space d = false -> ends_visible (c :: m ++ [d]).
Proof. intros. exists c, m, d. auto. Qed.
Definition visible_text (s : bytes) : bool := match s, rev s with c :: _ :: _, d :: _ => negb (is_space c) && negb (is_space d) && forallb lchar s | _, _ => false end.
Lemma visible_ok s : visible_text s = true -> pat_text s /\ s <> [].
Proof.
  unfold visible_text. destruct s as [|c [|c2 s]]; [discriminate|discriminate|]. remember (c2 :: s) as t eqn:Et. destruct (rev (c :: t)) as [|d r] eqn:E; [discriminate|]. intros H.
  apply andb_true_iff in H as [H H3]. apply andb_true_iff in H as [H1 H2]. apply negb_true_iff in H1, H2. split; [|discriminate]. split; [apply line_text_b, H3|]. right.
  cbn [rev] in E. assert (Nt : t <> []) by (subst; discriminate). destruct (exists_last Nt) as (m & d' & ->). rewrite rev_app_distr in E. cbn in E. injection E as <- _. apply visible_b; assumption.
Qed.
Definition sp_b (s : bytes) : bool := forallb is_space s && forallb lchar s.
Lemma sp_ok s : sp_b s = true -> spaces s.
Proof. intros H. apply andb_true_iff in H as [H1 H2]. split; [exact H1|apply line_text_b, H2]. Qed.
Lemma line_rule sp1 a sp2 p sp3 : sp_b sp1 && sp_b sp2 && sp_b sp3 && forallb acc_char a && visible_text p && negb (Nat.eqb (List.length sp1) 0) && negb (Nat.eqb (List.length sp2) 0) && negb (Nat.eqb (List.length a) 0) = true ->
  line_is (SRule a p) (sp1 ++ a ++ sp2 ++ p ++ sp3).
Proof.
  intros H. rewrite !andb_true_iff in H. repeat match type of H with _ /\ _ => destruct H as [H ?] end. destruct (visible_ok p) as [V1 V2]; [assumption|].
  constructor; auto using sp_ok; try (intros ->; discriminate). split; [intros ->; discriminate|assumption].
Qed.
Lemma line_note sp1 sp2 t : sp_b sp1 && sp_b sp2 && visible_text t && negb (Nat.eqb (List.length sp1) 0) && negb (Nat.eqb (List.length sp2) 0) = true ->
  line_is (SNote t) (sp1 ++ B ";" ++ sp2 ++ t).
Proof.
  intros H. rewrite !andb_true_iff in H. repeat match type of H with _ /\ _ => destruct H as [H ?] end. destruct (visible_ok t) as [[V1 V2] V3]; [assumption|]. destruct V2 as [?|(c & m & d & -> & Hc & Hd)]; [congruence|].
  constructor; auto using sp_ok; try (intros ->; discriminate). intros c' r E. injection E as <- _. exact Hc.
Qed.
Example C56_example_file : file_is rgroups (scan_lines rtext).
Proof.
  replace (scan_lines rtext) with ([[]] ++ [
     B "common" ++ []; B "  " ++ B "Expenses:Groceries" ++ B "       " ++ B "FRESHCO|COSTCO WHOLESALE|FARM BOY|LOBLAWS" ++ [];
     B "  " ++ B "Expenses:Auto:Gas" ++ B "        " ++ B "COSTCO GAS|PETROCAN|SHELL" ++ [];
     B "389249328477983" ++ B " " ++ B "Assets:Bank:Savings" ++ []; B "  " ++ B "Income:Interest" ++ B "     " ++ B "Interest" ++ [];
     B "392843029797099" ++ B " " ++ B "Assets:Bank:Checking" ++ []; B "    " ++ B "@" ++ B "common" ++ []; B "  " ++ B "Income:Salary" ++ B "       " ++ B "ACME PAY" ++ B " ";
     B "479347938749398" ++ B " " ++ B "Liabilities:Credit:MC" ++ []; B "  " ++ B "Expenses:Auto" ++ B "            " ++ B "HUYNDAI|TOYOTA" ++ [];
     B "  " ++ B ";" ++ B " " ++ B "service/maintenance"; B "  " ++ B "@" ++ B "common" ++ []; B "  " ++ B "Expenses:Miscellaneous" ++ B "   "]) by (vm_compute; reflexivity).
  exists [[]]. eexists. split; [reflexivity|]. split; [constructor; [left; reflexivity|constructor]|]. unfold rgroups.
  apply (ga_group (HSet (B "common")) _ _ _ [_; _] []); [apply hi_set; [split; [discriminate|reflexivity]|sp]|repeat (constructor; [apply line_rule; reflexivity|]); constructor|constructor|].
  apply (ga_group _ _ _ _ [_] []); [apply hi_account; try discriminate; try sp; split; discriminate || reflexivity|repeat (constructor; [apply line_rule; reflexivity|]); constructor|constructor|].
  apply (ga_group _ _ _ _ [_; _] []); [apply hi_account; try discriminate; try sp; split; discriminate || reflexivity| |constructor|].
  { constructor; [apply li_set; try discriminate; try sp; split; discriminate || reflexivity|]. constructor; [apply line_rule; reflexivity|constructor]. }
  apply (ga_group _ _ _ _ [_; _; _; _] []); [apply hi_account; try discriminate; try sp; split; discriminate || reflexivity| |constructor|constructor].
  constructor; [apply line_rule; reflexivity|]. constructor; [apply line_note; reflexivity|].
  constructor; [apply li_set; try discriminate; try sp; split; discriminate || reflexivity|]. constructor; [apply li_any; try discriminate; try sp; split; discriminate || reflexivity|constructor].
Qed.

Example C56_example_good : good_file rfind (fun _ => true) [] rgroups.
Proof.
  assert (M0 : forall above, means rfind above (snd (hd (HSet [], []) rgroups)) [mkRule (Some (B "Expenses:Groceries")) (B "FRESHCO|COSTCO WHOLESALE|FARM BOY|LOBLAWS") []; mkRule (Some (B "Expenses:Auto:Gas")) (B "COSTCO GAS|PETROCAN|SHELL") []]).
  { intros above. cbn [rgroups snd hd]. apply (mn_rule _ _ _ _ _ []); [right; split; [discriminate|eexists; split; reflexivity]|reflexivity|].
    apply (mn_rule _ _ _ _ _ [] []); [right; split; [discriminate|eexists; split; reflexivity]|reflexivity|constructor]. }
  assert (Acc : forall a, existsb (eqb_bytes a) rnames = true -> a <> B "--" -> account_is rfind a (Some a)).
  { intros a E N. right. split; [exact N|]. exists a. unfold rfind. rewrite E. auto. }
  repeat split; try discriminate; try (intros; reflexivity); cbn [snd fst].
  - eexists. apply (M0 []).
  - intros n E. injection E as <-. intros [I|[I|[]]]; discriminate.
  - eexists. eapply (mn_rule _ _ _ _ _ [] []); [apply Acc; [reflexivity|discriminate]|reflexivity|constructor].
  - intros id a E. injection E as <- <-. eexists. reflexivity.
  - eexists. eapply mn_set; [reflexivity|apply (M0 [])|]. eapply (mn_rule _ _ _ _ _ [] []); [apply Acc; [reflexivity|discriminate]|reflexivity|constructor].
  - intros id a E. injection E as <- <-. eexists. reflexivity.
  - eexists. eapply (mn_rule _ _ _ _ _ [B "service/maintenance"]); [apply Acc; [reflexivity|discriminate]|reflexivity|]. eapply mn_set; [reflexivity|apply (M0 [])|].
    eapply (mn_rule _ _ _ _ _ [] []); [apply Acc; [reflexivity|discriminate]|reflexivity|constructor].
  - intros id a E. injection E as <- <-. eexists. reflexivity.
Qed.
(** a set that refers to itself: the lookup does not end (for a payee that matches no rule before the reference) *)
Definition self_text : bytes := nls ["common"; "  Expenses:Auto  SHELL"; "  @common"; "42 Assets:Bank:Savings"; "  @common"]%string.
Definition self_index : rindex := mkIndex [(B "42", mkARules (B "Assets:Bank:Savings") [ESet 0])]
  [mkSet (B "common") [ERule (mkRule (Some (B "Expenses:Auto")) (B "SHELL") []); ESet 0]].
Theorem C56_self_reference_refuted : exists text ri id ars, read_rules rfind (fun _ => true) text = Ok (Some ri) /\
  alookup id (ri_accounts ri) = Some ars /\
  forall matches payee, matches (B "SHELL") payee = false -> forall fuel, rule_for matches fuel (ri_sets ri) payee (ar_rules ars) = None.
Proof.
  exists self_text, self_index, (B "42"), (mkARules (B "Assets:Bank:Savings") [ESet 0]). split; [vm_compute; reflexivity|]. split; [reflexivity|]. intros matches payee N.
  assert (G : forall fuel, rule_for matches fuel (ri_sets self_index) payee [ERule (mkRule (Some (B "Expenses:Auto")) (B "SHELL") []); ESet 0] = None).
  { induction fuel as [|f IH]; cbn [rule_for r_pattern]; rewrite N; [reflexivity|]. cbn [self_index ri_sets nth s_rules] in IH |- *. rewrite IH. reflexivity. }
  intros [|f]; cbn [ar_rules rule_for]; [reflexivity|]. cbn [self_index ri_sets nth s_rules] in G |- *. rewrite G. reflexivity.
Qed.
Print Assumptions C56_self_reference_refuted.
(** a pattern of one character, and an account with a slash, are read as a rule for every payee *)
Theorem C56_lost_pattern_refuted : forall matches, (forall payee, matches [] payee = true) ->
  (exists ri ars, read_rules rfind (fun _ => true) (nls ["42 Assets:Bank:Savings"; "  Expenses:Auto  Q"]%string) = Ok (Some ri) /\ alookup (B "42") (ri_accounts ri) = Some ars /\
     forall payee fuel, exists r, rule_for matches fuel (ri_sets ri) payee (ar_rules ars) = Some (Some r)) /\
  (exists find, find (B "Expenses:Gifts/Other") = Ok (B "Expenses:Gifts/Other") /\
     exists ri ars, read_rules find (fun _ => true) (nls ["42 Assets:Bank:Savings"; "  Expenses:Gifts/Other  SHOP"]%string) = Ok (Some ri) /\ alookup (B "42") (ri_accounts ri) = Some ars /\
     forall payee fuel, exists r, rule_for matches fuel (ri_sets ri) payee (ar_rules ars) = Some (Some r)).
Proof.
  intros matches He. split.
  - exists (mkIndex [(B "42", mkARules (B "Assets:Bank:Savings") [ERule (mkRule (Some (B "Expenses:Auto")) [] [])])] []), (mkARules (B "Assets:Bank:Savings") [ERule (mkRule (Some (B "Expenses:Auto")) [] [])]).
    split; [vm_compute; reflexivity|]. split; [reflexivity|]. intros payee fuel. eexists. destruct fuel; cbn [ar_rules rule_for r_pattern]; rewrite He; reflexivity.
  - exists (fun p => if eqb_bytes p (B "Expenses:Gifts") then Ok (B "Expenses:Gifts/Other") else Ok p). split; [reflexivity|].
    exists (mkIndex [(B "42", mkARules (B "Assets:Bank:Savings") [ERule (mkRule (Some (B "Expenses:Gifts/Other")) [] [])])] []), (mkARules (B "Assets:Bank:Savings") [ERule (mkRule (Some (B "Expenses:Gifts/Other")) [] [])]).
    split; [vm_compute; reflexivity|]. split; [reflexivity|]. intros payee fuel. eexists. destruct fuel; cbn [ar_rules rule_for r_pattern]; rewrite He; reflexivity.
Qed.
Print Assumptions C56_lost_pattern_refuted.
