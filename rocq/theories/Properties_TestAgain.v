(** C128: a run that fills in results makes the next run pass. *)
From Coq Require Import Sorted.
From Verif Require Import Base M_Parser M_Writer M_Files M_TestCmd M_Commands M_TestReport S_TestCmd S_Commands S_TestReport S_Ledger
  L_Dec L_Tree L_Resolve L_Words L_RoundTrip L_Entries L_Local Properties_Files Properties_Tests Properties_TestReport.

(** ** The lines of the entries *)
Lemma items_lines fuel : forall e lines nr items, read_items fuel e (mkParser lines nr) = Ok items ->
  StronglySorted lt (map item_line items) /\ Forall (fun i => (nr <= item_line i < nr + List.length lines)%nat) items.
Proof.
  induction fuel as [|fuel IH]; intros e lines nr items H; cbn [read_items] in H; [injection H as <-; split; constructor|].
  apply bind_ok in H as ([[[i d] p]|] & E & H); [|injection H as <-; split; constructor]. apply bind_ok in H as (is' & E1 & H). injection H as <-.
  unfold next in E. cbn [p_lines p_nr] in E. destruct (next_lines_local _ _ _ _ _ _ E) as (skip & pre & E2 & E3 & E4 & E5 & _).
  destruct p as [pl pn]. cbn [p_lines p_nr] in *. destruct (IH _ _ _ _ E1) as [S1 S2]. 
  assert (Hlen : (List.length pre > 0)%nat) by (destruct pre; [contradiction|cbn; lia]).
  assert (L : List.length lines = (List.length skip + List.length pre + List.length pl)%nat) by (rewrite E2, !app_length; lia).
  split.
  - cbn [map]. constructor; [exact S1|]. apply Forall_map. eapply Forall_impl; [|exact S2]. cbn. intros; lia.
  - constructor; [lia|]. eapply Forall_impl; [|exact S2]. cbn. intros; lia.
Qed.
Lemma read_lines e text items : read_text e text = Ok items ->
  StronglySorted lt (map item_line items) /\ Forall (fun i => (1 <= item_line i <= List.length (scan_lines text))%nat) items.
Proof.
  intros H. unfold read_text, new_parser in H. apply items_lines in H as [H1 H2]. split; [exact H1|]. eapply Forall_impl; [|exact H2]. cbn. intros; lia.
Qed.
Lemma sorted_flat {A} (g : A -> nat) (k : A -> bool) : forall l, StronglySorted lt (map g l) -> StronglySorted lt (map g (filter k l)).
Proof.
  induction l as [|x l IH]; intros H; [constructor|]. inversion H as [|? ? H1 H2]; subst. cbn [filter]. destruct (k x); [|apply IH, H1]. cbn [map]. constructor; [apply IH, H1|].
  rewrite Forall_forall in *. intros y Hy. apply H2. apply in_map_iff in Hy as (z & <- & Hz). apply filter_In in Hz as [Hz _]. apply in_map, Hz.
Qed.
Lemma tests_in_In f items g t : In (g, t) (tests_in f items) <-> g = f /\ In (ITest t) items.
Proof.
  unfold tests_in. rewrite in_flat_map. split.
  - intros (i & H1 & H2). destruct i; cbn [In] in H2; try contradiction. destruct H2 as [[= <- <-]|[]]. split; [reflexivity|exact H1].
  - intros [-> H]. exists (ITest t). split; [exact H|left; reflexivity].
Qed.
Lemma tests_in_lines f cs : forall items, StronglySorted lt (map item_line items) -> StronglySorted lt (map ts_line (map (prepared cs) (tests_in f items))).
Proof.
  intros items H. assert (E : map ts_line (map (prepared cs) (tests_in f items)) = map item_line (filter (fun i => match i with ITest _ => true | _ => false end) items)).
  { clear H. induction items as [|i items IH]; [reflexivity|]. destruct i; cbn [tests_in flat_map app filter map]; try exact IH. cbn [prepared ts_line snd item_line]. f_equal. exact IH. }
  rewrite E. apply sorted_flat, H.
Qed.
Lemma scan_text_of_lines ls : plain_lines ls -> scan_lines (text_of_lines ls) = ls.
Proof. intros H. apply (scan_text ls). apply Forall_forall. intros l Hl. destruct (H l Hl). apply not_nl_cr; assumption. Qed.

Section Again.
Variable cs : commands.
Variable f : bytes.
(** the lines put after line [n] *)
Definition put (ts : list file_test) (n : nat) : list bytes :=
  flat_map (fun ft => if (pt_line (snd ft) =? n)%nat && match pt_result (snd ft) with [] => true | _ => false end
                      then match run_command cs (pt_cmd (snd ft)) with Some o => scan_lines o | None => [] end else []) ts.
Lemma put_results : forall ts n, Forall (fun ft => fst ft = f /\ (pt_result (snd ft) = [] -> exists ls, run_command cs (pt_cmd (snd ft)) = Some (text_of_lines ls) /\ plain_lines ls)) ts ->
  new_results (map (prepared cs) ts) f n = text_of_lines (put ts n).
Proof.
  induction ts as [|[g t] ts IH]; intros n H; [reflexivity|]. inversion H as [|? ? [H1 H2] H3]; subst. cbn [fst snd] in *.
  unfold new_results, put. cbn [map filter flat_map fst snd prepared ts_file ts_line ts_result]. rewrite eqb_bytes_refl. cbn [andb].
  destruct ((pt_line t =? n)%nat && match pt_result t with [] => true | _ => false end) eqn:E.
  - apply andb_true_iff in E as [_ E]. assert (Et : pt_result t = []) by (destruct (pt_result t); [reflexivity|discriminate]). destruct (H2 Et) as (ls & L1 & L2).
    cbn [map concat]. change (ts_output (prepared cs (g, t))) with (run_command cs (pt_cmd t)). rewrite L1, (scan_text_of_lines ls L2). etransitivity; [|symmetry; apply (text_app ls)]. apply (f_equal (fun x => text_of_lines ls ++ x)). apply IH, H3.
  - cbn [app]. apply IH, H3.
Qed.
Lemma put_none : forall ts n, (forall ft, In ft ts -> pt_line (snd ft) <> n) -> put ts n = [].
Proof.
  induction ts as [|ft ts IH]; intros n H; [reflexivity|]. unfold put. cbn [flat_map]. rewrite (proj2 (Nat.eqb_neq _ _) (H ft (or_introl eq_refl))). cbn [andb app]. apply IH. intros; apply H; right; assumption.
Qed.
Lemma put_at : forall ts g t ls, In (g, t) ts -> StronglySorted lt (map (fun ft => pt_line (snd ft)) ts) -> pt_result t = [] -> run_command cs (pt_cmd t) = Some (text_of_lines ls) -> plain_lines ls ->
  put ts (pt_line t) = ls.
Proof.
  induction ts as [|ft ts IH]; intros g t ls Hin HS Ht Hr Hp; [destruct Hin|]. cbn [map] in HS. inversion HS as [|? ? S1 S2]; subst. unfold put. cbn [flat_map]. destruct Hin as [->|Hin].
  - cbn [snd]. rewrite Nat.eqb_refl, Ht, Hr. cbn [andb]. rewrite (scan_text_of_lines ls Hp). change (flat_map _ ts) with (put ts (pt_line t)). rewrite put_none; [apply app_nil_r|].
    intros x Hx C. rewrite Forall_forall in S2. specialize (S2 (pt_line (snd x)) (in_map _ _ _ Hx)). cbn [snd] in S2. lia.
  - assert (pt_line (snd ft) <> pt_line t). { rewrite Forall_forall in S2. specialize (S2 (pt_line t)). cbn [snd] in S2. assert (pt_line (snd ft) < pt_line t)%nat; [|lia]. apply S2. apply in_map_iff. exists (g, t). auto. }
    rewrite (proj2 (Nat.eqb_neq _ _) H). cbn [andb app]. eapply IH; eassumption.
Qed.
Lemma put_from : forall ts n, put ts n <> [] -> exists ft, In ft ts /\ pt_line (snd ft) = n /\ pt_result (snd ft) = [].
Proof.
  intros ts n H. destruct (put ts n) as [|l r] eqn:E; [contradiction|]. assert (Hl : In l (put ts n)) by (rewrite E; left; reflexivity).
  unfold put in Hl. apply in_flat_map in Hl as (ft & F1 & F2). destruct ((pt_line (snd ft) =? n)%nat && match pt_result (snd ft) with [] => true | _ => false end) eqn:Eb; [|destruct F2].
  apply andb_true_iff in Eb as [B1 B2]. exists ft. split; [exact F1|]. split; [apply Nat.eqb_eq, B1|]. destruct (pt_result (snd ft)); [reflexivity|discriminate].
Qed.
(** all tests have passed *)
Lemma all_pass diff : forall ts F, Forall (fun ft => fst ft = f /\ passes cs (snd ft)) ts -> ~ In ":"%char f -> ts <> [] ->
  test_report cs diff false F ts = mkOutcome (verdict_line true f) [] (Ok F).
Proof.
  intros ts F H Hf Hne.
  assert (K : known cs ts). { intros g t Ht. rewrite Forall_forall in H. destruct (H _ Ht) as [E (P1 & P2)]. cbn [fst snd] in *. subst g. split; [exact Hf|eauto]. }
  assert (Fl : o_files (test_report cs diff false F ts) = Ok F).
  { rewrite test_report_files. destruct ts as [|ft ts]; [contradiction|]. assert (Ef : test_file (prepared cs ft) = f).
    { inversion H as [|? ? [E _] _]; subst. destruct ft as [g t]. apply prepared_file, Hf. }
    unfold test_command. cbn [map]. rewrite Ef. change (prepared cs ft :: map (prepared cs) ts) with (map (prepared cs) (ft :: ts)).
    assert (Hg : Forall (fun t => test_file t = f /\ exists o, ts_output t = Some o) (map (prepared cs) (ft :: ts))).
    { apply Forall_map. apply Forall_forall. intros [g t] Ht. destruct (K g t Ht) as [_ (out & Ho)]. rewrite Forall_forall in H. destruct (H _ Ht) as [E _]. cbn [fst] in E. subst g.
      split; [apply prepared_file, Hf|]. exists out. apply run_prints in Ho. exact Ho. }
    pose proof (run_same f _ F [] [] Hg) as R. rewrite app_nil_r in R. rewrite R. cbn [app].
    assert (Ep : pend (map (prepared cs) (ft :: ts)) = []).
    { clear -H. induction H as [|[g t] l [_ (P1 & _)] _ IH]; [reflexivity|]. cbn [map pend flat_map]. unfold pend in IH. rewrite IH, app_nil_r. cbn [snd] in P1. unfold answered in P1.
      cbn [prepared ts_output ts_result snd]. destruct (run_command cs (pt_cmd t)); [|reflexivity]. destruct (pt_result t); [contradiction|reflexivity]. }
    rewrite Ep. reflexivity. }
  assert (T : o_out (test_report cs diff false F ts) = verdict_line true f /\ o_err (test_report cs diff false F ts) = []).
  { destruct ts as [|[g t] ts]; [contradiction|]. assert (g = f) by (inversion H as [|? ? [E _] _]; exact E). subst g.
    destruct (test_report_text cs diff false F _ F f t ts eq_refl K Fl) as [E1 E2]. split; [|exact E2]. rewrite E1.
    assert (G : forall l, Forall (fun ft => fst ft = f /\ passes cs (snd ft)) l -> text_out cs diff false f true l = verdict_line true f).
    { intros l. clear. induction l as [|[g t] l IH]; intros HF; [reflexivity|]. inversion HF as [|? ? [E (P1 & P2)] HF']; subst. cbn [fst snd text_out] in *. apply run_prints in P2. rewrite P2. unfold answered in P1.
      destruct (pt_result t); [contradiction|]. rewrite !eqb_bytes_refl. cbn [app]. apply IH, HF'. }
    apply G, H. }
  destruct (test_report cs diff false F ts) as [o1 o2 o3]. cbn [o_out o_err o_files] in *. destruct T as [-> ->]. rewrite Fl. reflexivity.
Qed.
End Again.

(** ** C128 *)
(** A file of a readable text without carriage returns. Every test in it passes or has no result; those without print some lines,
    none of which reads "end test", and are followed by "end test". Then the run prints OK, changes no other file, leaves a
    readable file whose tests have the same commands, and running the tests of that file prints OK and changes nothing. *)
Theorem C128_again_partial : forall e cs diff (F : fs) (f : bytes) text items,
  ~ In ":"%char f -> F f = Some text -> ~ In (chr 13) text -> Z.of_nat (List.length (scan_lines text)) <= int64_max ->
  read_text e text = Ok items -> (exists t, In (ITest t) items) ->
  (forall t, In (ITest t) items -> answered t -> passes cs t) ->
  (forall t, In (ITest t) items -> ~ answered t ->
     (exists lines, lines <> [] /\ plain_lines lines /\ (forall l, In l lines -> ~ is_end l) /\ prints cs t (text_of_lines lines)) /\
     exists l, nth_error (scan_lines text) (pt_line t) = Some l /\ is_end l) ->
  exists F1 text1 items1,
    test_report cs diff false F (tests_in f items) = mkOutcome (verdict_line true f) [] (Ok F1) /\
    (forall g, g <> f -> F1 g = F g) /\ F1 f = Some text1 /\ read_text e text1 = Ok items1 /\
    map (fun ft => pt_cmd (snd ft)) (tests_in f items1) = map (fun ft => pt_cmd (snd ft)) (tests_in f items) /\
    test_report cs diff false F1 (tests_in f items1) = mkOutcome (verdict_line true f) [] (Ok F1).
Proof.
  intros e cs diff F f text items Hf HF Hcr Hlen Hread (t0 & Ht0) Hans Hopen.
  destruct (read_lines e text items Hread) as [HS HR].
  set (ts := tests_in f items).
  assert (Hts : forall g t, In (g, t) ts -> g = f /\ In (ITest t) items) by (intros g t; apply tests_in_In).
  assert (Hne : ts <> []). { intros C. assert (In (f, t0) ts) by (apply tests_in_In; auto). rewrite C in H. destruct H. }
  assert (Hp : forall t, In (ITest t) items -> exists out, prints cs t out).
  { intros t Ht. destruct (pt_result t) as [|c r] eqn:Er.
    - destruct (Hopen t Ht) as [(ls & _ & _ & _ & P) _]; [intros C; apply C, Er|]. eauto.
    - destruct (Hans t Ht) as [_ P]; [unfold answered; rewrite Er; discriminate|]. eauto. }
  assert (K : known cs ts). { intros g t Ht. destruct (Hts g t Ht) as [-> Hi]. split; [exact Hf|apply Hp, Hi]. }
  assert (HL : StronglySorted lt (map (fun ft => pt_line (snd ft)) ts)).
  { pose proof (tests_in_lines f cs items HS) as S. rewrite map_map in S. exact S. }
  assert (HG : tests_of_file F (f, map (prepared cs) ts)).
  { unfold tests_of_file. cbn [fst snd]. split; [destruct ts; [contradiction|discriminate]|]. split; [exact Hf|]. split.
    - apply Forall_map, Forall_forall. intros [g t] Ht. destruct (Hts g t Ht) as [-> Hi]. split; [reflexivity|]. destruct (Hp t Hi) as (out & Ho). exists out. apply run_prints in Ho. exact Ho.
    - exists text. split; [exact HF|]. split; [exact Hlen|]. split; [apply (tests_in_lines f cs items HS)|].
      apply Forall_map, Forall_forall. intros [g t] Ht. destruct (Hts g t Ht) as [_ Hi]. rewrite Forall_forall in HR. apply (HR (ITest t) Hi). }
  destruct (C64_update_partial F [(f, map (prepared cs) ts)]) as (F1 & U1 & U2); [constructor; [exact HG|constructor]|repeat constructor; intros []|].
  cbn [map snd concat] in U1, U2. rewrite app_nil_r in U1, U2.
  assert (Fl : o_files (test_report cs diff false F ts) = Ok F1) by (rewrite test_report_files; exact U1).
  (* the first report *)
  assert (R1 : test_report cs diff false F ts = mkOutcome (verdict_line true f) [] (Ok F1)).
  { destruct ts as [|[g t] r] eqn:Ets; [contradiction|]. assert (g = f) by (apply (Hts g t); left; reflexivity). subst g.
    destruct (test_report_text cs diff false F _ F1 f t r eq_refl K Fl) as [E1 E2].
    assert (G : forall l, (forall g u, In (g, u) l -> g = f /\ In (ITest u) items) -> text_out cs diff false f true l = verdict_line true f).
    { induction l as [|[g u] l IH]; intros HI; [reflexivity|]. destruct (HI g u (or_introl eq_refl)) as [-> Hi]. cbn [text_out]. specialize (Hans u Hi). unfold passes, answered in Hans.
      destruct (pt_result u) as [|c e0] eqn:Eu; [apply IH; intros; apply HI; right; assumption|]. destruct Hans as [_ P]; [discriminate|]. apply run_prints in P. rewrite P, !eqb_bytes_refl. cbn [app].
      apply IH. intros; apply HI; right; assumption. }
    rewrite (G _ Hts) in E1. destruct (test_report cs diff false F ((f, t) :: r)) as [o1 o2 o3]. cbn [o_out o_err o_files] in *. subst. reflexivity. }
  assert (Hoth : forall g, g <> f -> F1 g = F g).
  { intros g Hg. apply (U2 g). intros (t & T1 & T2 & _). apply in_map_iff in T1 as ([g' u] & <- & Hu). cbn [prepared ts_file fst] in T2. destruct (Hts g' u Hu). congruence. }
  set (R := put cs ts).
  assert (HQ : Forall (fun ft => fst ft = f /\ (pt_result (snd ft) = [] -> exists ls, run_command cs (pt_cmd (snd ft)) = Some (text_of_lines ls) /\ plain_lines ls)) ts).
  { apply Forall_forall. intros [g u] Hu. destruct (Hts g u Hu) as [-> Hi]. cbn [fst snd]. split; [reflexivity|]. intros Eu. destruct (Hopen u Hi) as [(ls & L1 & L2 & L3 & L4) _]; [intros C; apply C, Eu|].
    exists ls. split; [apply run_prints, L4|exact L2]. }
  assert (HRl : forall t, In (ITest t) items -> pt_result t = [] -> exists ls, R (pt_line t) = ls /\ ls <> [] /\ plain_lines ls /\ (forall l, In l ls -> ~ is_end l) /\ prints cs t (text_of_lines ls)).
  { intros t Hi Et. destruct (Hopen t Hi) as [(ls & L1 & L2 & L3 & L4) _]; [intros C; apply C, Et|]. exists ls. split; [|auto].
    unfold R. apply (put_at cs ts f t ls); [apply tests_in_In; auto|exact HL|exact Et|apply run_prints, L4|exact L2]. }
  assert (HRn : forall n, R n <> [] -> exists t, In (ITest t) items /\ pt_line t = n /\ pt_result t = []).
  { intros n Hn. destruct (put_from cs ts n Hn) as ([g t] & T1 & T2 & T3). exists t. split; [apply (Hts g t T1)|]. split; assumption. }
  destruct (C64_results_read_back e text items R Hcr Hread) as (items1 & J1 & J2).
  { intros n Hn. destruct (HRn n Hn) as (t & T1 & T2 & T3). split; [eauto|]. destruct (Hopen t T1) as [_ (l & L1 & L2)]; [intros C; apply C, T3|]. exists l. rewrite <- T2. auto. }
  { intros n. destruct (R n) as [|l r] eqn:E; [intros l []|]. destruct (HRn n) as (t & T1 & T2 & T3); [rewrite E; discriminate|]. destruct (HRl t T1 T3) as (ls & L1 & _ & L3 & _). rewrite T2, E in L1. subst ls. exact L3. }
  { intros n l Hl. destruct (HRn n) as (t & T1 & T2 & T3); [intros C; rewrite C in Hl; destruct Hl|]. destruct (HRl t T1 T3) as (ls & L1 & _ & _ & L4 & _). rewrite T2 in L1. rewrite L1 in Hl. apply L4, Hl. }
  set (text1 := lines_with (fun n => text_of_lines (R n)) 1 (scan_lines text)) in *.
  assert (Hpass : Forall (fun ft => fst ft = f /\ passes cs (snd ft)) (tests_in f items1) /\ map (fun ft => pt_cmd (snd ft)) (tests_in f items1) = map (fun ft => pt_cmd (snd ft)) ts).
  { unfold ts. clear -J2 Hans HRl. clearbody R. clear ts. assert (Hin : forall t, In (ITest t) items -> (answered t -> passes cs t) /\ (pt_result t = [] -> exists ls, R (pt_line t) = ls /\ ls <> [] /\ prints cs t (text_of_lines ls))).
    { intros t Ht. split; [apply Hans, Ht|]. intros Et. destruct (HRl t Ht Et) as (ls & L1 & L2 & _ & _ & L3). eauto. }
    clear Hans HRl. induction J2 as [|i j is js H _ IH]; [split; [constructor|reflexivity]|]. destruct IH as [IH1 IH2]; [intros t Ht; apply Hin; right; exact Ht|].
    unfold updated in H. destruct i as [tx|a|c|p|t|path ln].
    1-4,6: (unfold same_item in H; destruct j; try contradiction; try discriminate H; split; [exact IH1|exact IH2]).
    destruct H as (n & ->). cbn [tests_in flat_map app map snd pt_cmd]. split; [|f_equal; exact IH2]. constructor; [|exact IH1]. cbn [fst snd]. split; [reflexivity|].
    destruct (Hin t (or_introl eq_refl)) as [A1 A2]. destruct (pt_result t) as [|c r] eqn:Et.
    - destruct (A2 eq_refl) as (ls & L1 & L2 & L3). rewrite L1. split; [unfold answered; cbn [pt_result]|cbn [pt_result]; destruct L3 as (w & args & run & B1 & B2 & B3); exists w, args, run; split; [exact B1|split; [exact B2|exact B3]]].
      destruct ls as [|l ls]; [contradiction|]. unfold text_of_lines. cbn [map concat]. destruct l; discriminate.
    - destruct A1 as [_ P]; [unfold answered; rewrite Et; discriminate|]. split; [unfold answered; cbn [pt_result]; discriminate|]. cbn [pt_result]. rewrite Et in P.
      destruct P as (w & args & run & B1 & B2 & B3). exists w, args, run. auto. }
  destruct Hpass as [Hpass Hcmd].
  assert (Hne1 : tests_in f items1 <> []). { intros C. rewrite C in Hcmd. destruct ts; [contradiction|discriminate]. }
  destruct (existsb (fun ft => match pt_result (snd ft) with [] => true | _ => false end) ts) eqn:Ex.
  - (* some result was missing *)
    apply existsb_exists in Ex as ([g u] & Hu & Eu). destruct (Hts g u Hu) as [-> Hi]. cbn [snd] in Eu.
    assert (HF1 : F1 f = Some text1).
    { destruct (U2 f) as [U3 _]. rewrite (U3 text HF).
      - f_equal. unfold text1. apply lines_with_ext. intros m _. apply put_results, HQ.
      - exists (prepared cs (f, u)). split; [apply in_map, Hu|]. split; [reflexivity|]. cbn [prepared ts_result snd]. destruct (pt_result u); [reflexivity|discriminate]. }
    exists F1, text1, items1. split; [exact R1|]. split; [exact Hoth|]. split; [exact HF1|]. split; [exact J1|]. split; [exact Hcmd|]. apply all_pass; assumption.
  - (* all results were there *)
    assert (Hall : forall g u, In (g, u) ts -> answered u).
    { intros g u Hu C. assert (existsb (fun ft => match pt_result (snd ft) with [] => true | _ => false end) ts = true); [|congruence]. apply existsb_exists. exists (g, u). split; [exact Hu|]. cbn [snd]. rewrite C. reflexivity. }
    assert (HF1 : F1 f = Some text).
    { rewrite <- HF. apply (U2 f). intros (t & T1 & T2 & T3). apply in_map_iff in T1 as ([g' u] & <- & Hu). cbn [prepared ts_result snd] in T3. apply (Hall g' u Hu T3). }
    exists F1, text, items. split; [exact R1|]. split; [exact Hoth|]. split; [exact HF1|]. split; [exact Hread|]. split; [reflexivity|]. apply all_pass; [|exact Hf|exact Hne].
    apply Forall_forall. intros [g u] Hu. destruct (Hts g u Hu) as [-> Hi]. split; [reflexivity|]. apply Hans; [exact Hi|apply (Hall f u Hu)].
Qed.
Print Assumptions C128_again_partial.
(** a file with a test without result and one with *)
Definition xtext := text_of_lines [B "; c"; B "test one"; B "end test"; B "test say a  b"; B "ab"; B "end test"].
Definition xfs : fs := fun n => if eqb_bytes n (B "t") then Some xtext else None.
Definition xitems := [ITest (mkPTest (B "one") [] 2); ITest (mkPTest (B "say a  b") (B "ab" ++ [nl]) 4)].
Example C128_hypotheses :
  read_text tenv xtext = Ok xitems /\ ~ In (chr 13) xtext /\ Z.of_nat (List.length (scan_lines xtext)) <= int64_max /\
  (forall t, In (ITest t) xitems -> answered t -> passes xcs t) /\
  (forall t, In (ITest t) xitems -> ~ answered t ->
     (exists lines, lines <> [] /\ plain_lines lines /\ (forall l, In l lines -> ~ is_end l) /\ prints xcs t (text_of_lines lines)) /\
     exists l, nth_error (scan_lines xtext) (pt_line t) = Some l /\ is_end l).
Proof.
  split; [vm_compute; reflexivity|]. split; [vm_compute; intuition discriminate|]. split; [apply Z.leb_le; vm_compute; reflexivity|]. split.
  - intros t [E|[E|[]]] Ha; injection E as <-; [exfalso; apply Ha; reflexivity|]. split; [exact Ha|xp].
  - intros t [E|[E|[]]] Ha; injection E as <-; [|exfalso; apply Ha; discriminate]. split.
    + exists [B "1"]. split; [discriminate|]. split; [intros l [<-|[]]; split; vm_compute; intuition discriminate|]. split; [|xp].
      intros l [<-|[]] C. apply is_end_iff in C. vm_compute in C. discriminate C.
    + exists (B "end test"). split; [vm_compute; reflexivity|]. exists [], []. split; reflexivity.
Qed.
Example C128_example : match o_files (test_report xcs xdiff false xfs (tests_in (B "t") xitems)) with
  | Ok F1 => F1 (B "t") = Some (text_of_lines [B "; c"; B "test one"; B "1"; B "end test"; B "test say a  b"; B "ab"; B "end test"])
  | _ => False end.
Proof. vm_compute. reflexivity. Qed.
(** refuted for a command whose output does not end with a newline: the next run reads it as one line with "end test" *)
Theorem C128_no_newline_refuted : exists cs diff (F F1 : fs) text text1 items items1,
  F (B "t") = Some text /\ read_text tenv text = Ok items /\
  o_files (test_report cs diff false F (tests_in (B "t") items)) = Ok F1 /\ F1 (B "t") = Some text1 /\
  read_text tenv text1 = Ok items1 /\ tests_in (B "t") items1 = tests_in (B "t") items /\ items = [ITest (mkPTest (B "one") [] 1)] /\
  text1 = text_of_lines [B "test one"; B "1end test"].
Proof.
  pose (cs := fun n : bytes => if eqb_bytes n (B "one") then Some (fun _ : list bytes => B "1") else None).
  pose (text := text_of_lines [B "test one"; B "end test"]).
  exists cs, xdiff, (fun n => if eqb_bytes n (B "t") then Some text else None). eexists. exists text, (text_of_lines [B "test one"; B "1end test"]), [ITest (mkPTest (B "one") [] 1)]. eexists.
  split; [vm_compute; reflexivity|]. split; [vm_compute; reflexivity|]. split; [vm_compute; reflexivity|]. split; [vm_compute; reflexivity|]. split; [vm_compute; reflexivity|].
  split; [vm_compute; reflexivity|]. split; reflexivity.
Qed.
Print Assumptions C128_no_newline_refuted.
