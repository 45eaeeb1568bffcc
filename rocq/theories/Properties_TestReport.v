(** C127: what [coin test] prints, and running it again. *)
From Coq Require Import Sorted.
From Verif Require Import Base M_Parser M_Writer M_Files M_TestCmd M_Commands M_TestReport S_TestCmd S_Commands S_TestReport S_Ledger
  L_Dec L_Tree L_Resolve L_Words L_RoundTrip L_Entries L_Local Properties_Files Properties_Tests.

Lemma run_prints cs t out : run_command cs (pt_cmd t) = Some out <-> prints cs t out.
Proof.
  unfold run_command, prints. split.
  - intros H. destruct (words (pt_cmd t)) as [|w args] eqn:E; [discriminate|]. destruct (cs w) as [c|] eqn:Ec; [|discriminate]. injection H as <-.
    exists w, args, c. split; [rewrite <- E; apply spaced_words|]. split; [exact Ec|reflexivity].
  - intros (w & args & c & H1 & H2 & ->). rewrite (words_spaced _ _ H1), H2. reflexivity.
Qed.
Lemma prepared_file cs (f : bytes) t : ~ In ":"%char f -> test_file (prepared cs (f, t)) = f.
Proof. intros H. unfold test_file, location, prepared. cbn [ts_file fst]. change (B ":" ++ ?x) with (":"%char :: x). rewrite (cut_at f _ H). reflexivity. Qed.
Lemma eqb_bytes_false a b : eqb_bytes a b = false <-> a <> b.
Proof. split; [intros H ->; rewrite eqb_bytes_refl in H; discriminate|]. intros H. destruct (eqb_bytes a b) eqn:E; [apply eqb_bytes_eq in E; contradiction|reflexivity]. Qed.

Lemma f2_impl {A B} (P Q : A -> B -> Prop) : (forall a b, P a b -> Q a b) -> forall l l', Forall2 P l l' -> Forall2 Q l l'.
Proof. intros H l l' F. induction F; constructor; auto. Qed.

Section Report.
Variable cs : commands.
Variable diff : bytes -> bytes -> bytes.
(** the files are those of [test_command] *)
Lemma report_files verbose : forall ts F last todo success, o_files (run_report cs diff verbose F last todo success ts) = run_tests F last todo (map (prepared cs) ts).
Proof.
  induction ts as [|ft ts IH]; intros F last todo success; cbn [run_report map run_tests].
  - destruct todo as [|x todo]; [reflexivity|]. destruct (update_test_file F (x :: todo)); reflexivity.
  - set (t := prepared cs ft). set (nf := negb (eqb_bytes (test_file t) last)).
    destruct (match todo with [] => Ok (F, []) | _ => if nf then do F' <- update_test_file F todo; Ok (F', []) else Ok (F, todo) end) as [[F1 todo1]| |]; cbn [bind fst snd]; [|reflexivity|reflexivity].
    destruct (ts_output t) as [out|]; [|reflexivity]. destruct (ts_result t) as [|c e]; [apply IH|].
    destruct (eqb_bytes out (c :: e)); cbn [also o_files]; apply IH.
Qed.
Lemma test_report_files verbose F ts : o_files (test_report cs diff verbose F ts) = test_command F (map (prepared cs) ts).
Proof. destruct ts as [|t ts]; [reflexivity|]. unfold test_report, test_command. cbn [map]. apply report_files. Qed.

(** the text *)
Fixpoint text_out (verbose : bool) (last : bytes) (success : bool) (ts : list file_test) : bytes :=
  match ts with
  | [] => if verbose then [] else verdict_line success last
  | (f, t) :: r =>
      match pt_result t with
      | [] => text_out verbose f success r
      | expected =>
          match run_command cs (pt_cmd t) with
          | None => []
          | Some out =>
              if eqb_bytes out expected then
                (if verbose then B "OK " ++ about f t ++ [nl] else if eqb_bytes f last then [] else match last with [] => [] | _ => verdict_line true last end)
                ++ text_out verbose f success r
              else (B "FAIL " ++ about f t ++ [nl] ++ diff expected out) ++ text_out verbose f false r
          end
      end
  end.
Definition known (ts : list file_test) : Prop := forall (f : bytes) t, In (f, t) ts -> ~ In ":"%char f /\ exists out, prints cs t out.
Lemma about_eq f t : location (prepared cs (f, t)) ++ B " " ++ pt_cmd t = about f t.
Proof. unfold location, prepared, about. cbn [ts_file ts_line fst snd]. rewrite <- !app_assoc. reflexivity. Qed.
Lemma report_text verbose : forall ts F last todo success F', known ts -> o_files (run_report cs diff verbose F last todo success ts) = Ok F' ->
  o_out (run_report cs diff verbose F last todo success ts) = text_out verbose last success ts /\ o_err (run_report cs diff verbose F last todo success ts) = [].
Proof.
  induction ts as [|[f t] ts IH]; intros F last todo success F' K H; cbn [run_report text_out] in *; cbv zeta in *.
  - destruct (match todo with [] => Ok F | _ => update_test_file F todo end); [|discriminate H|discriminate H]. cbn [o_out o_err]. split; [|reflexivity]. unfold verdict_line.
    destruct verbose, success; reflexivity.
  - destruct (K f t (or_introl eq_refl)) as [Hf (out & Ho)]. apply run_prints in Ho. rewrite (prepared_file cs f t Hf) in H |- *.
    assert (K' : known ts) by (intros f' t' Ht; apply K; right; exact Ht).
    assert (Eo : ts_output (prepared cs (f, t)) = Some out) by exact Ho.
    assert (Er : ts_result (prepared cs (f, t)) = pt_result t) by reflexivity.
    rewrite Eo, Er in H |- *. rewrite Ho.
    destruct (match todo with [] => Ok (F, []) | _ => if negb (eqb_bytes f last) then do F' <- update_test_file F todo; Ok (F', []) else Ok (F, todo) end) as [[F1 todo1]| |]; [|discriminate H|discriminate H].
    destruct (pt_result t) as [|c e]; [eapply IH; eassumption|].
    destruct (eqb_bytes out (c :: e)); cbn [also o_out o_err o_files] in *; destruct (IH _ _ _ _ _ K' H) as [I1 I2]; rewrite I1, I2; (split; [|reflexivity]); f_equal; cbn [snd].
    + destruct verbose.
      * rewrite <- (about_eq f t), <- !app_assoc. reflexivity.
      * unfold verdict_line. destruct (eqb_bytes f last); cbn [negb]; [reflexivity|]. destruct last; reflexivity.
    + rewrite <- (about_eq f t), <- !app_assoc. reflexivity.
Qed.
Lemma test_report_text verbose F (ts : list file_test) F' (f : bytes) t r : ts = (f, t) :: r -> known ts -> o_files (test_report cs diff verbose F ts) = Ok F' ->
  o_out (test_report cs diff verbose F ts) = text_out verbose f true ts /\ o_err (test_report cs diff verbose F ts) = [].
Proof.
  intros -> K H. unfold test_report in *. rewrite (prepared_file cs f t) in H |- * by (apply (K f t (or_introl eq_refl))). eapply report_text; eassumption.
Qed.
Lemma told_pass quiet f t out : pt_result t <> [] -> prints cs t out -> eqb_bytes out (pt_result t) = true -> told cs diff quiet f t (if quiet then [] else B "OK " ++ about f t ++ [nl]).
Proof. intros H1 H2 H3. apply eqb_bytes_eq in H3. subst out. apply told_ok. split; assumption. Qed.
Lemma told_fails quiet f t out : pt_result t <> [] -> prints cs t out -> eqb_bytes out (pt_result t) = false -> told cs diff quiet f t (B "FAIL " ++ about f t ++ [nl] ++ diff (pt_result t) out).
Proof. intros H1 H2 H3. apply eqb_bytes_false in H3. apply told_fail; assumption. Qed.
Lemma prints_fun t a b : prints cs t a -> prints cs t b -> a = b.
Proof. intros H1 H2. apply run_prints in H1, H2. congruence. Qed.
Lemma verbose_out : forall ts last success, known ts -> exists lines, Forall2 (fun ft => told cs diff false (fst ft) (snd ft)) ts lines /\ text_out true last success ts = concat lines.
Proof.
  induction ts as [|[f t] ts IH]; intros last success K; cbn [text_out]; [exists []; split; [constructor|reflexivity]|].
  destruct (K f t (or_introl eq_refl)) as [Hf (out & Ho)]. assert (K' : known ts) by (intros f' t' Ht; apply K; right; exact Ht).
  pose proof (proj2 (run_prints cs t out) Ho) as Er. rewrite Er.
  destruct (pt_result t) as [|c e] eqn:Et.
  - destruct (IH f success K') as (l & L1 & L2). exists ([] :: l). split; [|exact L2]. constructor; [|exact L1]. cbn [fst snd]. apply told_open. unfold answered. rewrite Et. intros C; apply C; reflexivity.
  - assert (Ne : pt_result t <> []) by (rewrite Et; discriminate). rewrite <- Et.
    destruct (eqb_bytes out (pt_result t)) eqn:E.
    + destruct (IH f success K') as (l & L1 & L2). eexists (_ :: l). split; [constructor; [|exact L1]; cbn [fst snd]; apply (told_pass false f t out Ne Ho E)|]. cbn [concat]. rewrite L2. reflexivity.
    + destruct (IH f false K') as (l & L1 & L2). eexists (_ :: l). split; [constructor; [|exact L1]; cbn [fst snd]; apply (told_fails false f t out Ne Ho E)|]. cbn [concat]. rewrite L2. reflexivity.
Qed.
Definition failing (ft : file_test) : bool :=
  match pt_result (snd ft) with [] => false | e => match run_command cs (pt_cmd (snd ft)) with Some out => negb (eqb_bytes out e) | None => false end end.
Lemma failing_iff ft : failing ft = true <-> fails cs (snd ft).
Proof.
  unfold failing, fails, answered. split.
  - intros H. destruct (pt_result (snd ft)) as [|c e]; [discriminate|]. destruct (run_command cs (pt_cmd (snd ft))) as [out|] eqn:E; [|discriminate].
    split; [discriminate|]. exists out. split; [apply run_prints, E|]. apply negb_true_iff in H. apply eqb_bytes_false, H.
  - intros (H1 & out & H2 & H3). destruct (pt_result (snd ft)) as [|c e]; [contradiction|]. apply run_prints in H2. rewrite H2. apply negb_true_iff, eqb_bytes_false, H3.
Qed.
Lemma failing_no ft : failing ft = false <-> ~ fails cs (snd ft).
Proof. rewrite <- failing_iff. destruct (failing ft); intuition congruence. Qed.
(** quiet, with the "OK" lines of files in front of some *)
Lemma quiet_out : forall ts last success, known ts -> exists lines,
  Forall2 (fun ft l => exists ok l', l = ok ++ l' /\ told cs diff true (fst ft) (snd ft) l' /\ (ok = [] \/ exists g, In g (last :: map fst ts) /\ ok = verdict_line true g)) ts lines /\
  text_out false last success ts = concat lines ++ verdict_line (success && forallb (fun ft => negb (failing ft)) ts) (List.last (map fst ts) last).
Proof.
  induction ts as [|[f t] ts IH]; intros last success K; cbn [text_out].
  - exists []. split; [constructor|]. cbn [concat app map List.last forallb]. rewrite andb_true_r. reflexivity.
  - destruct (K f t (or_introl eq_refl)) as [Hf (out & Ho)]. assert (K' : known ts) by (intros f' t' Ht; apply K; right; exact Ht).
    assert (Ef : forall s, verdict_line s (List.last (map fst ts) f) = verdict_line s (List.last (map fst ((f, t) :: ts)) last)).
    { intros s. f_equal. cbn [map fst]. clear. revert f. induction ts as [|[g u] ts IH]; intros f; [reflexivity|]. cbn [map fst]. change (List.last (f :: g :: map fst ts) last) with (List.last (g :: map fst ts) last). 
      rewrite <- IH. cbn [map fst List.last]. destruct (map fst ts); [reflexivity|]. clear. revert b. induction l as [|x l IH]; intros b; [reflexivity|apply IH]. }
    assert (Emb : forall lines, Forall2 (fun ft l => exists ok l', l = ok ++ l' /\ told cs diff true (fst ft) (snd ft) l' /\ (ok = [] \/ exists g, In g (f :: map fst ts) /\ ok = verdict_line true g)) ts lines ->
      Forall2 (fun ft l => exists ok l', l = ok ++ l' /\ told cs diff true (fst ft) (snd ft) l' /\ (ok = [] \/ exists g, In g (last :: map fst ((f, t) :: ts)) /\ ok = verdict_line true g)) ts lines).
    { intros lines H. revert H. apply f2_impl. intros x y (ok & l1 & A1 & A2 & A3). exists ok, l1. split; [exact A1|]. split; [exact A2|].
      destruct A3 as [A3|(g & G1 & G2)]; [left; exact A3|right]. exists g. split; [right; exact G1|exact G2]. }
    pose proof (proj2 (run_prints cs t out) Ho) as Er. rewrite Er.
    destruct (pt_result t) as [|c e] eqn:Et.
    + destruct (IH f success K') as (l & L1 & L2). exists ([] :: l). split.
      * constructor; [|apply Emb, L1]. exists [], []. split; [reflexivity|]. split; [|left; reflexivity]. apply told_open. unfold answered. cbn [snd]. rewrite Et. intros C; apply C; reflexivity.
      * cbn [concat app]. rewrite L2, Ef. cbn [forallb]. unfold failing at 2. cbn [snd]. rewrite Et. reflexivity.
    + assert (Ne : pt_result t <> []) by (rewrite Et; discriminate). rewrite <- Et.
      assert (Fl : failing (f, t) = negb (eqb_bytes out (pt_result t))) by (unfold failing; cbn [snd]; rewrite Et, Er; reflexivity).
      destruct (eqb_bytes out (pt_result t)) eqn:E.
      * destruct (IH f success K') as (l & L1 & L2). eexists (_ :: l). split.
        -- constructor; [|apply Emb, L1]. exists (if eqb_bytes f last then [] else match last with [] => [] | _ => verdict_line true last end), [].
           split; [reflexivity|]. split; [apply (told_pass true f t out Ne Ho E)|]. destruct (eqb_bytes f last); [left; reflexivity|]. destruct last as [|x y]; [left; reflexivity|right].
           exists (x :: y). split; [left; reflexivity|reflexivity].
        -- cbn [concat]. rewrite app_nil_r, L2, <- app_assoc, Ef. cbn [forallb]. rewrite Fl. reflexivity.
      * destruct (IH f false K') as (l & L1 & L2). eexists (_ :: l). split.
        -- constructor; [|apply Emb, L1]. eexists [], _. split; [reflexivity|]. split; [apply (told_fails true f t out Ne Ho E)|left; reflexivity].
        -- cbn [concat app]. rewrite L2, <- !app_assoc, Ef. cbn [forallb andb]. rewrite Fl. cbn [negb andb]. rewrite andb_false_r. reflexivity.
Qed.
(** quiet, one file *)
Lemma quiet_same f : forall ts success, known ts -> Forall (fun ft => fst ft = f) ts -> exists lines,
  Forall2 (fun ft => told cs diff true f (snd ft)) ts lines /\
  text_out false f success ts = concat lines ++ verdict_line (success && forallb (fun ft => negb (failing ft)) ts) f.
Proof.
  induction ts as [|[g t] ts IH]; intros success K HF; cbn [text_out].
  - exists []. split; [constructor|]. cbn [concat app forallb]. rewrite andb_true_r. reflexivity.
  - inversion HF as [|? ? E0 HF']; subst. cbn [fst] in *. destruct (K g t (or_introl eq_refl)) as [Hf (out & Ho)]. assert (K' : known ts) by (intros f' t' Ht; apply K; right; exact Ht).
    pose proof (proj2 (run_prints cs t out) Ho) as Er. rewrite Er, eqb_bytes_refl.
    destruct (pt_result t) as [|c e] eqn:Et.
    + destruct (IH success K' HF') as (l & L1 & L2). exists ([] :: l). split.
      * constructor; [|exact L1]. apply told_open. unfold answered. cbn [snd]. rewrite Et. intros C; apply C; reflexivity.
      * cbn [concat app]. rewrite L2. cbn [forallb]. unfold failing at 2. cbn [snd]. rewrite Et. reflexivity.
    + assert (Ne : pt_result t <> []) by (rewrite Et; discriminate). rewrite <- Et.
      assert (Fl : failing (g, t) = negb (eqb_bytes out (pt_result t))) by (unfold failing; cbn [snd]; rewrite Et, Er; reflexivity).
      destruct (eqb_bytes out (pt_result t)) eqn:E.
      * destruct (IH success K' HF') as (l & L1 & L2). exists ([] :: l). split.
        -- constructor; [|exact L1]. apply (told_pass true g t out Ne Ho E).
        -- cbn [concat app]. rewrite L2. cbn [forallb]. rewrite Fl. reflexivity.
      * destruct (IH false K' HF') as (l & L1 & L2). eexists (_ :: l). split.
        -- constructor; [|exact L1]. apply (told_fails true g t out Ne Ho E).
        -- cbn [concat]. rewrite L2, <- !app_assoc. cbn [forallb andb]. rewrite Fl. cbn [negb andb]. rewrite andb_false_r. reflexivity.
Qed.
End Report.

(** ** C127: what is printed *)
(** the files end as C64 says, whatever is printed *)
Theorem C127_files : forall cs diff verbose F ts,
  o_files (test_report cs diff verbose F ts) = test_command F (map (prepared cs) ts).
Proof. intros. apply test_report_files. Qed.
Print Assumptions C127_files.
(** With -v: for every test with an expected output, in order, "OK" or "FAIL" with the difference, and nothing else *)
Theorem C127_verbose : forall cs diff F (ts : list file_test) F',
  (forall (f : bytes) t, In (f, t) ts -> ~ In ":"%char f /\ exists out, prints cs t out) ->
  o_files (test_report cs diff true F ts) = Ok F' ->
  o_err (test_report cs diff true F ts) = [] /\
  exists texts, Forall2 (fun ft => told cs diff false (fst ft) (snd ft)) ts texts /\ o_out (test_report cs diff true F ts) = concat texts.
Proof.
  intros cs diff F [|[f t] ts] F' K H; [cbn; split; [reflexivity|]; exists []; split; [constructor|reflexivity]|].
  destruct (test_report_text cs diff true F _ F' f t ts eq_refl K H) as [E1 E2]. split; [exact E2|]. rewrite E1. exact (verbose_out cs diff _ _ _ K).
Qed.
Print Assumptions C127_verbose.
(** Without it: the same about the tests that fail, in order, and at the end one line that says OK exactly if no test failed; in
    between only "OK" lines of files *)
Theorem C127_quiet : forall cs diff F (ts : list file_test) F', ts <> [] ->
  (forall (f : bytes) t, In (f, t) ts -> ~ In ":"%char f /\ exists out, prints cs t out) ->
  o_files (test_report cs diff false F ts) = Ok F' ->
  o_err (test_report cs diff false F ts) = [] /\
  exists texts ok last, o_out (test_report cs diff false F ts) = concat texts ++ verdict_line ok last /\
    In last (map fst ts) /\ (ok = true <-> forall f t, In (f, t) ts -> ~ fails cs t) /\
    Forall2 (fun ft text => exists between about_test, text = between ++ about_test /\ told cs diff true (fst ft) (snd ft) about_test /\
               (between = [] \/ exists g, In g (map fst ts) /\ between = verdict_line true g)) ts texts.
Proof.
  intros cs diff F [|[f t] ts] F' Hne K H; [contradiction|]. clear Hne.
  destruct (test_report_text cs diff false F _ F' f t ts eq_refl K H) as [E1 E2]. split; [exact E2|]. rewrite E1.
  destruct (quiet_out cs diff ((f, t) :: ts) f true K) as (texts & L1 & L2). exists texts, (true && forallb (fun ft => negb (failing cs ft)) ((f, t) :: ts)), (List.last (map fst ((f, t) :: ts)) f).
  split; [exact L2|]. split.
  - clear. cbn [map fst]. generalize (map fst ts). intros l. revert f. induction l as [|x l IH]; intros f; [left; reflexivity|]. 
    change (List.last (f :: x :: l) f) with (List.last (x :: l) f). right. clear. revert x. induction l as [|y l IH]; intros x; [left; reflexivity|]. right. apply IH.
  - split.
    + cbn [andb]. rewrite forallb_forall. split.
      * intros HA f' t' Ht. specialize (HA _ Ht). apply negb_true_iff in HA. exact (proj1 (failing_no cs diff (f', t')) HA).
      * intros HA [f' t'] Ht. apply negb_true_iff. apply (proj2 (failing_no cs diff (f', t'))). exact (HA f' t' Ht).
    + revert L1. apply f2_impl. intros ft l (ok & l' & A1 & A2 & A3). exists ok, l'. split; [exact A1|]. split; [exact A2|]. destruct A3 as [A3|(g & [<-|G1] & G2)]; [left; exact A3| |right; eauto].
      right. exists f. split; [left; reflexivity|exact G2].
Qed.
Print Assumptions C127_quiet.
(** One file: the failing tests, and then whether there are any *)
Theorem C127_one_file : forall cs diff F (f : bytes) ts F', ts <> [] -> ~ In ":"%char f ->
  (forall t, In t ts -> exists out, prints cs t out) ->
  o_files (test_report cs diff false F (map (fun t => (f, t)) ts)) = Ok F' ->
  o_err (test_report cs diff false F (map (fun t => (f, t)) ts)) = [] /\
  exists texts ok, o_out (test_report cs diff false F (map (fun t => (f, t)) ts)) = concat texts ++ verdict_line ok f /\
    Forall2 (told cs diff true f) ts texts /\ (ok = true <-> forall t, In t ts -> ~ fails cs t).
Proof.
  intros cs diff F f [|t ts] F' Hne Hf K H; [contradiction|]. clear Hne. set (all := map (fun t => (f, t)) (t :: ts)) in *.
  assert (K' : known cs all). { intros f' t' Ht. apply in_map_iff in Ht as (u & [= <- <-] & Hu). split; [exact Hf|apply K, Hu]. }
  destruct (test_report_text cs diff false F all F' f t (map (fun t => (f, t)) ts) eq_refl K' H) as [E1 E2]. split; [exact E2|]. rewrite E1.
  destruct (quiet_same cs diff f all true K') as (texts & L1 & L2); [apply Forall_forall; intros x Hx; apply in_map_iff in Hx as (u & <- & _); reflexivity|].
  exists texts, (true && forallb (fun ft => negb (failing cs ft)) all). split; [exact L2|]. split.
  - clear -L1. unfold all in L1. revert texts L1. generalize (t :: ts). intros l. induction l as [|u l IH]; intros texts L; inversion L; subst; constructor; [assumption|apply IH; assumption].
  - cbn [andb]. rewrite forallb_forall. split.
    + intros HA u Hu. specialize (HA (f, u)). apply (proj1 (failing_no cs diff (f, u))), negb_true_iff, HA. apply in_map_iff. eauto.
    + intros HA x Hx. apply in_map_iff in Hx as (u & <- & Hu). apply negb_true_iff. apply (proj2 (failing_no cs diff (f, u))). exact (HA u Hu).
Qed.
Print Assumptions C127_one_file.
(** Several files: a line for each if the tests that fail are all in the last one and every further file starts with a test that
    passes *)
Theorem C127_each_file_partial : forall cs diff F before (f : bytes) ts F',
  let groups := before ++ [(f, ts)] in
  NoDup (map fst groups) ->
  (forall g ts', In (g, ts') groups -> g <> [] /\ ts' <> [] /\ ~ In ":"%char g /\ forall t, In t ts' -> exists out, prints cs t out) ->
  (forall g ts' t, In (g, ts') before -> In t ts' -> ~ fails cs t) ->
  (forall g t ts', In (g, t :: ts') (tl groups) -> passes cs t) ->
  o_files (test_report cs diff false F (by_file groups)) = Ok F' ->
  exists texts ok, o_out (test_report cs diff false F (by_file groups)) =
      concat (map (fun g => verdict_line true (fst g)) before) ++ concat texts ++ verdict_line ok f /\
    Forall2 (told cs diff true f) ts texts /\ (ok = true <-> forall t, In t ts -> ~ fails cs t).
Proof.
  intros cs diff F before f ts F' groups HN HG HB HP H.
  assert (Same : forall g l last rest, (forall t, In t l -> (exists out, prints cs t out) /\ ~ fails cs t) -> last = g ->
            text_out cs diff false last true (map (fun t => (g, t)) l ++ rest) = text_out cs diff false g true rest).
  { intros g l. induction l as [|t l IH]; intros last rest Hl ->; [reflexivity|]. cbn [map app text_out]. destruct (Hl t (or_introl eq_refl)) as [(out & Ho) Hn].
    pose proof (proj2 (run_prints cs t out) Ho) as Er. assert (Fl := proj2 (failing_no cs diff (g, t)) Hn). unfold failing in Fl. cbn [snd] in Fl. rewrite Er in *.
    destruct (pt_result t) as [|c e]; [apply IH; [intros; apply Hl; right; assumption|reflexivity]|]. apply negb_false_iff in Fl. rewrite Fl, eqb_bytes_refl. cbn [app].
    apply IH; [intros; apply Hl; right; assumption|reflexivity]. }
  assert (Switch : forall g t last rest, passes cs t -> g <> last -> last <> [] ->
            text_out cs diff false last true ((g, t) :: rest) = verdict_line true last ++ text_out cs diff false g true ((g, t) :: rest)).
  { intros g t last rest [P1 P2] N1 N2. cbn [text_out]. pose proof (proj2 (run_prints cs t _) P2) as Er. rewrite Er. unfold answered in P1.
    destruct (pt_result t) as [|c e]; [contradiction|]. rewrite !eqb_bytes_refl, (proj2 (eqb_bytes_false g last) N1). destruct last; [contradiction|reflexivity]. }
  assert (Kall : known cs (by_file groups)).
  { intros g t Ht. unfold by_file in Ht. apply in_concat in Ht as (l & L1 & L2). apply in_map_iff in L1 as ([g' l'] & <- & L1). cbn [fst snd] in L2. apply in_map_iff in L2 as (u & [= <- <-] & Hu).
    destruct (HG _ _ L1) as (_ & _ & A & B). split; [exact A|apply B, Hu]. }
  assert (Main : forall bs last, last <> [] -> ~ In last (map fst (bs ++ [(f, ts)])) -> NoDup (map fst (bs ++ [(f, ts)])) -> (forall g l, In (g, l) (bs ++ [(f, ts)]) -> In (g, l) groups) ->
            (forall g l, In (g, l) bs -> In (g, l) before) -> (forall g t l, In (g, t :: l) (bs ++ [(f, ts)]) -> passes cs t) ->
            text_out cs diff false last true (by_file (bs ++ [(f, ts)])) = verdict_line true last ++ concat (map (fun g => verdict_line true (fst g)) bs) ++ text_out cs diff false f true (map (fun t => (f, t)) ts)).
  { induction bs as [|[g l] bs IH]; intros last Hl1 Hl2 HN' HI HI2 HP'.
    - cbn [app map concat by_file fst snd] in *. unfold by_file. cbn [map concat fst snd]. rewrite app_nil_r. destruct (HG f ts (HI f ts (or_introl eq_refl))) as (A1 & A2 & _).
      destruct ts as [|t ts']; [contradiction|]. cbn [map]. apply Switch; [apply (HP' f t ts'); left; reflexivity| |exact Hl1]. intros ->. apply Hl2. left. reflexivity.
    - cbn [app map fst] in *. unfold by_file. cbn [map concat fst snd]. fold (by_file (bs ++ [(f, ts)])). destruct (HG g l (HI g l (or_introl eq_refl))) as (A1 & A2 & _ & A3).
      destruct l as [|t l']; [contradiction|]. inversion HN' as [|? ? N1 N2]; subst.
      assert (E : text_out cs diff false last true (map (fun t0 => (g, t0)) (t :: l') ++ by_file (bs ++ [(f, ts)])) = verdict_line true last ++ text_out cs diff false g true (map (fun t0 => (g, t0)) (t :: l') ++ by_file (bs ++ [(f, ts)]))).
      { cbn [map app]. apply Switch; [apply (HP' g t l'); left; reflexivity| |exact Hl1]. intros ->. apply Hl2. left. reflexivity. }
      rewrite E, (Same g (t :: l') g); [|intros u Hu; split; [apply A3, Hu|apply (HB g (t :: l') u); [apply HI2; left; reflexivity|exact Hu]]|reflexivity].
      rewrite (IH g); [cbn [concat]; rewrite <- !app_assoc; reflexivity|exact A1|exact N1|exact N2|intros; apply HI; right; assumption|intros; apply HI2; right; assumption|intros; eapply HP'; right; eassumption]. }
  assert (First : exists g t l, by_file groups = (g, t) :: l /\
            text_out cs diff false g true (by_file groups) = concat (map (fun g => verdict_line true (fst g)) before) ++ text_out cs diff false f true (map (fun t => (f, t)) ts)).
  { unfold groups in *. destruct before as [|[g l] bs].
    - cbn [app] in *. destruct (HG f ts (or_introl eq_refl)) as (A1 & A2 & _). destruct ts as [|t ts']; [contradiction|]. exists f, t, (map (fun t => (f, t)) ts').
      unfold by_file. cbn [map concat fst snd app]. rewrite app_nil_r. split; reflexivity.
    - cbn [app map fst] in *. destruct (HG g l (or_introl eq_refl)) as (A1 & A2 & _ & A3). destruct l as [|t l']; [contradiction|]. inversion HN as [|? ? N1 N2]; subst.
      exists g, t, (map (fun t => (g, t)) l' ++ by_file (bs ++ [(f, ts)])). unfold by_file at 1 3. cbn [map concat fst snd]. fold (by_file (bs ++ [(f, ts)])). split; [reflexivity|].
      change ((g, t) :: map (fun t0 => (g, t0)) l') with (map (fun t0 => (g, t0)) (t :: l')).
      rewrite (Same g (t :: l') g); [|intros u Hu; split; [apply A3, Hu|apply (HB g (t :: l') u); [left; reflexivity|exact Hu]]|reflexivity].
      rewrite (Main bs g); [rewrite <- !app_assoc; reflexivity|exact A1|exact N1|exact N2|intros; right; assumption|intros; right; assumption|cbn [tl] in HP; exact HP]. }
  destruct First as (g & t & l & E1 & E2). destruct (test_report_text cs diff false F _ F' g t l E1 Kall H) as [E3 _]. rewrite E3, E2.
  assert (Hin : In (f, ts) groups) by (unfold groups; apply in_or_app; right; left; reflexivity). destruct (HG f ts Hin) as (_ & _ & C1 & C2).
  assert (K' : known cs (map (fun t => (f, t)) ts)). { intros f' t' Ht. apply in_map_iff in Ht as (u & [= <- <-] & Hu). split; [exact C1|apply C2, Hu]. }
  destruct (quiet_same cs diff f (map (fun t => (f, t)) ts) true K') as (texts & L1 & L2); [apply Forall_forall; intros x Hx; apply in_map_iff in Hx as (u & <- & _); reflexivity|].
  exists texts, (true && forallb (fun ft => negb (failing cs ft)) (map (fun t => (f, t)) ts)). rewrite L2. split; [reflexivity|]. split.
  - clear -L1. revert texts L1. generalize ts. intros l. induction l as [|u l IH]; intros texts L; inversion L; subst; constructor; [assumption|apply IH; assumption].
  - cbn [andb]. rewrite forallb_forall. split.
    + intros HA u Hu. specialize (HA (f, u)). apply (proj1 (failing_no cs diff (f, u))), negb_true_iff, HA. apply in_map_iff. eauto.
    + intros HA x Hx. apply in_map_iff in Hx as (u & <- & Hu). apply negb_true_iff. apply (proj2 (failing_no cs diff (f, u))). exact (HA u Hu).
Qed.
Print Assumptions C127_each_file_partial.

(** ** Examples and refutations *)
(** a table of two commands: "one" prints a line, "say" its arguments *)
Definition xcs : commands := fun n =>
  if eqb_bytes n (B "one") then Some (fun _ => B "1" ++ [nl])
  else if eqb_bytes n (B "say") then Some (fun args => concat args ++ [nl]) else None.
Definition xdiff (a b : bytes) : bytes := B "-" ++ a ++ B "+" ++ b.
Lemma xprints cmd r n out : run_command xcs cmd = Some out -> prints xcs (mkPTest cmd r n) out.
Proof. intros H. apply run_prints. exact H. Qed.
Definition xpass1 := mkPTest (B "one") (B "1" ++ [nl]) 1.
Definition xfail1 := mkPTest (B "say a  b") (B "x" ++ [nl]) 4.
Definition xpass2 := mkPTest (B "say a") (B "a" ++ [nl]) 1.
Definition xopen2 := mkPTest (B "one") [] 4.
Ltac xp := apply xprints; vm_compute; reflexivity.
Lemma xpasses1 : passes xcs xpass1. Proof. split; [discriminate|xp]. Qed.
Lemma xpasses2 : passes xcs xpass2. Proof. split; [discriminate|xp]. Qed.
Lemma xfails1 : fails xcs xfail1. Proof. split; [discriminate|]. exists (B "ab" ++ [nl]). split; [xp|discriminate]. Qed.
Lemma xall t : In t [xpass1; xfail1; xpass2; xopen2] -> exists out, prints xcs t out.
Proof. intros [<-|[<-|[<-|[<-|[]]]]]; eexists; xp. Qed.
Lemma pass_not_fail cs t : passes cs t -> ~ fails cs t.
Proof. intros [_ H1] (_ & out & H2 & H3). apply H3. eapply prints_fun; eassumption. Qed.
Lemma open_not_fail cs t : pt_result t = [] -> ~ fails cs t.
Proof. intros H [C _]. apply C, H. Qed.
(** the hypotheses of the theorems above hold of tests that pass, fail and have no result *)
Example C127_hypotheses :
  let F : fs := fun n => if eqb_bytes n (B "a") then Some (text_of_lines [B "test say a"; B "a"; B "end test"; B "test one"; B "end test"])
                         else if eqb_bytes n (B "b") then Some (text_of_lines [B "test one"; B "1"; B "end test"; B "test say a  b"; B "x"; B "end test"]) else None in
  let before := [(B "a", [xpass2; xopen2])] in let groups := before ++ [(B "b", [xpass1; xfail1])] in
  NoDup (map fst groups) /\
  (forall g ts', In (g, ts') groups -> g <> [] /\ ts' <> [] /\ ~ In ":"%char g /\ forall t, In t ts' -> exists out, prints xcs t out) /\
  (forall g ts' t, In (g, ts') before -> In t ts' -> ~ fails xcs t) /\
  (forall g t ts', In (g, t :: ts') (tl groups) -> passes xcs t) /\
  (exists F', o_files (test_report xcs xdiff false F (by_file groups)) = Ok F' /\
     F' (B "a") = Some (text_of_lines [B "test say a"; B "a"; B "end test"; B "test one"; B "1"; B "end test"])) /\
  o_out (test_report xcs xdiff false F (by_file groups)) = text_of_lines [B "OK a"; B "FAIL b:4 say a  b"; B "-x"; B "+ab"; B "FAIL b"] /\
  o_out (test_report xcs xdiff true F (by_file groups)) = text_of_lines [B "OK a:1 say a"; B "OK b:1 one"; B "FAIL b:4 say a  b"; B "-x"; B "+ab"].
Proof.
  cbn zeta. split; [repeat constructor; cbn [In]; intuition discriminate|]. split.
  { intros g ts' [[= <- <-]|[[= <- <-]|[]]]; (split; [discriminate|]); (split; [discriminate|]); (split; [cbn; intuition discriminate|]); intros t Ht; apply xall; cbn [In] in *; intuition. }
  split; [intros g ts' t [[= <- <-]|[]] [<-|[<-|[]]]; [apply pass_not_fail, xpasses2|apply open_not_fail; reflexivity]|].
  split; [intros g t ts' [[= <- <- <-]|[]]; apply xpasses1|]. split.
  { eexists. split; [vm_compute; reflexivity|]. vm_compute. reflexivity. }
  split; vm_compute; reflexivity.
Qed.
(** the full property "the line of a file says whether its tests passed" is refuted: a file with a failing test is reported OK when
    the next file starts with a test that passes, and that file is reported as failing *)
Theorem C127_wrong_file_refuted : exists cs diff (F : fs) t u, fails cs t /\ passes cs u /\
  o_files (test_report cs diff false F (by_file [(B "a", [t]); (B "b", [u])])) = Ok F /\
  exists text, o_out (test_report cs diff false F (by_file [(B "a", [t]); (B "b", [u])])) = text ++ verdict_line true (B "a") ++ verdict_line false (B "b") /\
    told cs diff true (B "a") t text.
Proof.
  exists xcs, xdiff, (fun _ => None), xfail1, xpass1. split; [exact xfails1|]. split; [exact xpasses1|]. split; [vm_compute; reflexivity|].
  exists (B "FAIL " ++ about (B "a") xfail1 ++ [nl] ++ xdiff (pt_result xfail1) (B "ab" ++ [nl])). split; [vm_compute; reflexivity|].
  apply told_fail; [discriminate|xp|discriminate].
Qed.
Print Assumptions C127_wrong_file_refuted.
(** and a file may get no line at all: here the second one starts with a test without result *)
Theorem C127_no_line_refuted : exists cs diff (F F' : fs) t u v, passes cs t /\ pt_result u = [] /\ passes cs v /\
  o_files (test_report cs diff false F (by_file [(B "a", [t]); (B "b", [u; v])])) = Ok F' /\
  o_out (test_report cs diff false F (by_file [(B "a", [t]); (B "b", [u; v])])) = verdict_line true (B "b").
Proof.
  exists xcs, xdiff, (fun n => if eqb_bytes n (B "b") then Some (B "test one") else None). eexists. exists xpass1, (mkPTest (B "one") [] 1), xpass2.
  split; [exact xpasses1|]. split; [reflexivity|]. split; [exact xpasses2|]. split; [vm_compute; reflexivity|]. vm_compute. reflexivity.
Qed.
Print Assumptions C127_no_line_refuted.
(** a test whose command is not known ends the run: nothing is printed about the tests after it, not even a final line, and the
    results computed for the same file before it are not stored *)
Theorem C127_unknown_command_refuted : exists cs diff (F : fs) t u v, 
  F (B "a") = Some (text_of_lines [B "test one"; B "end test"; B "test who"; B "end test"; B "test say a"; B "end test"]) /\
  pt_result t = [] /\ prints cs t (B "1" ++ [nl]) /\ (forall out, ~ prints cs u out) /\ fails cs v /\
  forall verbose, let o := test_report cs diff verbose F (by_file [(B "a", [t; u; v])]) in
    o_out o = [] /\ o_err o = B "FAIL: command unknown: who a:3" ++ [nl] /\ o_files o = Ok F.
Proof.
  exists xcs, xdiff, (fun n => if eqb_bytes n (B "a") then Some (text_of_lines [B "test one"; B "end test"; B "test who"; B "end test"; B "test say a"; B "end test"]) else None).
  exists (mkPTest (B "one") [] 1), (mkPTest (B "who") [] 3), (mkPTest (B "say a") (B "b" ++ [nl]) 5).
  split; [reflexivity|]. split; [reflexivity|]. split; [xp|]. split.
  { intros out H. apply run_prints in H. discriminate H. }
  split; [split; [discriminate|]; exists (B "a" ++ [nl]); split; [xp|discriminate]|].
  intros []; cbv zeta; (split; [vm_compute; reflexivity|]); (split; [vm_compute; reflexivity|]); vm_compute; reflexivity.
Qed.
Print Assumptions C127_unknown_command_refuted.
(** A test without a command, or with one that does not exist, ends the run with a message that names its file, its line and the command; the
    tests after it make no difference *)
Lemma stopped_report cs diff verbose f t : run_command cs (pt_cmd t) = None -> forall before after F last todo success F',
  known cs before -> o_files (run_report cs diff verbose F last todo success (before ++ (f, t) :: after)) = Ok F' ->
  o_err (run_report cs diff verbose F last todo success (before ++ (f, t) :: after)) = stop_message cs (f, t) /\
  run_report cs diff verbose F last todo success (before ++ (f, t) :: after) = run_report cs diff verbose F last todo success (before ++ [(f, t)]).
Proof.
  intros N. induction before as [|[g u] before IH]; intros after F last todo success F' K H.
  - cbn [app run_report] in H |- *. destruct (match todo with [] => Ok (F, []) | _ => if negb (eqb_bytes (test_file (prepared cs (f, t))) last) then do F' <- update_test_file F todo; Ok (F', []) else Ok (F, todo) end) as [[F1 todo1]| |];
      [|discriminate H|discriminate H]. change (ts_output (prepared cs (f, t))) with (run_command cs (pt_cmd t)) in H |- *. rewrite N in H |- *. split; reflexivity.
  - assert (K' : known cs before) by (intros x y I; apply K; right; exact I). destruct (proj2 (K g u (or_introl eq_refl))) as (out & P). apply run_prints in P.
    cbn [app run_report] in H |- *. destruct (match todo with [] => Ok (F, []) | _ => if negb (eqb_bytes (test_file (prepared cs (g, u))) last) then do F' <- update_test_file F todo; Ok (F', []) else Ok (F, todo) end) as [[F1 todo1]| |];
      [|discriminate H|discriminate H]. change (ts_output (prepared cs (g, u))) with (run_command cs (pt_cmd u)) in H |- *. rewrite P in H |- *.
    destruct (ts_result (prepared cs (g, u))) as [|c e]; [apply (IH after _ _ _ _ F' K' H)|].
    destruct (eqb_bytes out (c :: e)); cbn [also o_files o_err] in H |- *; destruct (IH after _ _ _ _ F' K' H) as (E1 & E2); rewrite E2 in *; split; auto.
Qed.
Theorem C127_stopped : forall cs diff verbose F (before after : list file_test) (f : bytes) t F',
  (forall (g : bytes) u, In (g, u) before -> ~ In ":"%char g /\ exists out, prints cs u out) -> (forall out, ~ prints cs t out) ->
  o_files (test_report cs diff verbose F (before ++ (f, t) :: after)) = Ok F' ->
  let place := f ++ B ":" ++ print_nat (Z.of_nat (pt_line t)) ++ [nl] in
  (spaced (pt_cmd t) [] -> o_err (test_report cs diff verbose F (before ++ (f, t) :: after)) = B "FAIL: test item is missing command " ++ place) /\
  (forall name args, spaced (pt_cmd t) (name :: args) -> o_err (test_report cs diff verbose F (before ++ (f, t) :: after)) = B "FAIL: command unknown: " ++ name ++ B " " ++ place) /\
  test_report cs diff verbose F (before ++ (f, t) :: after) = test_report cs diff verbose F (before ++ [(f, t)]).
Proof.
  intros cs diff verbose F before after f t F' K N H place. assert (R : run_command cs (pt_cmd t) = None) by (destruct (run_command cs (pt_cmd t)) as [out|] eqn:E; [destruct (N out); apply run_prints, E|reflexivity]).
  assert (T : exists x, forall tail, test_report cs diff verbose F (before ++ (f, t) :: tail) = run_report cs diff verbose F (test_file (prepared cs x)) [] true (before ++ (f, t) :: tail)).
  { destruct before as [|x before]; [exists (f, t)|exists x]; reflexivity. }
  destruct T as (x & T). rewrite (T after) in H |- *. rewrite (T []). destruct (stopped_report cs diff verbose f t R before after F _ _ _ F' K H) as (E1 & E2). rewrite E1. unfold stop_message.
  assert (L : location (prepared cs (f, t)) ++ [nl] = place) by (unfold location, prepared, place; cbn [ts_file ts_line fst snd]; rewrite <- !app_assoc; reflexivity).
  split; [|split; [|exact E2]].
  - intros S. cbn [snd]. rewrite (words_spaced _ _ S), L. reflexivity.
  - intros name args S. cbn [snd]. rewrite (words_spaced _ _ S), L. reflexivity.
Qed.
Print Assumptions C127_stopped.
