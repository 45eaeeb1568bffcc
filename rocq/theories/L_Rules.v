(** Proofs about rules files. *)
From Verif Require Import Base M_Amount M_Regex M_Parser M_Writer M_Names M_Rules S_Ledger S_Rules L_Regex L_Parser L_RoundTrip.
Local Open Scope nat_scope.

Lemma space_not_pat : forall c, is_space c = true -> is_pat c = false. Proof. all_chars. Qed.
Lemma pat_not_space : forall c, is_pat c = true -> is_space c = false. Proof. all_chars. Qed.
Lemma word_pat : forall c, is_word c = true -> is_pat c = true. Proof. all_chars. Qed.
Lemma space_ascii : forall c, is_space c = true -> is_ascii_space c = true. Proof. all_chars. Qed.
Lemma word_not_ascii : forall c, is_word c = true -> is_ascii_space c = false. Proof. all_chars. Qed.
Lemma pat_not_ascii : forall c, is_pat c = true -> is_ascii_space c = false. Proof. all_chars. Qed.

Definition all_space (s : bytes) : Prop := forallb is_space s = true.
Lemma hd_of (f g : ascii -> bool) s : (forall c, f c = true -> g c = false) -> forallb f s = true -> hd_not g s.
Proof. intros H. destruct s as [|c s]; [intros _; exact I|]. cbn. intros E. apply andb_true_iff in E as [E _]. apply H, E. Qed.
Lemma hd_app (g : ascii -> bool) s t : (s = [] -> hd_not g t) -> (s <> [] -> hd_not g s) -> hd_not g (s ++ t).
Proof. destruct s as [|c s]; cbn; intros H1 H2; [apply H1; reflexivity|apply H2; discriminate]. Qed.

(** ** regular expressions *)
(** the text up to the last visible character *)
Lemma star_set_visible {R} (s : bytes) : forall cs (k : bytes -> caps -> option R),
  forallb is_space s = true -> (forall r, forallb is_space r = true -> k r cs = None) -> star_set (fun c => negb (code c =? 10)%Z) s cs k = None.
Proof.
  induction s as [|c s IH]; intros cs k E H; cbn [star_set]; [apply H; reflexivity|].
  cbn [forallb] in E. apply andb_true_iff in E as [E1 E2]. destruct (negb _); [rewrite IH by assumption; apply H; cbn [forallb]; rewrite E1, E2; reflexivity|].
  apply H. cbn [forallb]. rewrite E1, E2. reflexivity.
Qed.
Lemma takes_visible p : line_text p -> ends_visible p -> takes (rseq [S_; RStar any_; S_]) p [] all_space.
Proof.
  intros L (c & m & d & -> & Hc & Hd). intros R rest cs k x HR HK. cbn [rseq]. cbn [rmatch app]. unfold S_. cbn [rmatch]. rewrite Hc. cbn [negb].
  change (RStar any_) with (RStar (RSet (fun c => negb (code c =? 10)%Z))).
  assert (Lm : forallb (fun c => negb (code c =? 10)%Z) m = true /\ negb (code d =? 10)%Z = true).
  { inversion L as [|? ? _ L1]; subst. apply Forall_app in L1 as [L1 L2]. inversion L2 as [|? ? L3 _]; subst. split.
    - apply forallb_forall. intros y I. pose proof (proj1 (Forall_forall _ _) L1 y I) as Y. cbn beta in Y. destruct (Z.eqb_spec (code y) 10); [lia|reflexivity].
    - destruct (Z.eqb_spec (code d) 10); [lia|reflexivity]. }
  destruct Lm as [Lm Ld]. match goal with |- ?X = _ => change X with (rmatch (RStar (RSet (fun c => negb (code c =? 10)%Z))) ((m ++ [d]) ++ rest) cs (fun s' cs' => rmatch S_ s' cs' k)) end. rewrite star_set_eq, <- app_assoc. cbn [app]. clear L Hc.
  induction m as [|y m IH]; cbn [app star_set].
  - rewrite Ld. rewrite star_set_visible; [cbn [rmatch S_]; unfold S_; cbn [rmatch]; rewrite Hd; cbn [negb]; exact HK|exact HR|].
    intros r Er. unfold S_. cbn [rmatch]. destruct r as [|z r]; [reflexivity|]. cbn [forallb] in Er. apply andb_true_iff in Er as [-> _]. reflexivity.
  - cbn [forallb] in Lm. apply andb_true_iff in Lm as [-> Lm]. rewrite (IH Lm). reflexivity.
Qed.

Definition rx_rule_line : rx := rseq [rplus s_; rx_pat "1"; ROpt (RGrp "2" (RSeq (rplus s_) (RGrp "3" (rseq [S_; RStar any_; S_]))))].
Definition rx_set_line : rx := rseq [rplus s_; rchar "@"%char; RGrp "4" (rplus w_)].
Definition rx_note_line : rx := rseq [rplus s_; rchar ";"%char; rplus s_; RGrp "5" (RStar any_)].
Lemma bodyRE_eq : bodyRE = RAlt rx_rule_line (RAlt rx_set_line rx_note_line).
Proof. reflexivity. Qed.

Lemma takes_sp sp (P : bytes -> Prop) : spaces sp -> sp <> [] -> (forall rest, P rest -> hd_not is_space rest) -> takes (rplus s_) sp [] P.
Proof. intros [S _] N H. apply takes_plus; assumption. Qed.
Lemma acc_char_pat : forall c, acc_char c = is_pat c. Proof. all_chars. Qed.
Lemma acc_pat a : acc_text a -> a <> [] /\ forallb is_pat a = true.
Proof. intros [N H]. split; [exact N|]. rewrite <- H. symmetry. clear. induction a as [|c a IH]; [reflexivity|]. cbn [forallb]. rewrite IH, acc_char_pat. reflexivity. Qed.
Lemma takes_acc n a (P : bytes -> Prop) : acc_text a -> (forall rest, P rest -> hd_not is_pat rest) -> takes (rx_pat n) a [(n, a)] P.
Proof. intros A H. destruct (acc_pat a A) as [N F]. apply takes_grp. apply takes_plus; assumption. Qed.

Lemma search_rule sp1 a sp2 p sp3 : spaces sp1 -> sp1 <> [] -> acc_text a -> spaces sp2 -> sp2 <> [] -> pat_text p -> p <> [] -> spaces sp3 ->
  rprefix bodyRE (sp1 ++ a ++ sp2 ++ p ++ sp3) = Some (sp3, [("2"%string, sp2 ++ p); ("3"%string, p); ("1"%string, a)]).
Proof.
  intros S1 N1 A S2 N2 [Lp Vp] Np S3. destruct Vp as [?|Vp]; [congruence|].
  replace (sp1 ++ a ++ sp2 ++ p ++ sp3) with ((sp1 ++ (a ++ (sp2 ++ p))) ++ sp3) by (rewrite <- !app_assoc; reflexivity).
  rewrite (takes_prefix bodyRE (sp1 ++ (a ++ (sp2 ++ p))) [("2"%string, sp2 ++ p); ("3"%string, p); ("1"%string, a)] all_space sp3); [reflexivity| |apply S3].
  rewrite bodyRE_eq. apply takes_alt_l. unfold rx_rule_line. cbn [rseq].
  change [("2"%string, sp2 ++ p); ("3"%string, p); ("1"%string, a)] with (([("2"%string, sp2 ++ p); ("3"%string, p)] ++ [("1"%string, a)]) ++ []).
  destruct Vp as (c & m & d & Ep & Hc & Hd).
  eapply takes_seq; [apply (takes_sp sp1 (hd_not is_space)); auto| |].
  - eapply takes_seq; [apply (takes_acc "1" a (hd_not is_pat)); auto| |].
    + apply takes_opt_some. apply takes_grp. change [("3"%string, p)] with ([("3"%string, p)] ++ []). eapply takes_seq; [apply (takes_sp sp2 (hd_not is_space)); auto| |].
      * apply takes_grp. apply takes_visible; [exact Lp|]. exists c, m, d. auto.
      * intros rest _. rewrite Ep. cbn. exact Hc.
    + intros rest _. destruct S2 as [S2 _]. destruct sp2 as [|z sp2]; [congruence|]. cbn in S2 |- *. apply andb_true_iff in S2 as [S2 _]. apply space_not_pat, S2.
  - intros rest _. destruct (acc_pat a A) as [NA A']. clear A. rename A' into A. destruct a as [|z a]; [congruence|]. cbn in A |- *. apply andb_true_iff in A as [A _]. apply pat_not_space, A.
Qed.
Lemma fails_visible s : forallb is_space s = true -> fails (RGrp "2" (RSeq (rplus s_) (RGrp "3" (rseq [S_; RStar any_; S_])))) s.
Proof.
  intros E. apply fails_grp. apply fails_plus_seq. intros run rest -> _ _. rewrite forallb_app in E. apply andb_true_iff in E as [_ E].
  apply fails_grp. cbn [rseq]. apply fails_seq_l. apply fails_set. destruct rest as [|c r]; [exact I|]. cbn in E |- *. apply andb_true_iff in E as [-> _]. reflexivity.
Qed.
Lemma search_any sp1 a sp2 : spaces sp1 -> sp1 <> [] -> acc_text a -> spaces sp2 ->
  rprefix bodyRE (sp1 ++ a ++ sp2) = Some (sp2, [("1"%string, a)]).
Proof.
  intros S1 N1 A S2. rewrite app_assoc.
  rewrite (takes_prefix bodyRE (sp1 ++ a) [("1"%string, a)] all_space sp2); [reflexivity| |apply S2].
  rewrite bodyRE_eq. apply takes_alt_l. unfold rx_rule_line. cbn [rseq].
  replace (sp1 ++ a) with (sp1 ++ a ++ []) by (rewrite app_nil_r; reflexivity). change [("1"%string, a)] with (([] ++ [("1"%string, a)]) ++ []).
  eapply takes_seq; [apply (takes_sp sp1 (hd_not is_space)); auto| |].
  - eapply takes_seq; [apply (takes_acc "1" a (hd_not is_pat)); auto| |].
    + apply takes_opt_none. intros rest H. apply fails_visible, H.
    + intros rest H. cbn [app]. eapply hd_of; [apply space_not_pat|exact H].
  - intros rest _. destruct (acc_pat a A) as [NA A']. clear A. rename A' into A. destruct a as [|z a]; [congruence|]. cbn in A |- *. apply andb_true_iff in A as [A _]. apply pat_not_space, A.
Qed.
(** leading blanks before a character that is no blank *)
Lemma run_in (f : ascii -> bool) run : forall rest sp c s, sp ++ c :: s = run ++ rest -> forallb f run = true -> f c = false ->
  exists sp', sp = run ++ sp' /\ rest = sp' ++ c :: s.
Proof.
  induction run as [|y run IH]; intros rest sp c s E F C; [exists sp; auto|]. cbn [forallb] in F. apply andb_true_iff in F as [F1 F2].
  destruct sp as [|z sp]; cbn [app] in E; injection E as E1 E2; [congruence|]. subst z. destruct (IH _ _ _ _ E2 F2 C) as (sp' & -> & ->). exists sp'. auto.
Qed.
Lemma fails_sp_char sp c s b : forallb is_space sp = true -> is_space c = false ->
  (forall z r, is_space z = true \/ z = c -> fails b (z :: r)) -> fails (RSeq (rplus s_) b) (sp ++ c :: s).
Proof.
  intros Hs Hc H. apply fails_plus_seq. intros run rest E _ F. destruct (run_in is_space run rest sp c s E F Hc) as (sp' & -> & ->).
  rewrite forallb_app in Hs. apply andb_true_iff in Hs as [_ Hs]. destruct sp' as [|z sp']; cbn [app]; [apply H; auto|].
  cbn [forallb] in Hs. apply andb_true_iff in Hs as [Hs _]. apply H. auto.
Qed.
Lemma fails_pat_seq n b z r : is_pat z = false -> fails (RSeq (rx_pat n) b) (z :: r).
Proof. intros E. apply fails_seq_l, fails_grp. unfold rplus. apply fails_seq_l, fails_set. exact E. Qed.
Lemma space_not_at : forall c, is_space c = true -> eqc "@"%char c = false. Proof. all_chars. Qed.
Lemma search_set sp1 n sp2 : spaces sp1 -> sp1 <> [] -> is_words n -> spaces sp2 ->
  rprefix bodyRE (sp1 ++ B "@" ++ n ++ sp2) = Some (sp2, [("4"%string, n)]).
Proof.
  intros S1 N1 [Nw W] S2. replace (sp1 ++ B "@" ++ n ++ sp2) with ((sp1 ++ B "@" ++ n) ++ sp2) by (rewrite <- !app_assoc; reflexivity).
  rewrite (takes_prefix bodyRE (sp1 ++ B "@" ++ n) [("4"%string, n)] all_space sp2); [reflexivity| |apply S2].
  rewrite bodyRE_eq. apply takes_alt_r.
  - intros rest _. rewrite <- app_assoc. apply fails_sp_char; [apply S1|reflexivity|]. intros z r [E| ->]; apply fails_pat_seq; [apply space_not_pat, E|reflexivity].
  - apply takes_alt_l. unfold rx_set_line. cbn [rseq]. change [("4"%string, n)] with (([("4"%string, n)] ++ []) ++ []).
    eapply takes_seq; [apply (takes_sp sp1 (hd_not is_space)); auto| |intros rest _; reflexivity].
    eapply takes_seq; [apply (takes_char "@"%char (fun _ => True))| |intros; exact I]. apply takes_grp. apply takes_plus; [exact Nw|exact W|].
    intros rest H. eapply hd_of; [apply space_not_word|exact H].
Qed.
Lemma search_note sp1 sp2 t : spaces sp1 -> sp1 <> [] -> spaces sp2 -> sp2 <> [] -> line_text t -> (forall c r, t = c :: r -> is_space c = false) ->
  rprefix bodyRE (sp1 ++ B ";" ++ sp2 ++ t) = Some ([], [("5"%string, t)]).
Proof.
  intros S1 N1 S2 N2 L V. replace (sp1 ++ B ";" ++ sp2 ++ t) with ((sp1 ++ B ";" ++ (sp2 ++ t)) ++ []) by (rewrite app_nil_r; reflexivity).
  rewrite (takes_prefix bodyRE (sp1 ++ B ";" ++ (sp2 ++ t)) [("5"%string, t)] (fun s => s = []) []); [reflexivity| |reflexivity].
  rewrite bodyRE_eq. apply takes_alt_r; [|apply takes_alt_r].
  - intros rest ->. rewrite app_nil_r. apply fails_sp_char; [apply S1|reflexivity|]. intros z r [E| ->]; apply fails_pat_seq; [apply space_not_pat, E|reflexivity].
  - intros rest ->. rewrite app_nil_r. apply fails_sp_char; [apply S1|reflexivity|]. intros z r [E| ->]; apply fails_seq_l, fails_set; [apply space_not_at, E|reflexivity].
  - unfold rx_note_line. cbn [rseq]. change [("5"%string, t)] with ((([("5"%string, t)] ++ []) ++ []) ++ []).
    eapply takes_seq; [apply (takes_sp sp1 (hd_not is_space)); auto| |intros rest _; reflexivity].
    eapply takes_seq; [apply (takes_char ";"%char (fun _ => True))| |intros; exact I].
    eapply takes_seq; [apply (takes_sp sp2 (hd_not is_space)); auto| |].
    + apply takes_grp. apply takes_any; [exact L|auto].
    + intros rest ->. rewrite app_nil_r. destruct t as [|c r]; [exact I|]. cbn. eapply V. reflexivity.
Qed.
(** lines between groups are no lines of a group *)
Lemma fails_rprefix r s : fails r s -> rprefix r s = None.
Proof. intros H. apply H. Qed.
Lemma search_between l : between l -> rprefix bodyRE l = None.
Proof.
  intros [E|(c & r & -> & E1 & E2)]; apply fails_rprefix; rewrite bodyRE_eq.
  - assert (G : forall b, (forall z t, is_space z = true -> fails b (z :: t)) -> fails b [] -> fails (RSeq (rplus s_) b) l).
    { intros b H H0. apply fails_plus_seq. intros run rest -> _ _. rewrite forallb_app in E. apply andb_true_iff in E as [_ E].
      destruct rest as [|z t]; [exact H0|]. cbn [forallb] in E. apply andb_true_iff in E as [E _]. apply H, E. }
    apply fails_alt; [|apply fails_alt]; apply G.
    + intros z t Hz. apply fails_pat_seq, space_not_pat, Hz.
    + apply fails_seq_l, fails_grp. unfold rplus. apply fails_seq_l, fails_set. exact I.
    + intros z t Hz. apply fails_seq_l, fails_set. cbn. apply space_not_at, Hz.
    + apply fails_seq_l, fails_set. exact I.
    + intros z t Hz. apply fails_seq_l, fails_set. cbn. apply space_not_semi, Hz.
    + apply fails_seq_l, fails_set. exact I.
  - assert (E : is_space c = false) by (destruct (is_space c) eqn:E; [apply space_ascii in E; congruence|reflexivity]).
    assert (G : forall b, fails (RSeq (rplus s_) b) (c :: r)) by (intros b; apply fails_seq_l; unfold rplus; apply fails_seq_l, fails_set; exact E).
    apply fails_alt; [|apply fails_alt]; apply G.
Qed.
Lemma header_between l : between l -> rprefix headerRE l = None /\ rprefix headerRE (trim_space l) = None.
Proof.
  assert (G : forall c r, is_word c = false -> rprefix headerRE (c :: r) = None).
  { intros c r E. apply fails_rprefix. unfold headerRE. apply fails_alt; [cbn [rseq]; apply fails_seq_l|]; apply fails_grp; unfold rplus; apply fails_seq_l, fails_set; exact E. }
  assert (G0 : rprefix headerRE [] = None) by reflexivity.
  intros [E|(c & r & -> & E1 & E2)].
  - split; [destruct l as [|c l]; [exact G0|]; cbn in E; apply andb_true_iff in E as [E _]; apply G, space_not_word, E|].
    assert (D : drop_space l = []). { clear -E. induction l as [|c l IH]; [reflexivity|]. cbn in E |- *. apply andb_true_iff in E as [E1 E2]. rewrite (space_ascii _ E1). apply IH, E2. }
    unfold trim_space. rewrite D. exact G0.
  - split; [apply G, E2|]. unfold trim_space. cbn [drop_space]. rewrite E1. cbn [rev].
    assert (D : exists t, drop_space (rev r ++ [c]) = t ++ [c]).
    { induction (rev r) as [|y l IH]; cbn [app drop_space]; [rewrite E1; exists []; reflexivity|]. destruct (is_ascii_space y); [exact IH|]. exists (y :: l). reflexivity. }
    destruct D as [t ->]. rewrite rev_app_distr. cbn [rev app]. apply G, E2.
Qed.
(** headers *)
Lemma search_head_account id sp1 a sp2 : is_words id -> spaces sp1 -> sp1 <> [] -> acc_text a -> spaces sp2 ->
  rprefix headerRE (id ++ sp1 ++ a ++ sp2) = Some (sp2, [("2"%string, a); ("1"%string, id)]).
Proof.
  intros [Ni W] S1 N1 A S2. replace (id ++ sp1 ++ a ++ sp2) with ((id ++ (sp1 ++ a)) ++ sp2) by (rewrite <- !app_assoc; reflexivity).
  rewrite (takes_prefix headerRE (id ++ (sp1 ++ a)) [("2"%string, a); ("1"%string, id)] all_space sp2); [reflexivity| |apply S2].
  unfold headerRE. apply takes_alt_l. cbn [rseq]. change [("2"%string, a); ("1"%string, id)] with (([("2"%string, a)] ++ []) ++ [("1"%string, id)]).
  eapply takes_seq; [apply takes_grp, (takes_plus is_word id (hd_not is_word)); auto| |].
  - eapply takes_seq; [apply (takes_sp sp1 (hd_not is_space)); auto| |].
    + apply takes_acc; [exact A|]. intros rest H. eapply hd_of; [apply space_not_pat|exact H].
    + intros rest _. destruct (acc_pat a A) as [NA A']. clear A. rename A' into A. destruct a as [|z a]; [congruence|]. cbn in A |- *. apply andb_true_iff in A as [A _]. apply pat_not_space, A.
  - intros rest _. destruct S1 as [S1 _]. destruct sp1 as [|z sp]; [congruence|]. cbn in S1 |- *. apply andb_true_iff in S1 as [S1 _]. apply space_not_word, S1.
Qed.
Lemma word_run n : forall run rest sp, n ++ sp = run ++ rest -> forallb is_word n = true -> forallb is_space sp = true -> forallb is_word run = true ->
  exists n', n = run ++ n' /\ rest = n' ++ sp.
Proof.
  induction n as [|c n IH]; intros run rest sp E Hn Hs Hr.
  - destruct run as [|y run]; [exists []; auto|]. cbn [app] in E. subst sp. cbn in Hs, Hr. apply andb_true_iff in Hs as [Hs _]. apply andb_true_iff in Hr as [Hr _].
    apply space_not_word in Hs. congruence.
  - destruct run as [|y run]; [exists (c :: n); auto|]. cbn [app] in E. injection E as -> E. cbn [forallb] in Hn, Hr. apply andb_true_iff in Hn as [_ Hn]. apply andb_true_iff in Hr as [_ Hr].
    destruct (IH _ _ _ E Hn Hs Hr) as (n' & -> & ->). exists n'. auto.
Qed.
Lemma search_head_set n sp : is_words n -> spaces sp -> rprefix headerRE (n ++ sp) = Some (sp, [("3"%string, n)]).
Proof.
  intros [Nn W] [S _]. rewrite (takes_prefix headerRE n [("3"%string, n)] all_space sp); [reflexivity| |exact S].
  unfold headerRE. apply takes_alt_r.
  - intros rest H. cbn [rseq]. apply fails_grp_plus_seq. intros run r E _ F. destruct (word_run n run r rest E W H F) as (n' & -> & ->).
    destruct n' as [|c n']; cbn [app].
    + apply fails_plus_seq. intros run2 r2 -> _ _. unfold all_space in H. rewrite forallb_app in H. apply andb_true_iff in H as [_ H].
      apply fails_grp. unfold rplus. apply fails_seq_l, fails_set. eapply hd_of; [apply space_not_pat|exact H].
    + apply fails_seq_l. unfold rplus. apply fails_seq_l, fails_set. cbn.
      rewrite forallb_app in W. apply andb_true_iff in W as [_ W]. cbn in W. apply andb_true_iff in W as [W _]. apply word_not_space, W.
  - apply takes_grp. apply takes_plus; [exact Nn|exact W|]. intros rest H. eapply hd_of; [apply space_not_word|exact H].
Qed.

(** ** meanings *)
Lemma notes_split ns ls ns' ls' : map SNote ns ++ ls = map SNote ns' ++ ls' -> starts_with_note ls = false -> starts_with_note ls' = false -> ns = ns' /\ ls = ls'.
Proof.
  revert ns'. induction ns as [|n ns IH]; intros [|n' ns'] E H H'; cbn [map app] in E.
  - auto.
  - subst ls. discriminate H.
  - subst ls'. discriminate H'.
  - injection E as -> E. destruct (IH _ E H H') as [-> ->]. auto.
Qed.
Lemma account_is_det find a o o' : account_is find a o -> account_is find a o' -> o = o'.
Proof. intros [[A B]|(A & n & B & C)] [[A' B']|(A' & n' & B' & C')]; congruence. Qed.
Lemma means_det find above ls rs : means find above ls rs -> forall rs', means find above ls rs' -> rs = rs'.
Proof.
  induction 1 as [above|above a p acc notes ls rs A S M IH|above n above' ls' rs' ls rs Nn M1 IH1 M2 IH2|above n ls rs M IH]; intros rs2 H.
  - inversion H. reflexivity.
  - remember (SRule a p :: map SNote notes ++ ls) as l0 eqn:E0. destruct H as [|above2 a2 p2 acc2 notes2 ls2 rs3 A2 S2 M2| |]; try discriminate. injection E0 as -> -> E2. destruct (notes_split _ _ _ _ E2 S2 S) as [-> ->]. f_equal; [f_equal; eapply account_is_det; eassumption|apply IH, M2].
  - inversion H as [| |? ? above2 ls2 rs3 ls3 rs4 N2 M3 M4|]; subst. rewrite Nn in N2. injection N2 as <- <-. f_equal; [apply IH1, M3|apply IH2, M4].
  - inversion H; subst. auto.
Qed.
Lemma expands_app sets more es rs : expands sets es rs -> expands (sets ++ more) es rs.
Proof. induction 1; econstructor; eauto. rewrite nth_error_app1; [eassumption|]. apply nth_error_Some. congruence. Qed.
Lemma expands_cat sets es1 rs1 es2 rs2 : expands sets es1 rs1 -> expands sets es2 rs2 -> expands sets (es1 ++ es2) (rs1 ++ rs2).
Proof. intros H K. induction H; cbn [app]; [exact K|constructor; assumption|rewrite <- app_assoc; econstructor; eassumption]. Qed.

(** ** lookup *)
Lemma rule_for_first matches sets es rs : expands sets es rs -> exists N, forall fuel, N <= fuel -> forall payee,
  rule_for matches fuel sets payee es = Some (List.find (fun r => matches (r_pattern r) payee) rs).
Proof.
  assert (Fa : forall (f : rule -> bool) l1 l2, List.find f (l1 ++ l2) = match List.find f l1 with Some r => Some r | None => List.find f l2 end).
  { intros f l1 l2. induction l1 as [|x l1 IH]; [reflexivity|]. cbn. destruct (f x); auto. }
  induction 1 as [|r es rs H [N IH]|n s es rs1 rs2 E H1 [N1 IH1] H2 [N2 IH2]].
  - exists 0. intros fuel _ payee. destruct fuel; reflexivity.
  - exists N. intros fuel Hf payee. specialize (IH fuel Hf payee). destruct fuel; cbn in IH |- *; destruct (matches (r_pattern r) payee); auto.
  - exists (S (Nat.max N1 N2)). intros fuel Hf payee. destruct fuel as [|f]; [lia|]. specialize (IH1 f ltac:(lia) payee). specialize (IH2 (S f) ltac:(lia) payee).
    cbn [rule_for]. rewrite (nth_error_nth sets n _ E), IH1, Fa. destruct (List.find _ rs1); [reflexivity|]. exact IH2.
Qed.

(** ** maps *)
Lemma eqb_bytes_same a : eqb_bytes a a = true.
Proof. induction a as [|c a IH]; [reflexivity|]. cbn. rewrite eqc_same. exact IH. Qed.
Lemma eqb_bytes_true a : forall b, eqb_bytes a b = true -> a = b.
Proof. induction a as [|c a IH]; intros [|d b] H; try discriminate; [reflexivity|]. cbn in H. apply andb_true_iff in H as [H1 H2]. apply Ascii.eqb_eq in H1. subst. f_equal. apply IH, H2. Qed.
Lemma alookup_same {A} k (v : A) l : alookup k (aset k v l) = Some v.
Proof. induction l as [|[k' v'] l IH]; cbn; [rewrite eqb_bytes_same; reflexivity|]. destruct (eqb_bytes k k') eqn:E; cbn; [rewrite eqb_bytes_same; reflexivity|]. rewrite E. exact IH. Qed.
Lemma alookup_other {A} k k' (v : A) l : eqb_bytes k' k = false -> alookup k' (aset k v l) = alookup k' l.
Proof.
  intros N. induction l as [|[j w] l IH]; cbn; [rewrite N; reflexivity|]. destruct (eqb_bytes k j) eqn:E; cbn.
  - apply eqb_bytes_true in E. subst j. rewrite N. reflexivity.
  - destruct (eqb_bytes k' j); [reflexivity|exact IH].
Qed.
Lemma last_named_snoc n s sets : forall i f, last_named i n (sets ++ [s]) f = if eqb_bytes n (s_name s) then Some (i + List.length sets) else last_named i n sets f.
Proof.
  induction sets as [|x sets IH]; intros i f; cbn [app last_named List.length].
  - rewrite Nat.add_0_r. reflexivity.
  - rewrite IH. replace (S i + List.length sets) with (i + S (List.length sets)) by lia. reflexivity.
Qed.
Lemma set_nth_last n es sets s : set_nth (List.length sets) es (sets ++ [mkSet n s]) = sets ++ [mkSet n es].
Proof. induction sets as [|x sets IH]; cbn; [reflexivity|]. f_equal. exact IH. Qed.

(** ** reading *)
Section Reading.
Variable find : bytes -> res bytes.
Variable valid : bytes -> bool.
Let loop := rules_loop find valid.

Definition knows (ri : rindex) (sets : list ruleset) (n : bytes) (rs : list rule) : Prop :=
  exists i s, sets_by_name ri n = Some i /\ nth_error sets i = Some s /\ expands sets (s_rules s) rs.

Lemma add_note_last es r n : add_note (es ++ [ERule r]) n = es ++ [ERule (mkRule (r_account r) (r_pattern r) (r_notes r ++ [n]))].
Proof. unfold add_note. rewrite rev_app_distr. cbn [rev app]. rewrite rev_involutive. reflexivity. Qed.
Lemma notes_run ri tgt es r : forall ns nb rest, Forall2 line_is (map SNote ns) nb ->
  loop ri (Some (mkReading tgt (es ++ [ERule r]) true)) (nb ++ rest) =
  loop ri (Some (mkReading tgt (es ++ [ERule (mkRule (r_account r) (r_pattern r) (r_notes r ++ ns))]) true)) rest.
Proof.
  intros ns. revert r. induction ns as [|n ns IH]; intros r nb rest H; cbn [map] in H; inversion H as [|? b ? nb' L H']; subst; cbn [app].
  - destruct r. cbn. rewrite app_nil_r. reflexivity.
  - unfold loop. cbn [rules_loop]. inversion L as [| | |sp1 sp2 t S1 N1 S2 N2 Lt V]; subst. rewrite search_note by assumption. unfold body. cbn [cap String.eqb Ascii.eqb Bool.eqb g_last g_target g_entries bind].
    rewrite add_note_last. fold loop. rewrite IH by exact H'. cbn [r_account r_pattern r_notes]. rewrite <- app_assoc. reflexivity.
Qed.
Lemma body_run ri sets above ls rs : means find above ls rs -> forall bls, Forall2 line_is ls bls ->
  (forall a p, In (SRule a p) ls -> valid p = true) ->
  (forall n above' ls' rs', In (SSet n) ls -> nearest n above = Some (above', ls') -> means find above' ls' rs' -> knows ri sets n rs') ->
  forall tgt es0 last, (last = true -> starts_with_note ls = false) ->
  exists es last', expands sets es rs /\
    forall rest, loop ri (Some (mkReading tgt es0 last)) (bls ++ rest) = loop ri (Some (mkReading tgt (es0 ++ es) last')) rest.
Proof.
  induction 1 as [above|above a p acc notes ls rs A S M IH|above n above' ls' rs' ls rs Nn M1 IH1 M2 IH2|above n ls rs M IH]; intros bls F V K tgt es0 last Hl.
  - inversion F; subst. exists [], last. split; [constructor|]. intros rest. rewrite app_nil_r. reflexivity.
  - inversion F as [|? b ? bls' Lb F']; subst. apply Forall2_app_inv_l in F' as (nb & b2 & Fn & F2 & ->).
    destruct (IH b2 F2) with (tgt := tgt) (es0 := es0 ++ [ERule (mkRule acc p notes)]) (last := true) as (es & last' & X & R).
    { intros a' p' I. apply (V a' p'). right. apply in_or_app. right. exact I. }
    { intros n above' ls' rs' I. apply K. right. apply in_or_app. right. exact I. }
    { intros _. exact S. }
    exists (ERule (mkRule acc p notes) :: es), last'. split; [constructor; exact X|]. intros rest. cbn [app]. unfold loop. cbn [rules_loop].
    assert (C : exists r cs, rprefix bodyRE b = Some (r, cs) /\ cap "1" cs = a /\ a <> [] /\ cap "3" cs = p).
    { inversion Lb as [sp1 ? sp2 ? sp3 S1 N1 At S2 N2 Pt Np S3|sp1 ? sp2 S1 N1 At S2| |]; subst.
      - rewrite search_rule by assumption. eexists _, _. split; [reflexivity|]. split; [reflexivity|]. split; [apply At|reflexivity].
      - rewrite search_any by assumption. eexists _, _. split; [reflexivity|]. split; [reflexivity|]. split; [apply At|reflexivity]. }
    destruct C as (r & cs & -> & C1 & Na & C3). unfold body. rewrite C1, C3. destruct a as [|c0 a0]; [congruence|]. set (a := c0 :: a0) in *.
    assert (EA : (if eqb_bytes a (B "--") then Ok None else do a1 <- find a; Ok (Some a1)) = Ok acc).
    { destruct A as [[-> ->]|(A & n & -> & ->)]; [reflexivity|]. destruct (eqb_bytes a (B "--")) eqn:E; [apply eqb_bytes_true in E; congruence|]. reflexivity. }
    rewrite EA. cbn [bind]. rewrite (V a p (or_introl eq_refl)). cbn [bind g_target g_entries]. fold loop. rewrite <- app_assoc, (notes_run _ _ _ _ _ _ _ Fn). cbn [r_account r_pattern r_notes app].
    rewrite R. rewrite <- app_assoc. reflexivity.
  - inversion F as [|? b ? bls' Lb F']; subst. destruct (K n above' ls' rs' (or_introl eq_refl) Nn M1) as (i & s & E1 & E2 & E3).
    destruct (IH2 bls' F') with (tgt := tgt) (es0 := es0 ++ [ESet i]) (last := false) as (es & last' & X & R).
    { intros a' p' I. apply (V a' p'). right. exact I. }
    { intros n0 a0 l0 r0 I. apply K. right. exact I. }
    { discriminate. }
    exists (ESet i :: es), last'. split; [econstructor; eassumption|]. intros rest. cbn [app]. unfold loop. cbn [rules_loop].
    inversion Lb as [| |sp1 ? sp2 S1 N1 W S2|]; subst. rewrite search_set by assumption. unfold body. cbn [cap String.eqb Ascii.eqb Bool.eqb]. destruct n as [|c0 n0]; [destruct W; congruence|].
    rewrite E1. cbn [bind g_target g_entries]. fold loop. rewrite R, <- app_assoc. reflexivity.
  - inversion F as [|? b ? bls' Lb F']; subst. assert (last = false) by (destruct last; [specialize (Hl eq_refl); discriminate Hl|reflexivity]). subst last.
    destruct (IH bls' F') with (tgt := tgt) (es0 := es0) (last := false) as (es & last' & X & R).
    { intros a' p' I. apply (V a' p'). right. exact I. }
    { intros n0 a0 l0 r0 I. apply K. right. exact I. }
    { discriminate. }
    exists es, last'. split; [exact X|]. intros rest. cbn [app]. unfold loop. cbn [rules_loop].
    inversion Lb as [| | |sp1 sp2 t S1 N1 S2 N2 Lt Vt]; subst. rewrite search_note by assumption. unfold body. cbn [cap String.eqb Ascii.eqb Bool.eqb g_last bind]. fold loop. apply R.
Qed.

(** headers *)
Definition start (ri : rindex) (h : shead) (n : bytes) : rindex * option reading :=
  match h with
  | HAccount id _ => (mkIndex (aset id (mkARules n []) (ri_accounts ri)) (ri_sets ri), Some (mkReading (TAccount id) [] false))
  | HSet s => (mkIndex (ri_accounts ri) (ri_sets ri ++ [mkSet s []]), Some (mkReading (TSet (List.length (ri_sets ri))) [] false))
  end.
Lemma drop_space_all sp : forallb is_space sp = true -> forall t, drop_space (sp ++ t) = drop_space t.
Proof. induction sp as [|c sp IH]; intros H t; [reflexivity|]. cbn [forallb] in H. apply andb_true_iff in H as [H1 H2]. cbn [app drop_space]. rewrite (space_ascii _ H1). apply IH, H2. Qed.
Lemma trim_end t sp : (exists c r, t = c :: r /\ is_ascii_space c = false) -> (exists r d, t = r ++ [d] /\ is_ascii_space d = false) -> forallb is_space sp = true -> trim_space (t ++ sp) = t.
Proof.
  intros (c & r & Et & Hc) (r' & d & Et' & Hd) S. unfold trim_space.
  assert (D : drop_space (t ++ sp) = t ++ sp) by (rewrite Et; cbn [app drop_space]; rewrite Hc; reflexivity).
  rewrite D, rev_app_distr, drop_space_all by (rewrite forallb_forall in *; intros x I; apply S, in_rev, I).
  rewrite Et', rev_app_distr. cbn [rev app drop_space]. rewrite Hd. rewrite <- (rev_involutive (r' ++ [d])), rev_app_distr. reflexivity.
Qed.
Lemma last_char (f : ascii -> bool) s : s <> [] -> forallb f s = true -> exists r d, s = r ++ [d] /\ f d = true.
Proof.
  intros N F. destruct (exists_last N) as (r & d & ->). rewrite forallb_app in F. apply andb_true_iff in F as [_ F]. cbn in F. exists r, d. split; [reflexivity|]. destruct (f d); [reflexivity|discriminate].
Qed.
Lemma head_run h hl ri n : head_is h hl -> (forall id a, h = HAccount id a -> find a = Ok n) ->
  header find ri hl = Ok (start ri h n) /\ header find ri (trim_space hl) = Ok (start ri h n) /\ rprefix bodyRE hl = None.
Proof.
  intros H Hn.
  assert (G : forall c r, is_word c = true -> rprefix bodyRE (c :: r) = None).
  { intros c r E. apply word_not_space in E. apply fails_rprefix. rewrite bodyRE_eq. assert (G : forall b, fails (RSeq (rplus s_) b) (c :: r)) by (intros b; apply fails_seq_l; unfold rplus; apply fails_seq_l, fails_set; exact E).
    apply fails_alt; [|apply fails_alt]; apply G. }
  destruct H as [id sp1 a sp2 W S1 N1 A S2|s sp W S].
  - assert (Eh : forall sp2, spaces sp2 -> header find ri (id ++ sp1 ++ a ++ sp2) = Ok (start ri (HAccount id a) n)).
    { intros sp S. unfold header. rewrite search_head_account by assumption. cbn [cap String.eqb Ascii.eqb Bool.eqb]. destruct W as [Nw W]. destruct id as [|c id]; [congruence|]. rewrite (Hn _ _ eq_refl). reflexivity. }
    split; [apply Eh, S2|]. destruct W as [Nw W]. destruct id as [|c id0] eqn:Eid; [congruence|]. pose proof W as W0. cbn in W. apply andb_true_iff in W as [W1 W2]. rewrite <- Eid in *. split.
    + replace (id ++ sp1 ++ a ++ sp2) with ((id ++ sp1 ++ a) ++ sp2) by (rewrite <- !app_assoc; reflexivity). rewrite trim_end.
      * replace (id ++ sp1 ++ a) with (id ++ sp1 ++ a ++ []) by (rewrite app_nil_r; reflexivity). apply Eh. split; [reflexivity|constructor].
      * exists c. subst id. eexists. split; [reflexivity|]. apply word_not_ascii, W1.
      * destruct (last_char is_pat a (proj1 (acc_pat a A)) (proj2 (acc_pat a A))) as (r & d & -> & Hd). exists (id ++ sp1 ++ r), d. split; [rewrite <- !app_assoc; reflexivity|]. apply pat_not_ascii, Hd.
      * apply S2.
    + subst id. cbn [app]. apply G, W1.
  - assert (Eh : forall sp, spaces sp -> header find ri (s ++ sp) = Ok (start ri (HSet s) n)).
    { intros sp0 S0. unfold header. rewrite search_head_set by assumption. cbn [cap String.eqb Ascii.eqb Bool.eqb]. reflexivity. }
    split; [apply Eh, S|]. destruct W as [Nw W]. destruct s as [|c s'] eqn:Es; [congruence|]. pose proof W as W0. cbn in W. apply andb_true_iff in W as [W1 W2]. rewrite <- Es in *. split.
    + rewrite trim_end; [specialize (Eh []); rewrite app_nil_r in Eh; apply Eh; split; [reflexivity|constructor]| | |apply S].
      * exists c, s'. split; [exact Es|]. apply word_not_ascii, W1.
      * destruct (last_char is_word s Nw W0) as (r & d & -> & Hd). exists r, d. split; [reflexivity|]. apply word_not_ascii, Hd.
    + rewrite Es. cbn [app]. apply G, W1.
Qed.
Lemma loop_head h hl ri g n rest : head_is h hl -> (forall id a, h = HAccount id a -> find a = Ok n) ->
  loop ri g (hl :: rest) = loop (fst (start (finish ri g) h n)) (snd (start (finish ri g) h n)) rest.
Proof.
  intros H Hn. destruct (head_run h hl (finish ri g) n H Hn) as (E1 & E2 & E3). unfold loop. cbn [rules_loop]. destruct g as [g|].
  - rewrite E3, E1. reflexivity.
  - cbn [finish] in *. rewrite E2. reflexivity.
Qed.
Lemma seps_run seps : Forall between seps -> forall ri g, exists ri2 g2, finish ri2 g2 = finish ri g /\ forall rest, loop ri g (seps ++ rest) = loop ri2 g2 rest.
Proof.
  induction 1 as [|l seps Hb H IH]; intros ri g; [exists ri, g; auto|]. destruct (header_between l Hb) as [H1 H2]. pose proof (search_between l Hb) as H3.
  destruct (IH (finish ri g) None) as (ri2 & g2 & E1 & E2). exists ri2, g2. split; [exact E1|]. intros rest. rewrite <- E2. unfold loop. cbn [app rules_loop]. destruct g as [g|].
  - rewrite H3. unfold header. rewrite H1. reflexivity.
  - unfold header. rewrite H2. reflexivity.
Qed.

(** what the index knows after the groups [above] *)
Definition inv (ri : rindex) (above : list sgroup) : Prop :=
  (forall n above' ls' rs, nearest n above = Some (above', ls') -> means find above' ls' rs -> knows ri (ri_sets ri) n rs) /\
  (forall id above' a ls' rs n, group_for id above = Some (above', a, ls') -> means find above' ls' rs -> find a = Ok n ->
     exists ars, alookup id (ri_accounts ri) = Some ars /\ ar_account ars = n /\ expands (ri_sets ri) (ar_rules ars) rs) /\
  (forall id, group_for id above = None -> alookup id (ri_accounts ri) = None).
Lemma knows_ext ri accts sets' n rs s es : knows ri (ri_sets ri) n rs -> eqb_bytes n s = false ->
  sets' = ri_sets ri ++ [mkSet s es] -> knows (mkIndex accts sets') (ri_sets ri) n rs /\ knows (mkIndex accts sets') sets' n rs.
Proof.
  intros (i & st & E1 & E2 & E3) N ->. assert (S : sets_by_name (mkIndex accts (ri_sets ri ++ [mkSet s es])) n = Some i).
  { unfold sets_by_name in *. cbn [ri_sets]. rewrite last_named_snoc. cbn [s_name]. rewrite N. exact E1. }
  split; exists i, st; (split; [exact S|]); [auto|]. split; [rewrite nth_error_app1; [exact E2|apply nth_error_Some; congruence]|apply expands_app, E3].
Qed.
Lemma groups_run gs lines : groups_are gs lines -> forall above ri g, good_file find valid above gs -> inv (finish ri g) above ->
  exists ri', loop ri g lines = Ok ri' /\ inv ri' (rev gs ++ above).
Proof.
  induction 1 as [|h ls gs hl bls seps rest Hh Fl Fs Hg IH]; intros above ri g Good Inv.
  - exists (finish ri g). split; [reflexivity|exact Inv].
  - destruct Good as [((rs & M) & V & NoSelf & Acc) Good]. cbn [fst snd] in *. remember (finish ri g) as ri0 eqn:E0.
    assert (An : exists n, forall id a, h = HAccount id a -> find a = Ok n).
    { destruct h as [id a|s]; [|exists []; discriminate]. destruct (Acc id a eq_refl) as [n En]. exists n. intros ? ? E. injection E as <- <-. exact En. }
    destruct An as [n Hn]. destruct (seps_run seps Fs) with (ri := fst (start ri0 h n)) (g := @None reading) as (_ & _ & _ & _).
    destruct Inv as (I1 & I2 & I3).
    assert (St : exists tgt, snd (start ri0 h n) = Some (mkReading tgt [] false)) by (destruct h; eexists; reflexivity). destruct St as [tgt Et].
    destruct (body_run (fst (start ri0 h n)) (ri_sets ri0) above ls rs M bls Fl V) with (tgt := tgt) (es0 := @nil rentry) (last := false) as (es & last' & X & R).
    { intros m above' ls' rs' Im Nm Mm. destruct h as [id a|s]; cbn [start fst].
      - destruct (I1 _ _ _ _ Nm Mm) as (i & st & E1 & E2 & E3). exists i, st. auto.
      - assert (Nq : eqb_bytes m s = false). { destruct (eqb_bytes m s) eqn:E; [|reflexivity]. apply eqb_bytes_true in E. subst m. exfalso. apply (NoSelf s eq_refl), Im. }
        apply (knows_ext ri0 (ri_accounts ri0) _ m rs' s [] (I1 _ _ _ _ Nm Mm) Nq eq_refl). }
    { discriminate. }
    cbn [app] in R. destruct (seps_run seps Fs (fst (start ri0 h n)) (Some (mkReading tgt es last'))) as (ri2 & g2 & F2 & R2).
    destruct (IH ((h, ls) :: above) ri2 g2 Good) as (ri' & R3 & Inv').
    { rewrite F2. clear R R2 IH. destruct h as [id a|s]; cbn [start fst snd] in Et |- *; injection Et as <-; cbn [finish g_target g_entries ri_accounts ri_sets].
      - rewrite alookup_same. cbn [ar_account]. split; [|split]; cbn [ri_sets ri_accounts].
        + intros m above' ls' rs' Nm Mm. cbn [nearest] in Nm. destruct (I1 _ _ _ _ Nm Mm) as (i & st & E1 & E2 & E3). exists i, st. auto.
        + intros id' above' a' ls' rs' n' Gm Mm Fm. cbn [group_for] in Gm. destruct (eqb_bytes id' id) eqn:E.
          * apply eqb_bytes_true in E. subst id'. injection Gm as <- <- <-. exists (mkARules n es). split; [apply alookup_same|]. split; [cbn; specialize (Hn id a eq_refl); congruence|].
            cbn [ar_rules]. rewrite (means_det _ _ _ _ Mm _ M). exact X.
          * destruct (I2 _ _ _ _ _ _ Gm Mm Fm) as (ars & E1 & E2 & E3). exists ars. split; [rewrite !alookup_other by exact E; exact E1|]. auto.
        + intros id' Gm. cbn [group_for] in Gm. destruct (eqb_bytes id' id) eqn:E; [discriminate|]. rewrite !alookup_other by exact E. apply I3, Gm.
      - rewrite set_nth_last. split; [|split]; cbn [ri_sets ri_accounts].
        + intros m above' ls' rs' Nm Mm. cbn [nearest] in Nm. destruct (eqb_bytes m s) eqn:E.
          * injection Nm as <- <-. exists (List.length (ri_sets ri0)), (mkSet s es). split.
            { unfold sets_by_name. cbn [ri_sets]. rewrite last_named_snoc. cbn [s_name]. rewrite E. reflexivity. }
            split; [rewrite nth_error_app2, Nat.sub_diag by lia; reflexivity|]. cbn [s_rules]. apply expands_app. rewrite (means_det _ _ _ _ Mm _ M). exact X.
          * apply (knows_ext ri0 (ri_accounts ri0) _ m rs' s es (I1 _ _ _ _ Nm Mm) E eq_refl).
        + intros id' above' a' ls' rs' n' Gm Mm Fm. cbn [group_for] in Gm. destruct (I2 _ _ _ _ _ _ Gm Mm Fm) as (ars & E1 & E2 & E3). exists ars. split; [exact E1|]. split; [exact E2|]. apply expands_app, E3.
        + intros id' Gm. cbn [group_for] in Gm. apply I3, Gm. }
    exists ri'. split.
    + rewrite (loop_head h hl ri g n _ Hh Hn), <- E0, Et, R, R2. exact R3.
    + cbn [rev]. rewrite <- app_assoc. exact Inv'.
Qed.
Lemma file_run gs lines : file_is gs lines -> lines <> [] -> good_file find valid [] gs ->
  exists line rest ri, lines = line :: rest /\ scan_rules find valid line rest = Ok ri /\ inv ri (rev gs).
Proof.
  intros (seps & rest & -> & Fs & Hg) Ne Good.
  assert (I0 : inv empty_index []) by (split; [|split]; discriminate || reflexivity).
  destruct (seps_run seps Fs empty_index None) as (ri2 & g2 & F2 & R2). destruct (groups_run gs rest Hg [] ri2 g2 Good) as (ri' & R3 & Inv'); [rewrite F2; exact I0|].
  rewrite app_nil_r in Inv'. specialize (R2 rest). rewrite R3 in R2.
  destruct seps as [|l seps]; cbn [app] in *.
  - inversion Hg as [|h ls gs' hl bls seps rest' Hh _ _ _]; subst; [congruence|]. eexists _, _, ri'. split; [reflexivity|]. split; [|exact Inv'].
    assert (An : exists n, forall id a, h = HAccount id a -> find a = Ok n).
    { destruct Good as [(_ & _ & _ & Acc) _]. destruct h as [id a|s]; [|exists []; discriminate]. destruct (Acc id a eq_refl) as [n En]. exists n. intros ? ? E. injection E as <- <-. exact En. }
    destruct An as [n Hn]. unfold scan_rules. rewrite (proj1 (head_run h hl empty_index n Hh Hn)). cbn [bind]. rewrite <- R2. symmetry. exact (loop_head h hl empty_index None n _ Hh Hn).
  - eexists _, _, ri'. split; [reflexivity|]. split; [|exact Inv']. inversion Fs as [|? ? Hb _]; subst. destruct (header_between l Hb) as [H1 H2].
    unfold scan_rules, header. rewrite H1. cbn [bind fst snd]. rewrite <- R2. unfold loop. cbn [rules_loop]. unfold header. rewrite H2. reflexivity.
Qed.
End Reading.
