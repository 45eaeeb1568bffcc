(** C142-C144: which accounts a pattern means. *)
From Coq Require Import Permutation.
From Verif Require Import Base M_Regex M_Names M_Pattern S_Names S_Ledger S_Pattern L_Dec L_Regex L_RegexSound L_Names L_RoundTrip L_Pattern Properties_Names.

(** the characters of account names *)
Definition name_text (s : bytes) : Prop := Forall (fun c => part_of_name c \/ c = ":"%char) s.
Definition mark (on : bool) (c : string) : bytes := if on then B c else [].

Lemma name_all s : name_text s <-> all_part s.
Proof.
  unfold name_text, all_part. rewrite forallb_forall, Forall_forall. split; intros H c I; specialize (H c I); [apply orb_true_iff|apply orb_true_iff in H]; rewrite part_char_iff in *; unfold eqc in *; rewrite Ascii.eqb_eq in *; tauto.
Qed.
Lemma mm_to_regex w js (fin : bool) s s' : plain w -> Forall (fun j => snd j <> [] /\ plain (snd j)) js -> all_part s ->
  (mm (to_regex (pattern_text w js ++ mark fin "$")) s s' <->
   exists w' m, s = w' ++ m ++ s' /\ same_letters w w' /\ spells js m /\ (fin = true -> s' = [])).
Proof.
  intros Pw F A. assert (F1 : Forall (fun j => snd j <> []) js) by (eapply Forall_impl; [|exact F]; cbv beta; tauto). assert (F2 : Forall (fun j => plain (snd j)) js) by (eapply Forall_impl; [|exact F]; cbv beta; tauto).
  assert (Nc : forall v, plain v -> ~ In ":"%char v) by (intros v P; apply (plain_not v _ P); cbn; auto).
  assert (Nd : forall v, plain v -> ~ In ":"%char (v ++ B "$")) by (intros v P I; apply in_app_iff in I as [I|[I|[]]]; [exact (Nc v P I)|discriminate I]).
  assert (M : mm (to_regex (pattern_text w js ++ mark fin "$")) s s' <-> exists s1, mm (word_rx w) s s1 /\ path js s1 s' /\ (fin = true -> s' = [])).
  { destruct fin; cbn [mark].
    - destruct (rev js) as [|[n v] kr] eqn:Er.
      + assert (js = []) by (rewrite <- (rev_involutive js), Er; reflexivity). subst js. unfold pattern_text. cbn [flat_map]. rewrite app_nil_r.
        assert (E : to_regex (w ++ B "$") = word_rx (w ++ B "$")). { unfold to_regex. pose proof (text_words (w ++ B "$") [] (Nd w Pw) (Forall_nil _)) as T. unfold pattern_text in T. cbn [flat_map] in T. rewrite app_nil_r in T. rewrite T. reflexivity. }
        rewrite E, (mm_word_end w Pw). cbn [path]. split; [intros (H & ->); exists []; auto|intros (s1 & H & -> & K); rewrite (K eq_refl) in *; auto].
      + assert (Ej : js = rev kr ++ [(n, v)]) by (rewrite <- (rev_involutive js), Er; reflexivity). set (k := rev kr) in *. clearbody k. subst js. apply Forall_app in F as (Fk & Fv). inversion Fv as [|? ? (Hv & Pv) _]; subst. cbn [snd] in Hv, Pv. apply Forall_app in F1 as (F1 & _). apply Forall_app in F2 as (F2 & _).
        assert (E : pattern_text w (k ++ [(n, v)]) ++ B "$" = pattern_text w (k ++ [(n, v ++ B "$")])). { unfold pattern_text. rewrite !flat_map_app. cbn [flat_map fst snd]. rewrite !app_nil_r, <- !app_assoc. reflexivity. }
        rewrite E. unfold to_regex. rewrite text_words; [|apply Nc, Pw|apply Forall_app; split; [eapply Forall_impl; [|exact F2]; intros j; apply Nc|constructor; [apply Nd, Pv|constructor]]].
        rewrite mm_words; [|apply Forall_app; split; [exact F1|constructor; [destruct v; discriminate|constructor]]]. split.
        * intros (s1 & H & K). apply path_app in K as (s2 & K1 & K2). cbn [path] in K2. destruct K2 as (gap & a & c & -> & G & W & ->). apply (mm_word_end v Pv) in W as (W & ->). exists s1. split; [exact H|]. split; [|auto].
          apply path_app. exists (gap ++ a). split; [exact K1|]. cbn [path]. exists gap, a, []. auto.
        * intros (s1 & H & K & Z). specialize (Z eq_refl). subst s'. exists s1. split; [exact H|]. apply path_app in K as (s2 & K1 & K2). cbn [path] in K2. destruct K2 as (gap & a & c & -> & G & W & ->).
          apply path_app. exists (gap ++ a). split; [exact K1|]. cbn [path]. exists gap, a, []. split; [reflexivity|]. split; [exact G|]. split; [apply (mm_word_end v Pv); auto|reflexivity].
    - rewrite app_nil_r. unfold to_regex. rewrite text_words; [|apply Nc, Pw|eapply Forall_impl; [|exact F2]; intros j; apply Nc]. rewrite (mm_words js F1). split; intros (s1 & H & K); exists s1; [repeat split; try tauto; discriminate|tauto]. }
  rewrite M. split.
  - intros (s1 & H & K & Z). apply (mm_word w Pw) in H as (w' & -> & L). unfold all_part in A. rewrite forallb_app, andb_true_iff in A. apply (path_spells js F2) in K as (m & -> & Sp); [|apply A]. exists w', m. auto.
  - intros (w' & m & -> & L & Sp & Z). exists (m ++ s'). split; [apply (mm_word w Pw); eauto|]. split; [|exact Z]. unfold all_part in A. rewrite forallb_app, andb_true_iff in A. apply (path_spells js F2); [apply A|]. eauto.
Qed.
Lemma unmarked_match p name : (forall q, p <> "^"%char :: q) -> account_match p name = match rsearch (to_regex p) name with Some _ => true | None => false end.
Proof. intros H. unfold account_match. destruct p as [|c p]; [reflexivity|]. destruct (eqc c "^"%char) eqn:E; [|reflexivity]. apply Ascii.eqb_eq in E as ->. destruct (H p eq_refl). Qed.
(** ** C142 *)
(** A pattern of plain words matches a name exactly if the words occur in it in order, in either case, with exactly one colon
    between words joined by one colon and anything between words joined by more. After ^ at its start, before $ at its end. *)
Theorem C142_pattern : forall (first fin : bool) w js name, plain w -> Forall (fun j => snd j <> [] /\ plain (snd j)) js -> name_text name ->
  account_match (mark first "^" ++ pattern_text w js ++ mark fin "$") name = true <->
  exists pre w' m post, name = pre ++ w' ++ m ++ post /\ same_letters w w' /\ spells js m /\ (first = true -> pre = []) /\ (fin = true -> post = []).
Proof.
  intros first fin w js name Pw F A. apply name_all in A. destruct first; cbn [mark].
  - cbn [app B list_ascii_of_string]. unfold account_match. change (eqc "^" "^") with true. cbn iota. rewrite prefix_mm. split.
    + intros (rest & H). apply mm_to_regex in H as (w' & m & -> & L & Sp & Z); [|exact Pw|exact F|exact A]. exists [], w', m, rest. auto.
    + intros (pre & w' & m & post & -> & L & Sp & Z1 & Z). rewrite (Z1 eq_refl) in *. exists post. apply mm_to_regex; [exact Pw|exact F|exact A|]. exists w', m. auto.
  - cbn [app]. rewrite unmarked_match.
    2:{ intros q E. assert (X : forall v, plain v -> forall l, v <> "^"%char :: l) by (intros v P l ->; apply (plain_not _ "^"%char P); cbn; auto). destruct w as [|c w].
        - destruct js as [|[n v] js]; cbn in E; [destruct fin; discriminate E|discriminate E].
        - cbn in E. injection E as -> _. exact (X _ Pw w eq_refl). }
    rewrite found_mm. split.
    + intros (pre & s1 & rest & -> & H). unfold all_part in A. rewrite forallb_app, andb_true_iff in A. apply mm_to_regex in H as (w' & m & -> & L & Sp & Z); [|exact Pw|exact F|apply A]. exists pre, w', m, rest. repeat split; auto; discriminate.
    + intros (pre & w' & m & post & -> & L & Sp & _ & Z). exists pre, (w' ++ m ++ post), post. split; [reflexivity|]. unfold all_part in A. rewrite forallb_app, andb_true_iff in A. apply mm_to_regex; [exact Pw|exact F|apply A|]. eauto 8.
Qed.
Print Assumptions C142_pattern.
(** The patterns of the README, and those of the test of the package. *)
Definition readme_name : bytes := B "Assets:Investments:Broker:RRSP:Joe:VGRO".
Example C142_example :
  (plain (B "A") /\ Forall (fun j => snd j <> [] /\ plain (snd j)) [(0%nat, B "I"); (1%nat, B "Joe")] /\ name_text readme_name) /\
  pattern_text (B "A") [(0%nat, B "I"); (1%nat, B "Joe")] = B "A:I::Joe" /\
  forallb (fun p => account_match p readme_name) [B "Joe:VGRO"; B "A:I::Joe"; B "Broker::VGRO"; B "^a:i::joe:vgro$"] = true /\
  forallb (fun p => negb (account_match p readme_name)) [B "^Joe"; B "Broker:VGRO"; B "rrsp$"; B "VGRO:Joe"] = true /\
  map (account_match (B "e::c")) [B "Expenses:Travel:CAD"; B "Expenses:CAD"; B "Investments:Forex:CAD"; B "Expenses"; B "Root"] = [true; true; true; false; false] /\
  map (account_match (B "l::mc$")) [B "Liabilities:Credit:MC"; B "Liabilities:Credit:MC2"; B "Liabilities:Credit:MC:XX"] = [true; false; false].
Proof.
  split; [|vm_compute; repeat split; reflexivity]. repeat split.
  - apply Forall_forall. intros c I. apply part_char_iff. cbn in I. destruct I as [<-|[]]. reflexivity.
  - repeat constructor; cbn [snd]; try discriminate; apply Forall_forall; intros c I; apply part_char_iff; cbn in I; repeat (destruct I as [<-|I]; [reflexivity|]); destruct I.
  - apply name_all. reflexivity.
Qed.

Lemma same_letter_trans a b c : same_letter a b -> same_letter b c -> same_letter a c.
Proof. intros H1 H2. apply lower_same in H1. apply lower_same in H2. apply lower_same. unfold eqc in *. rewrite Ascii.eqb_eq in *. congruence. Qed.
Lemma same_letter_sym a b : same_letter a b -> same_letter b a.
Proof. intros H. apply lower_same in H. apply lower_same. unfold eqc in *. rewrite Ascii.eqb_eq in *. congruence. Qed.
Lemma same_letters_trans a b c : same_letters a b -> same_letters b c -> same_letters a c.
Proof.
  unfold same_letters. intros H. revert c. induction H as [|x y a b Hx H IH]; intros c K; inversion K; subst; constructor; [eapply same_letter_trans; eassumption|auto].
Qed.
Lemma same_letters_sym a b : same_letters a b -> same_letters b a.
Proof. unfold same_letters. intros H. induction H; constructor; [apply same_letter_sym; assumption|assumption]. Qed.
Definition same_joints (js ks : list joint) : Prop := Forall2 (fun j k => fst j = fst k /\ same_letters (snd j) (snd k)) js ks.
Lemma same_spells js ks : same_joints js ks -> forall m, spells js m -> spells ks m.
Proof.
  unfold same_joints. intros F. induction F as [|[n w] [n2 v] js ks (En & Ew) F IH]; intros m Sp; inversion Sp as [|? ? ? gap w' s L C Sp2]; subst; [constructor|]. cbn [fst snd] in *. subst n2.
  constructor; [eapply same_letters_trans; [apply same_letters_sym, Ew|exact L]|exact C|apply IH, Sp2].
Qed.
Lemma same_joints_sym js ks : same_joints js ks -> same_joints ks js.
Proof. unfold same_joints. intros F. induction F as [|j k js ks (E1 & E2) F IH]; constructor; [split; [congruence|apply same_letters_sym, E2]|exact IH]. Qed.
(** Patterns that differ only in the case of letters match the same names. *)
Theorem C142_case : forall (first fin : bool) w v js ks name, plain w -> plain v -> Forall (fun j => snd j <> [] /\ plain (snd j)) js -> Forall (fun j => snd j <> [] /\ plain (snd j)) ks -> name_text name ->
  same_letters w v -> same_joints js ks ->
  account_match (mark first "^" ++ pattern_text w js ++ mark fin "$") name = account_match (mark first "^" ++ pattern_text v ks ++ mark fin "$") name.
Proof.
  intros first fin w v js ks name Pw Pv Fj Fk N E Ej. pose proof (C142_pattern first fin w js name Pw Fj N) as M1. pose proof (C142_pattern first fin v ks name Pv Fk N) as M2.
  apply Bool.eq_iff_eq_true. rewrite M1, M2. split; intros (pre & w' & m & post & H & L & Sp & Z); exists pre, w', m, post; (split; [exact H|]).
  - split; [eapply same_letters_trans; [apply same_letters_sym, E|exact L]|]. split; [eapply same_spells; eassumption|exact Z].
  - split; [eapply same_letters_trans; eassumption|]. split; [eapply same_spells; [apply same_joints_sym|]; eassumption|exact Z].
Qed.
Print Assumptions C142_case.
(** ** C143 *)
(** the elements of an account name *)
Definition an_element (e : bytes) : Prop := plain e.
Definition name_of (elements : list bytes) : bytes := join (B ":") elements.
Lemma plain_free e : plain e -> colon_free e.
Proof. intros P. apply (plain_not e _ P). cbn. auto. Qed.
Lemma name_of_text els : Forall an_element els -> name_text (name_of els).
Proof.
  intros F. apply Forall_forall. intros c I. unfold name_of in I. revert c I. induction F as [|e els He F IH]; intros c I; [destruct I|].
  rewrite join_cons in I. apply in_app_iff in I as [I|I]; [left; unfold an_element, plain in He; rewrite Forall_forall in He; apply He, I|]. destruct els; [destruct I|]. destruct I as [<-|I]; [right; reflexivity|apply IH, I].
Qed.
(** Words joined by single colons match a name exactly if consecutive elements of the name contain the words, one each. *)
Theorem C143_elements : forall w ws elements, plain w -> Forall (fun v => v <> [] /\ plain v) ws -> elements <> [] -> Forall an_element elements ->
  account_match (join (B ":") (w :: ws)) (name_of elements) = true <->
  exists before these after, elements = before ++ these ++ after /\ Forall2 contains (w :: ws) these.
Proof.
  intros w ws els Pw Fw N Fe. assert (Fj : Forall (fun j => snd j <> [] /\ plain (snd j)) (ones ws)) by (unfold ones; rewrite Forall_map; exact Fw).
  assert (Pws : Forall plain ws) by (eapply Forall_impl; [|exact Fw]; cbv beta; tauto). assert (Ff : Forall colon_free els) by (eapply Forall_impl; [|exact Fe]; intros e; apply plain_free).
  pose proof (C142_pattern false false w (ones ws) (name_of els) Pw Fj (name_of_text els Fe)) as M. cbn [mark app] in M. rewrite app_nil_r, words_text in M. change (B ":") with [":"%char]. rewrite M. split.
  - intros (pre & w' & m & post & E & L & Sp & _). destruct (spelled_elements ws Pws els pre w w' m post Pw N Ff E L Sp) as (a & es & b & H & F & _). exists a, es, b. auto.
  - intros (a & es & b & -> & F). apply Forall_app in Ff as (_ & Ff). apply Forall_app in Ff as (Ff & _). destruct (elements_spelled ws w es Ff F) as (x & w' & m & y & E & _ & L & Sp).
    destruct (join_parts a es b) as (x2 & y2 & E2); [inversion F; discriminate|]. exists (x2 ++ x), w', m, (y ++ y2). split; [|split; [exact L|split; [exact Sp|split; discriminate]]]. unfold name_of. change (B ":") with [":"%char]. rewrite E2, E, <- !app_assoc. reflexivity.
Qed.
Print Assumptions C143_elements.
Example C143_example :
  account_match (B "inv:bro") readme_name = true /\ name_of [B "Assets"; B "Investments"; B "Broker"; B "RRSP"; B "Joe"; B "VGRO"] = readme_name /\
  contains (B "inv") (B "Investments").
Proof. split; [vm_compute; reflexivity|]. split; [reflexivity|]. exists [], (B "Inv"), (B "estments"). split; [reflexivity|]. unfold same_letters. repeat (constructor; [apply lower_same; reflexivity|]). constructor. Qed.
Lemma same_letter_refl c : same_letter c c.
Proof. left. reflexivity. Qed.
Lemma contains_self e : contains e e.
Proof. exists [], e, []. rewrite app_nil_r. split; [reflexivity|]. unfold same_letters. induction e; constructor; [apply same_letter_refl|assumption]. Qed.
(** An account's own name matches it, and so does that of every account it is below. *)
Theorem C143_own_name : forall elements below, elements <> [] -> Forall (fun e => e <> [] /\ an_element e) elements -> Forall an_element below ->
  account_match (name_of elements) (name_of (elements ++ below)) = true.
Proof.
  intros els below N F Fb. destruct els as [|e els]; [congruence|]. inversion F as [|? ? (_ & He) F2]; subst. apply C143_elements; [exact He|exact F2|discriminate| |].
  - apply Forall_app. split; [eapply Forall_impl; [|exact F]; cbv beta; tauto|exact Fb].
  - exists [], (e :: els), below. split; [reflexivity|]. assert (S : forall l, Forall2 contains l l) by (induction l; constructor; [apply contains_self|assumption]). apply S.
Qed.
Print Assumptions C143_own_name.
(** Words joined by several colons: a later element containing the second word is enough (any number of elements between). *)
Theorem C143_skips_partial : forall n w v a e1 b e2 c, plain w -> v <> [] -> plain v -> Forall an_element (a ++ e1 :: b ++ e2 :: c) -> contains w e1 -> contains v e2 ->
  account_match (pattern_text w [(S n, v)]) (name_of (a ++ e1 :: b ++ e2 :: c)) = true.
Proof.
  intros n w v a e1 b e2 c Pw Nv Pv Fe (x1 & w' & y1 & -> & L1) (x2 & v' & y2 & -> & L2).
  pose proof (C142_pattern false false w [(S n, v)] (name_of (a ++ (x1 ++ w' ++ y1) :: b ++ (x2 ++ v' ++ y2) :: c)) Pw ltac:(repeat constructor; assumption) (name_of_text _ Fe)) as M. cbn [mark app] in M. rewrite app_nil_r in M. apply M.
  destruct (join_parts a ([x1 ++ w' ++ y1] ++ b ++ [x2 ++ v' ++ y2]) c) as (p & q & E); [discriminate|]. 
  assert (El : a ++ ([x1 ++ w' ++ y1] ++ b ++ [x2 ++ v' ++ y2]) ++ c = a ++ (x1 ++ w' ++ y1) :: b ++ (x2 ++ v' ++ y2) :: c) by (rewrite <- !app_assoc; reflexivity).
  pose proof (eq_trans (f_equal name_of (eq_sym El)) E) as Na. rewrite Na. cbn [app]. 
  rewrite join_cons, tail_app, tail_cons. cbn [tail_text]. rewrite app_nil_r.
  exists (p ++ x1), w', ((y1 ++ tail_text b ++ ":"%char :: x2) ++ v' ++ []), (y2 ++ q). split; [rewrite app_nil_r, <- !app_assoc; cbn [app]; rewrite <- !app_assoc; reflexivity|]. split; [exact L1|]. split; [|split; discriminate].
  constructor; [exact L2|discriminate|constructor].
Qed.
Print Assumptions C143_skips_partial.
(** But it is not needed: both words may be in one element, so several colons do not mean "an element at a lower level". *)
Theorem C143_one_element_refuted : account_match (B "e::c") (B "Receipts") = true /\ account_match (B "joe::jo") (B "Assets:Joejo") = true.
Proof. split; vm_compute; reflexivity. Qed.
Print Assumptions C143_one_element_refuted.
(** ** C144 *)
(** An abbreviation of an account: words contained in consecutive elements of its name. If no other account has them, it is the account
    the pattern means; if no account has them, the pattern is rejected. *)
Definition abbreviates (words elements : list bytes) : Prop := exists before these after, elements = before ++ these ++ after /\ Forall2 contains words these.
Theorem C144_abbreviation : forall w ws accounts, plain w -> Forall (fun v => v <> [] /\ plain v) ws -> Forall (fun els => els <> [] /\ Forall an_element els) accounts -> NoDup (map name_of accounts) ->
  ~ In (join (B ":") (w :: ws)) (map name_of accounts) ->
  (forall els, In els accounts -> abbreviates (w :: ws) els -> (forall other, In other accounts -> abbreviates (w :: ws) other -> name_of other = name_of els) ->
     must_find_account account_match (map name_of accounts) (join (B ":") (w :: ws)) = Ok (name_of els)) /\
  ((forall els, In els accounts -> ~ abbreviates (w :: ws) els) -> must_find_account account_match (map name_of accounts) (join (B ":") (w :: ws)) = Panic) /\
  (forall a, must_find_account account_match (map name_of accounts) (join (B ":") (w :: ws)) = Ok a -> exists els, In els accounts /\ a = name_of els /\ abbreviates (w :: ws) els).
Proof.
  intros w ws accounts Pw Fw Fa Nd Nin. rewrite Forall_forall in Fa. set (p := join (B ":") (w :: ws)) in *.
  assert (M : forall els, In els accounts -> account_match p (name_of els) = true <-> abbreviates (w :: ws) els).
  { intros els I. destruct (Fa els I) as (N & Fe). exact (C143_elements w ws els Pw Fw N Fe). }
  destruct (C32_account_pattern_partial account_match (map name_of accounts) p) as (_ & H2 & H3 & H4 & _). split; [|split].
  - intros els I A O. apply H4; [exact Nin|exact Nd|apply in_map, I|apply M; assumption|]. intros b Ib Eb. apply in_map_iff in Ib as (other & <- & Io). left. apply O; [exact Io|]. apply M; assumption.
  - intros No. apply H3; [exact Nin|]. intros a Ia. apply in_map_iff in Ia as (els & <- & I). destruct (account_match p (name_of els)) eqn:E; [|reflexivity]. destruct (No els I). apply M; assumption.
  - intros a E. destruct (H2 a E) as (Ia & Ha). apply in_map_iff in Ia as (els & <- & I). exists els. split; [exact I|]. split; [reflexivity|]. apply M; [exact I|]. destruct Ha as [Ha|Ha]; [|exact Ha]. exfalso. apply Nin. rewrite <- Ha. apply in_map, I.
Qed.
Print Assumptions C144_abbreviation.
Example C144_example : let accounts := [[B "Assets"; B "Bank"]; [B "Assets"; B "Investments"; B "Joe"; B "VGRO"]; [B "Income"; B "Joe"]] in
  Forall (fun els => els <> [] /\ Forall an_element els) accounts /\ NoDup (map name_of accounts) /\ ~ In (B "joe:vg") (map name_of accounts) /\
  must_find_account account_match (map name_of accounts) (B "joe:vg") = Ok (B "Assets:Investments:Joe:VGRO") /\ must_find_account account_match (map name_of accounts) (B "joe:x") = Panic.
Proof.
  cbv zeta. split; [|split; [|split; [|split; vm_compute; reflexivity]]].
  - repeat constructor; try discriminate; apply Forall_forall; intros c I; apply part_char_iff; cbn in I; repeat (destruct I as [<-|I]; [reflexivity|]); destruct I.
  - repeat constructor; cbn; intuition discriminate.
  - cbn. intuition discriminate.
Qed.
