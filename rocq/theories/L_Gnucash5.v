(** Online ids of GnuCash accounts. *)
From Verif Require Import Base M_Amount M_Regex M_Gnucash S_Gnucash L_Regex L_RegexSound L_Parser L_CsvRules.

Lemma online_fails c s : is_digit c = false -> rprefix online_rx (c :: s) = None.
Proof.
  intros H. unfold rprefix. apply fails_opt_seq.
  - apply fails_seq_l, fails_grp, fails_seq_l, fails_set. exact H.
  - apply fails_grp, fails_seq_l, fails_set. exact H.
Qed.
Lemma online_skip pre s : forallb (fun c => negb (is_digit c)) pre = true -> rsearch online_rx (pre ++ s) = rsearch online_rx s.
Proof.
  induction pre as [|c pre IH]; [reflexivity|]. cbn [forallb app]. intros H. apply andb_true_iff in H as (H1 & H2). cbn [rsearch].
  rewrite online_fails by (apply negb_true_iff, H1). apply IH, H2.
Qed.
Lemma no_digit_not s : no_digit_ahead s -> hd_not is_digit s.
Proof. destruct s; exact (fun H => H). Qed.
Lemma digit_not_space c : is_digit c = true -> is_space c = false.
Proof. intros H. destruct (is_space c) eqn:E; [|reflexivity]. exfalso. revert c H E. all_chars. Qed.
Lemma two_numbers bank sp acct rest : bank <> [] -> forallb is_digit bank = true -> sp <> [] -> forallb is_space sp = true -> acct <> [] -> forallb is_digit acct = true -> no_digit_ahead rest ->
  rsearch online_rx (bank ++ sp ++ acct ++ rest) = Some (rest, [("acct"%string, acct); ("bank"%string, bank)]).
Proof.
  intros B1 B2 S1 S2 A1 A2 R.
  replace (bank ++ sp ++ acct ++ rest) with (((bank ++ sp) ++ acct) ++ rest) by (rewrite <- !app_assoc; reflexivity).
  apply (takes_search _ _ _ (hd_not is_digit)); [|apply no_digit_not, R].
  apply (takes_eq _ ((bank ++ sp) ++ acct) _ ([("acct"%string, acct)] ++ (([] ++ [("bank"%string, bank)]))) _ _); [|reflexivity|reflexivity].
  eapply (takes_seq _ _ _ _ _ _ (hd_is is_digit)).
  - apply takes_opt_some. eapply (takes_seq _ _ _ _ _ _ (hd_is is_space)).
    + apply takes_grp. apply takes_plus; auto. intros r. apply hd_is_not. intros c H. destruct (is_digit c) eqn:E; [|reflexivity]. apply digit_not_space in E. congruence.
    + apply takes_plus; auto. intros r. apply hd_is_not. exact digit_not_space.
    + intros r _. destruct sp as [|x sp]; [congruence|]. cbn in *. apply andb_true_iff in S2 as (S2 & _). exact S2.
  - apply takes_grp. apply takes_plus; auto.
  - intros r _. destruct acct as [|x acct]; [congruence|]. cbn in *. apply andb_true_iff in A2 as (A2 & _). exact A2.
Qed.
Lemma one_number acct rest : acct <> [] -> forallb is_digit acct = true -> no_digit_ahead rest ->
  (forall sp y, rest = sp ++ y -> sp <> [] -> forallb is_space sp = true -> no_digit_ahead y) ->
  rsearch online_rx (acct ++ rest) = Some (rest, [("acct"%string, acct)]).
Proof.
  intros A1 A2 R N.
  assert (F : forall R0 cs (k : bytes -> caps -> option R0), rmatch (RSeq (RSeq (RGrp "bank" (rplus d_)) (rplus s_)) (RGrp "acct" (rplus d_))) (acct ++ rest) cs k = None).
  { intros R0 cs k. destruct (rmatch _ (acct ++ rest) cs k) eqn:E; [|reflexivity]. exfalso. apply rmatch_sound in E as (s' & new & M & _).
    apply mt_seq_inv in M as (s1 & n1 & n2 & M1 & M2 & _). apply mt_seq_inv in M1 as (s0 & n3 & n4 & M0 & M1 & _).
    apply mt_grp_inv in M0 as (run & n5 & E0 & M0 & _). apply mt_plus_set_inv in M0 as (run' & Rn & E1 & Rd & _). apply mt_plus_set_inv in M1 as (sp & Sn & E2 & Sd & _).
    apply mt_grp_inv in M2 as (ac & n6 & E3 & M2 & _). apply mt_plus_set_inv in M2 as (ac' & An & E4 & Ad & _).
    subst s0 s1. rewrite E4 in E1. clear E0. assert (U : acct = run' /\ rest = sp ++ ac' ++ s').
    { apply (span_unique is_digit acct run' rest (sp ++ ac' ++ s') E1); auto using no_digit_not. destruct sp as [|x sp]; [congruence|]. cbn in Sd |- *. apply andb_true_iff in Sd as (Sd & _).
      destruct (is_digit x) eqn:Ex; [|reflexivity]. apply digit_not_space in Ex. congruence. }
    destruct U as (_ & U). specialize (N sp (ac' ++ s') U Sn Sd). destruct ac' as [|x ac']; [congruence|]. cbn in N, Ad. rewrite N in Ad. discriminate. }
  assert (T : takes (RGrp "acct" (rplus d_)) acct [("acct"%string, acct)] (hd_not is_digit)) by (apply takes_grp, takes_plus; auto).
  apply rsearch_here. unfold rprefix, online_rx. cbn [rmatch]. pose proof (F _ [] (fun s' cs => Some (s', cs))) as F1. cbn [rmatch] in F1. rewrite F1.
  apply (T _ rest [] (fun s' cs => Some (s', cs))); [apply no_digit_not, R|reflexivity].
Qed.

(** every text has a first number or no digit *)
Lemma digits_ahead s : exists n rest, s = n ++ rest /\ forallb is_digit n = true /\ no_digit_ahead rest.
Proof.
  induction s as [|c s (n & r & E & D & N)]; [exists [], []; cbn; auto|]. destruct (is_digit c) eqn:Ec.
  - exists (c :: n), r. subst s. cbn. rewrite Ec. auto.
  - exists [], (c :: s). cbn. auto.
Qed.
Lemma first_number s : forallb (fun c => negb (is_digit c)) s = true \/ exists pre n rest, number s pre n rest.
Proof.
  induction s as [|c s IH]; [left; reflexivity|]. destruct (is_digit c) eqn:Ec.
  - right. destruct (digits_ahead s) as (n & r & -> & D & N). exists [], (c :: n), r. unfold number. cbn. rewrite Ec. repeat split; auto. discriminate.
  - destruct IH as [H|(pre & n & r & E & P & H)]; [left; cbn; rewrite Ec, H; reflexivity|]. right. exists (c :: pre), n, r. split; [cbn; congruence|]. split; [cbn; rewrite Ec, P; reflexivity|exact H].
Qed.
Lemma blanks_number s : (exists sp y, s = sp ++ y /\ sp <> [] /\ forallb is_space sp = true /\ ~ no_digit_ahead y) \/
  (forall sp y, s = sp ++ y -> sp <> [] -> forallb is_space sp = true -> no_digit_ahead y).
Proof.
  induction s as [|c s IH]; [right; intros [|? ?] y E N; [congruence|discriminate]|]. destruct (is_space c) eqn:Ec.
  - destruct IH as [(sp & y & -> & N & D & H)|IH].
    + left. exists (c :: sp), y. cbn. rewrite Ec, D. repeat split; auto. discriminate.
    + destruct (match s with x :: _ => is_digit x | [] => false end) eqn:Ex.
      * left. exists [c], s. cbn. rewrite Ec. repeat split; [discriminate|]. destruct s; [discriminate|]. cbn. congruence.
      * right. intros [|x [|x' sp]] y E N D; [congruence| |]; cbn in E; injection E as -> E.
        -- subst y. destruct s; cbn; auto.
        -- cbn [forallb] in D. rewrite !andb_true_iff in D. apply (IH (x' :: sp) y E); [discriminate|]. cbn [forallb]. rewrite andb_true_iff. tauto.
  - right. intros [|x sp] y E N D; [congruence|]. cbn in E. injection E as -> E. cbn in D. rewrite Ec in D. discriminate.
Qed.
Lemma online_rx_sound v bank acct : online v bank acct -> v <> [] -> exists rest cs, rsearch online_rx v = Some (rest, cs) /\ cap "bank" cs = bank /\ cap "acct" cs = acct.
Proof.
  intros [(-> & _)|[(pre & rest & (-> & P & A & D & N) & -> & H)|(pre & rest & sp & r' & r'' & (-> & P & A & D & N) & -> & Sn & Sd & (-> & _ & A' & D' & N'))]] V; [congruence| |].
  - rewrite online_skip by exact P. rewrite one_number by auto. eexists _, _. split; [reflexivity|]. split; reflexivity.
  - rewrite online_skip by exact P. change ([] ++ acct ++ r'') with (acct ++ r''). rewrite (two_numbers bank sp acct r'') by assumption. eexists _, _. split; [reflexivity|]. split; reflexivity.
Qed.
Lemma online_cases v : (v <> [] /\ forallb (fun c => negb (is_digit c)) v = true) \/ exists bank acct, online v bank acct.
Proof.
  assert (V : v = [] \/ v <> []) by (destruct v; [left; reflexivity|right; discriminate]). destruct V as [->|V]; [right; exists [], []; left; auto|].
  destruct (first_number v) as [H|(pre & n & rest & H)]; [left; auto|]. right. destruct (blanks_number rest) as [(sp & y & E & Sn & Sd & Y)|B].
  - destruct (digits_ahead y) as (n2 & r2 & -> & D2 & N2). exists n, n2. right. right. exists pre, rest, sp, (n2 ++ r2), r2. split; [exact H|]. split; [exact E|]. split; [exact Sn|]. split; [exact Sd|]. unfold number. repeat split; auto.
    intros Q. rewrite Q in Y. apply Y. exact N2.
  - exists [], n. right. left. exists pre, rest. split; [exact H|auto].
Qed.
Lemma no_number v : v <> [] -> forallb (fun c => negb (is_digit c)) v = true -> rsearch online_rx v = None.
Proof. intros _ H. rewrite <- (app_nil_r v). rewrite online_skip by exact H. reflexivity. Qed.
Lemma online_det v b a b' a' : online v b a -> online v b' a' -> b = b' /\ a = a'.
Proof.
  destruct v as [|c v].
  - assert (Z : forall x y, online [] x y -> x = [] /\ y = []).
    { intros x y [(_ & H)|[(pre & rest & (E & _ & N & _) & _)|(pre & rest & sp & r & r' & (E & _ & N & _) & _)]]; auto; destruct pre, y, x; try congruence; discriminate. }
    intros H1 H2. destruct (Z _ _ H1), (Z _ _ H2). split; congruence.
  - intros H1 H2.
    destruct (online_rx_sound _ _ _ H1) as (r1 & c1 & E1 & B1 & A1); [discriminate|]. destruct (online_rx_sound _ _ _ H2) as (r2 & c2 & E2 & B2 & A2); [discriminate|].
    rewrite E1 in E2. injection E2 as <- <-. split; congruence.
Qed.
(** what an account gets from its slots *)
Lemma online_ids_spec a : forall ids, online_ids a = Ok ids <-> online (slot (B "online_id") (ga_slots a)) (fst ids) (snd ids).
Proof.
  intros [b c]. unfold online_ids. cbn [fst snd]. set (v := slot _ _). clearbody v. destruct v as [|x v].
  - split; [intros E; injection E as <- <-; left; auto|]. intros H. assert (H0 : online [] [] []) by (left; auto). destruct (online_det _ _ _ _ _ H H0) as (-> & ->). reflexivity.
  - destruct (online_cases (x :: v)) as [(H & N)|(b' & c' & H)].
    + rewrite (no_number _ H N). split; [discriminate|]. intros O1. destruct (online_rx_sound _ _ _ O1 H) as (r & cs & E & _). rewrite (no_number _ H N) in E. discriminate.
    + destruct (online_rx_sound _ _ _ H) as (r & cs & E & Eb & Ec); [discriminate|]. rewrite E. subst b' c'. split.
      * intros Q. injection Q as <- <-. exact H.
      * intros O1. destruct (online_det _ _ _ _ _ H O1) as (<- & <-). reflexivity.
Qed.
Lemma online_ids_none a : (exists c, In c (slot (B "online_id") (ga_slots a))) -> (forall c, In c (slot (B "online_id") (ga_slots a)) -> is_digit c = false) -> online_ids a = Panic.
Proof.
  unfold online_ids. set (v := slot _ _). clearbody v. intros (c & C) H. destruct v as [|x v]; [destruct C|]. rewrite no_number; [reflexivity|discriminate|].
  apply forallb_forall. intros y Y. rewrite (H y Y). reflexivity.
Qed.
