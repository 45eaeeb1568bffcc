(** C80: dumped rules read back. *)
From Coq Require Import Permutation.
From Verif Require Import Base M_Amount M_Regex M_Parser M_Writer M_Names M_Rules S_Ledger S_Rules L_Regex L_RegexSound L_Parser L_RoundTrip L_Resolve2 L_Rules L_Rules2 Properties_Parser Properties_Rules.
Local Open Scope nat_scope.

(** ** what is read is well formed *)
Lemma rprefix_sound r s rest cs : rprefix r s = Some (rest, cs) -> mt r s rest cs.
Proof. intros H. apply rmatch_sound in H as (s1 & new & M & H). rewrite app_nil_r in H. injection H as <- <-. exact M. Qed.
Lemma header_caps line r cs : rprefix headerRE line = Some (r, cs) -> is_words (cap "1" cs) \/ (cap "1" cs = [] /\ is_words (cap "3" cs)).
Proof.
  intros H. apply rprefix_sound in H. apply mt_alt_inv in H as [H|H].
  - cbn [rseq] in H. apply mt_seq_inv in H as (s1 & n1 & n2 & H1 & H2 & ->). apply mt_seq_inv in H2 as (s2 & n3 & n4 & H3 & H4 & ->).
    apply mt_grp_inv in H1 as (t & n' & -> & H1 & ->). apply mt_plus_set_inv in H1 as (run & Nr & E & F & ->). apply app_inv_tail in E. subst t.
    apply mt_plus_set_inv in H3 as (sp & _ & -> & _ & ->). apply mt_grp_inv in H4 as (t & n' & -> & H4 & ->). apply mt_plus_set_inv in H4 as (run2 & _ & E & _ & ->).
    left. split; assumption.
  - apply mt_grp_inv in H as (t & n' & -> & H & ->). apply mt_plus_set_inv in H as (run & Nr & E & F & ->). apply app_inv_tail in E. subst t. right. split; [reflexivity|split; assumption].
Qed.
Lemma body_caps line r cs : rprefix bodyRE line = Some (r, cs) -> cap "3" cs = [] \/ ends_visible (cap "3" cs).
Proof.
  intros H. apply rprefix_sound in H. unfold bodyRE in H. cbn [ralt] in H. apply mt_alt_inv in H as [H|H].
  - cbn [rseq] in H. apply mt_seq_inv in H as (s1 & n1 & n2 & H1 & H2 & ->). apply mt_plus_set_inv in H1 as (sp & _ & -> & _ & ->).
    apply mt_seq_inv in H2 as (s2 & n3 & n4 & H3 & H4 & ->). apply mt_grp_inv in H3 as (t & n' & -> & H3 & ->). apply mt_plus_set_inv in H3 as (run2 & _ & E & _ & ->).
    apply mt_opt_inv in H4 as [H4|[-> ->]]; [|left; reflexivity]. apply mt_grp_inv in H4 as (t4 & n4' & -> & H4 & ->). apply mt_seq_inv in H4 as (s5 & n5 & n6 & H5 & H6 & ->).
    apply mt_plus_set_inv in H5 as (sp5 & _ & E5 & _ & ->). apply mt_grp_inv in H6 as (t6 & n7 & -> & H6 & ->). right.
    match goal with |- ends_visible (cap "3" ?x) => replace (cap "3" x) with t6 by reflexivity end.
    cbn [rseq] in H6. apply mt_seq_inv in H6 as (s8 & n8 & n9 & H8 & H9 & ->). apply mt_set_inv in H8 as (c & E8 & Hc & ->).
    apply mt_seq_inv in H9 as (s10 & n10 & n11 & H10 & H11 & ->). apply mt_star_set_inv in H10 as (m & -> & _ & ->). apply mt_set_inv in H11 as (d & -> & Hd & ->).
    exists c, m, d. split; [|split; apply negb_true_iff; assumption].
    match type of E8 with _ ++ ?x = _ => apply (app_inv_tail x) end. rewrite E8. cbn [app]. rewrite <- app_assoc. reflexivity.
  - left. apply mt_alt_inv in H as [H|H]; cbn [rseq] in H.
    + apply mt_seq_inv in H as (s1 & n1 & n2 & H1 & H2 & ->). apply mt_plus_set_inv in H1 as (sp & _ & -> & _ & ->). apply mt_seq_inv in H2 as (s2 & n3 & n4 & H3 & H4 & ->).
      apply mt_set_inv in H3 as (c & -> & _ & ->). apply mt_grp_inv in H4 as (t & n' & -> & H4 & ->). apply mt_plus_set_inv in H4 as (run2 & _ & E & _ & ->). reflexivity.
    + apply mt_seq_inv in H as (s1 & n1 & n2 & H1 & H2 & ->). apply mt_plus_set_inv in H1 as (sp & _ & -> & _ & ->). apply mt_seq_inv in H2 as (s2 & n3 & n4 & H3 & H4 & ->).
      apply mt_set_inv in H3 as (c & -> & _ & ->). apply mt_seq_inv in H4 as (s3 & n5 & n6 & H5 & H6 & ->). apply mt_plus_set_inv in H5 as (sp2 & _ & -> & _ & ->).
      apply mt_grp_inv in H6 as (t & n' & -> & H6 & ->). apply mt_star_set_inv in H6 as (run2 & E & _ & ->). reflexivity.
Qed.
Definition g_ok (valid : bytes -> bool) (g : option reading) : Prop := match g with None => True | Some g => Forall (entry_ok valid) (g_entries g) end.
Definition keys_ok (ri : rindex) : Prop := NoDup (map fst (ri_accounts ri)).
Lemma in_aset {A} (k : bytes) (v : A) l k' v' : In (k', v') (aset k v l) -> (k' = k /\ v' = v) \/ In (k', v') l.
Proof.
  induction l as [|[k0 v0] l IH]; cbn [aset]; [intros [E|[]]; injection E as <- <-; auto|]. destruct (eqb_bytes k k0); intros [E|I].
  - injection E as <- <-. auto.
  - right. right. exact I.
  - right. left. exact E.
  - destruct (IH I) as [?|?]; [auto|right; right; assumption].
Qed.
Lemma aset_keys {A} (k : bytes) (v : A) l k' : In k' (map fst (aset k v l)) -> k' = k \/ In k' (map fst l).
Proof. rewrite in_map_iff. intros ([k1 v1] & <- & I). apply in_aset in I as [[-> _]|I]; [auto|]. right. apply (in_map fst) in I. exact I. Qed.
Lemma aset_nodup {A} (k : bytes) (v : A) l : NoDup (map fst l) -> NoDup (map fst (aset k v l)).
Proof.
  induction l as [|[k0 v0] l IH]; cbn [aset map fst]; intros N; [constructor; [intros []|constructor]|]. inversion N as [|? ? N1 N2]; subst. destruct (eqb_bytes k k0) eqn:E.
  - apply eqb_bytes_true in E. subst. constructor; assumption.
  - cbn [map fst]. constructor; [|apply IH, N2]. intros I. apply aset_keys in I as [->|I]; [rewrite eqb_bytes_same in E; discriminate|auto].
Qed.
Lemma alookup_in {A} (k : bytes) (l : list (bytes * A)) v : alookup k l = Some v -> In (k, v) l.
Proof.
  induction l as [|[k0 v0] l IH]; cbn [alookup]; [discriminate|]. destruct (eqb_bytes k k0) eqn:E; intros H; [|right; apply IH, H]. apply eqb_bytes_true in E. injection H as <-. subst. left. reflexivity.
Qed.
Lemma in_alookup {A} (k : bytes) (l : list (bytes * A)) v : NoDup (map fst l) -> In (k, v) l -> alookup k l = Some v.
Proof.
  induction l as [|[k0 v0] l IH]; intros N I; [destruct I|]. inversion N as [|? ? N1 N2]; subst. cbn [alookup]. destruct I as [E|I].
  - injection E as <- <-. rewrite eqb_bytes_same. reflexivity.
  - destruct (eqb_bytes k k0) eqn:E; [|apply IH; assumption]. apply eqb_bytes_true in E. subst. exfalso. apply N1. apply (in_map fst) in I. exact I.
Qed.
Lemma finish_ok2 valid ri g : index_ok valid ri /\ keys_ok ri -> g_ok valid g -> index_ok valid (finish ri g) /\ keys_ok (finish ri g).
Proof.
  intros [[H1 H2] K] G. destruct g as [[t es l]|]; [|exact (conj (conj H1 H2) K)]. cbn [finish g_target g_entries g_ok] in *. destruct t as [id|n].
  - destruct (alookup id (ri_accounts ri)) as [ars|] eqn:E; [|exact (conj (conj H1 H2) K)]. rewrite Forall_forall in H2. split; [split|].
    + exact H1.
    + cbn [ri_accounts]. apply Forall_forall. intros [id' ars'] I. apply in_aset in I as [[-> ->]|I]; [|apply (H2 _ I)]. cbn [fst snd ar_rules]. split; [|exact G]. apply alookup_in in E. apply (H2 _ E).
    + unfold keys_ok. cbn [ri_accounts]. apply aset_nodup, K.
  - split; [split|exact K]; [|exact H2]. cbn [ri_sets]. rewrite Forall_forall in *. intros s I. apply In_nth_error in I as [i E].
    revert G H1 E. clear. revert n i. induction (ri_sets ri) as [|x sets IH]; intros n i G H E; [destruct n, i; discriminate|].
    destruct n as [|n]; cbn [set_nth] in E; destruct i as [|i]; cbn [nth_error] in E.
    + injection E as <-. cbn [s_name s_rules]. split; [apply (H x (or_introl eq_refl))|apply Forall_forall, G].
    + apply H. right. eapply nth_error_In, E.
    + injection E as <-. apply H. left. reflexivity.
    + eapply (IH n i G); [|exact E]. intros y I. apply H. right. exact I.
Qed.
Lemma header_ok2 find valid ri line ri' g' : index_ok valid ri /\ keys_ok ri -> header find ri line = Ok (ri', g') -> (index_ok valid ri' /\ keys_ok ri') /\ g_ok valid g'.
Proof.
  intros [[H1 H2] K] H. unfold header in H. destruct (rprefix headerRE line) as [[r cs]|] eqn:E; [|injection H as <- <-; split; [exact (conj (conj H1 H2) K)|exact I]]. apply header_caps in E.
  destruct (cap "1" cs) as [|c id0] eqn:Ec.
  - injection H as <- <-. split; [|constructor]. split; [split|exact K]; [|exact H2]. cbn [ri_sets]. apply Forall_app. split; [exact H1|]. constructor; [|constructor]. split; [|constructor].
    destruct E as [[E _]|[_ E]]; [congruence|exact E].
  - set (id := c :: id0) in *. destruct (find (cap "2" cs)) as [a| |]; try discriminate. cbn [bind] in H. injection H as <- <-. split; [|constructor].
    rewrite Forall_forall in H2. split; [split; [exact H1|]|unfold keys_ok; cbn [ri_accounts]; apply aset_nodup, K]. cbn [ri_accounts]. apply Forall_forall. intros [id' ars'] I. apply in_aset in I as [[-> ->]|I]; [|apply (H2 _ I)].
    split; [|constructor]. destruct E as [E|[E _]]; [exact E|discriminate].
Qed.
Lemma add_note_ok valid es n : Forall (entry_ok valid) es -> Forall (entry_ok valid) (add_note es n).
Proof.
  intros F. unfold add_note. destruct (rev es) as [|e r] eqn:E; [exact F|]. destruct e as [ru|k]; [|exact F]. rewrite Forall_forall in *.
  assert (G : forall x, In x (ERule ru :: r) -> entry_ok valid x) by (intros x I; apply F, in_rev; rewrite E; exact I).
  intros x I. apply in_app_iff in I as [I|[<-|[]]]; [apply in_rev in I; apply G; right; exact I|]. exact (G (ERule ru) (or_introl eq_refl)).
Qed.
Lemma body_ok2 find valid ri g line r cs g' : rprefix bodyRE line = Some (r, cs) -> g_ok valid (Some g) -> body find valid ri g cs = Ok g' -> g_ok valid (Some g').
Proof.
  intros Hm H1 H. apply body_caps in Hm. unfold body in H. destruct (cap "1" cs) as [|c a0].
  - destruct (cap "4" cs) as [|c a0].
    + injection H as <-. destruct (g_last g); [|exact H1]. cbn [g_ok g_entries]. apply add_note_ok, H1.
    + destruct (sets_by_name ri (c :: a0)) as [n|] eqn:E; [|discriminate]. injection H as <-. cbn [g_ok g_entries]. apply Forall_app. split; [exact H1|]. constructor; [exact I|constructor].
  - destruct (if eqb_bytes (c :: a0) (B "--") then Ok None else do a <- find (c :: a0); Ok (Some a)) as [acc| |]; try discriminate. cbn [bind] in H. destruct (valid (cap "3" cs)) eqn:V; [|discriminate]. injection H as <-.
    cbn [g_ok g_entries]. apply Forall_app. split; [exact H1|]. constructor; [|constructor]. split; assumption.
Qed.
Lemma loop_ok2 find valid lines : forall ri g ri', index_ok valid ri /\ keys_ok ri -> g_ok valid g -> rules_loop find valid ri g lines = Ok ri' -> index_ok valid ri' /\ keys_ok ri'.
Proof.
  induction lines as [|line rest IH]; intros ri g ri' H1 H2 H; cbn [rules_loop] in H; [injection H as <-; apply finish_ok2; assumption|].
  destruct g as [g0|].
  - destruct (rprefix bodyRE line) as [[r cs]|] eqn:Em.
    + destruct (body find valid ri g0 cs) as [g'| |] eqn:E; try discriminate. cbn [bind] in H. eapply IH; [exact H1|eapply body_ok2; eassumption|exact H].
    + destruct (header find (finish ri (Some g0)) line) as [[ri1 g1]| |] eqn:E; try discriminate. cbn [bind fst snd] in H. eapply header_ok2 in E as [E1 E2]; [|apply finish_ok2; eassumption]. eapply IH; eassumption.
  - destruct (header find ri (trim_space line)) as [[ri1 g1]| |] eqn:E; try discriminate. cbn [bind fst snd] in H. eapply header_ok2 in E as [E1 E2]; [|exact H1]. eapply IH; eassumption.
Qed.
Lemma read_ok2 find valid text ri : read_rules find valid text = Ok (Some ri) -> index_ok valid ri /\ keys_ok ri.
Proof.
  unfold read_rules. destruct (scan_lines text) as [|l ls]; [discriminate|]. unfold scan_rules. destruct (header find empty_index l) as [[ri1 g1]| |] eqn:E; try discriminate. cbn [bind fst snd].
  destruct (rules_loop find valid ri1 g1 ls) as [ri2| |] eqn:E2; try discriminate. cbn [bind]. intros H. injection H as <-.
  eapply header_ok2 in E as [A B]; [|split; [split; constructor|constructor]]. eapply loop_ok2; eassumption.
Qed.

(** ** the dump is a good rules file *)
Lemma refs_names valid ri : refs_ok ri -> keys_ok ri -> index_ok valid ri -> all_names_ok ri.
Proof.
  intros [R1 R2] K [O1 O2]. assert (G : forall es n, n <= List.length (ri_sets ri) -> refs_below n es -> Forall (names_ok (ri_sets ri)) es).
  { intros es n Ln R. apply Forall_forall. intros [r|i] I; [exact Logic.I|]. cbn [names_ok]. pose proof (R i I) as L. destruct (nth_error (ri_sets ri) i) as [s|] eqn:E; [|apply nth_error_None in E; lia].
    exists s. split; [reflexivity|]. rewrite Forall_forall in O1. apply (O1 s), (nth_error_In _ _ E). }
  split; apply Forall_forall.
  - intros s I. apply In_nth_error in I as [i E]. apply (G _ (S i)); [apply nth_error_Some; congruence|eapply R1, E].
  - intros [id ars] I. apply (G _ (List.length (ri_sets ri))); [lia|]. apply (R2 id). apply in_alookup; assumption.
Qed.
Section Good.
Variables (find : bytes -> res bytes) (valid : bytes -> bool) (ri : rindex).
Hypothesis D : dumpable find ri.
Hypothesis O : index_ok valid ri.
Hypothesis R : refs_ok ri.
Hypothesis K : keys_ok ri.
Lemma strict_refs i s : nth_error (ri_sets ri) i = Some s -> refs_below i (s_rules s).
Proof.
  intros E j I. destruct R as [R1 _], D as (_ & D2 & _). pose proof (R1 _ _ E j I). destruct (Nat.eq_dec j i) as [->|]; [|lia]. exfalso. apply (proj1 (D2 _ _ E)), I.
Qed.
Lemma dump_means es n above : n <= List.length (ri_sets ri) -> refs_below n es -> Forall (entry_dumpable find) es ->
  (forall m, nearest m above = nearest m (rev (map (set_group (ri_sets ri)) (firstn n (ri_sets ri))))) ->
  exists rs, expands (ri_sets ri) es rs /\ means find above (map (eline (ri_sets ri)) es) (map no_notes rs).
Proof.
  intros Ln Rb Fd Na. destruct (expands_below (ri_sets ri) strict_refs n es Ln Rb) as [rs X]. exists rs. split; [exact X|].
  eapply expands_means; [apply D| |exact strict_refs|exact X|exact Fd|exact Rb|exact Na]. intros i s E. apply (proj1 (proj2 D) _ _ E).
Qed.
Lemma lines_valid es : Forall (entry_ok valid) es -> forall a p, In (SRule a p) (map (eline (ri_sets ri)) es) -> valid p = true.
Proof. intros F a p I. apply in_map_iff in I as ([r|i] & E & I); [|discriminate]. injection E as _ <-. rewrite Forall_forall in F. apply (F (ERule r) I). Qed.
Lemma firstn_split {A} (l : list A) pre x post : l = pre ++ x :: post -> firstn (List.length pre) l = pre /\ nth_error l (List.length pre) = Some x.
Proof. intros ->. split; [rewrite firstn_app, Nat.sub_diag, firstn_all, app_nil_r; reflexivity|]. rewrite nth_error_app2, Nat.sub_diag by lia. reflexivity. Qed.
Lemma good_dump sorted : Permutation sorted (ri_accounts ri) -> good_file find valid [] (index_groups sorted ri).
Proof.
  intros P. destruct D as (D1 & D2 & D3), O as [O1 O2]. rewrite Forall_forall in O1, O2. unfold index_groups. apply good_app; [|rewrite app_nil_r].
  - apply good_split. intros pre g post E. apply map_eq_app in E as (p1 & p2 & E & <- & E2). apply map_eq_cons in E2 as (s & post1 & -> & <- & <-).
    destruct (firstn_split _ _ _ _ E) as [F1 F2]. destruct (D2 _ _ F2) as [Ns Ds]. assert (Is : In s (ri_sets ri)) by (rewrite E; apply in_elt). split; [|split; [|split]].
    + destruct (dump_means (s_rules s) (List.length p1) (rev (map (set_group (ri_sets ri)) p1) ++ [])) as (rs & _ & M); [|apply strict_refs, F2|exact Ds| |eexists; exact M].
      * assert (List.length p1 < List.length (ri_sets ri)) by (apply nth_error_Some; congruence). lia.
      * intros m. rewrite F1, app_nil_r. reflexivity.
    + apply lines_valid, (proj2 (O1 _ Is)).
    + intros n En I. injection En as <-. cbn [snd set_group] in I. apply in_map_iff in I as ([r|i] & Ei & I); [discriminate|]. injection Ei as Ei.
      pose proof (strict_refs _ _ F2 i I) as Li. assert (Lp : List.length p1 < List.length (ri_sets ri)) by (apply nth_error_Some; congruence).
      assert (i = List.length p1); [|lia]. rewrite NoDup_nth_error in D1. apply D1; [rewrite map_length; lia|]. rewrite !nth_error_map, F2.
      destruct (nth_error (ri_sets ri) i) as [t|] eqn:Et; [|apply nth_error_None in Et; lia]. rewrite (nth_error_nth _ _ _ Et) in Ei. cbn [option_map]. congruence.
    + discriminate.
  - apply good_split. intros pre g post E. apply map_eq_app in E as (p1 & p2 & E & <- & E2). apply map_eq_cons in E2 as ([id ars] & post1 & -> & <- & <-).
    assert (Is : In (id, ars) (ri_accounts ri)) by (eapply Permutation_in; [exact P|rewrite E; apply in_elt]). destruct (D3 _ _ Is) as (T1 & T2 & T3). destruct (O2 _ Is) as [W1 W2]. split; [|split; [|split]].
    + destruct (dump_means (ar_rules ars) (List.length (ri_sets ri)) (rev (map (acc_group (ri_sets ri)) p1) ++ rev (map (set_group (ri_sets ri)) (ri_sets ri)))) as (rs & _ & M); [lia| |exact T3| |eexists; exact M].
      * apply (proj2 R id). apply in_alookup; assumption.
      * intros m. rewrite nearest_accounts, firstn_all. reflexivity.
    + apply lines_valid, W2.
    + discriminate.
    + intros i a Ei. injection Ei as <- <-. eauto.
Qed.
End Good.

Lemma find_map (f : rule -> bool) rs : (forall r, f (no_notes r) = f r) -> List.find f (map no_notes rs) = option_map no_notes (List.find f rs).
Proof. intros H. induction rs as [|r rs IH]; [reflexivity|]. cbn [map List.find]. rewrite H. destruct (f r); [reflexivity|exact IH]. Qed.

(** ** C80: the rules printed by -rules are read back as the same rules, apart from their notes *)
Theorem C80_dump_partial : forall find valid matches by_ofx_id text ri sorted, read_rules find valid text = Ok (Some ri) -> dumpable find ri ->
  (ri_sets ri <> [] \/ ri_accounts ri <> []) -> Permutation sorted (ri_accounts ri) ->
  exists dump ri', write_index sorted ri = Ok dump /\ read_rules find valid dump = Ok (Some ri') /\
  forall id, match account_rules_for by_ofx_id ri id with
  | Ok ars => exists ars' N, account_rules_for by_ofx_id ri' id = Ok ars' /\ ar_account ars' = ar_account ars /\
      forall fuel payee, N <= fuel -> exists o, rule_for matches fuel (ri_sets ri) payee (ar_rules ars) = Some o /\
        rule_for matches fuel (ri_sets ri') payee (ar_rules ars') = Some (option_map no_notes o)
  | r => account_rules_for by_ofx_id ri' id = r
  end.
Proof.
  intros find valid matches by_ text ri sorted Hr D Ne P. destruct (read_ok2 _ _ _ _ Hr) as [Ok2 K]. pose proof (read_ok _ _ _ _ Hr) as R.
  destruct (write_index_lines find valid ri sorted D Ok2 (refs_names _ _ R K Ok2) P) as (lines & E & Lt & G). exists (text_of lines).
  assert (Nl : lines <> []).
  { intros ->. inversion G as [E1|]. unfold index_groups in E1. symmetry in E1. apply app_eq_nil in E1 as [E1 E2]. apply map_eq_nil in E1, E2. destruct Ne as [Ne|Ne]; [auto|]. apply Ne. subst sorted. apply Permutation_nil, P. }
  assert (F : file_is (index_groups sorted ri) lines) by (exists [], lines; repeat split; [constructor|exact G]).
  destruct (file_run find valid _ _ F Nl (good_dump find valid ri D Ok2 R K sorted P)) as (line & rest & ri' & -> & Es & (_ & I2 & I3)).
  exists ri'. split; [exact E|]. split; [unfold read_rules; rewrite scan_text by exact Lt; rewrite Es; reflexivity|].
  assert (Ks : NoDup (map fst sorted)) by (eapply Permutation_NoDup; [apply Permutation_map, Permutation_sym, P|exact K]).
  assert (Rv : rev (index_groups sorted ri) = rev (map (acc_group (ri_sets ri)) sorted) ++ rev (map (set_group (ri_sets ri)) (ri_sets ri))) by (unfold index_groups; apply rev_app_distr).
  assert (Gn : forall id, group_for id (rev (map (set_group (ri_sets ri)) (ri_sets ri))) = None).
  { intros id. rewrite <- (app_nil_r (rev _)), group_for_sets. reflexivity. }
  intros id. unfold account_rules_for at 1. destruct (alookup id (ri_accounts ri)) as [ars|] eqn:Ea.
  - apply alookup_in in Ea as Ia. assert (Ip : In (id, ars) sorted) by (eapply Permutation_in; [apply Permutation_sym, P|exact Ia]).
    destruct (group_for_account (ri_sets ri) (rev (map (set_group (ri_sets ri)) (ri_sets ri))) sorted id ars Ks Ip) as (pre & post & _ & Eg). rewrite <- Rv in Eg.
    destruct D as (D1 & D2 & D3). destruct (D3 _ _ Ia) as (T1 & T2 & T3).
    destruct (dump_means find ri (conj D1 (conj D2 D3)) R (ar_rules ars) (List.length (ri_sets ri)) (rev (map (acc_group (ri_sets ri)) pre) ++ rev (map (set_group (ri_sets ri)) (ri_sets ri)))) as (rs & X & M);
      [lia|apply (proj2 R id ars Ea)|exact T3|intros m; rewrite nearest_accounts, firstn_all; reflexivity|].
    destruct (I2 _ _ _ _ _ _ Eg M T2) as (ars' & A1 & A2 & A3). destruct (rule_for_first matches _ _ _ X) as [N1 H1]. destruct (rule_for_first matches _ _ _ A3) as [N2 H2].
    exists ars', (Nat.max N1 N2). unfold account_rules_for. rewrite A1. split; [reflexivity|]. split; [exact A2|]. intros fuel payee Hf. eexists. split; [apply H1; lia|]. rewrite H2 by lia. rewrite find_map by reflexivity. reflexivity.
  - assert (A : alookup id (ri_accounts ri') = None).
    { apply I3. rewrite Rv, group_for_none; [apply Gn|]. intros I. rewrite (Permutation_map fst P) in I. apply in_map_iff in I as ([i ars] & <- & I). cbn [fst] in Ea. rewrite (in_alookup _ _ _ K I) in Ea. discriminate. }
    destruct (by_ id) as [a|] eqn:Eb; [|unfold account_rules_for; rewrite A, Eb; reflexivity].
    exists (mkARules a []), 0. unfold account_rules_for. rewrite A, Eb. repeat split. intros [|fuel] payee _; exists None; split; reflexivity.
Qed.
Print Assumptions C80_dump_partial.

(** the rules of rules_test.go can be dumped (without the rule for everything else, which has an empty pattern: it can too) *)
Definition rindex_ex : rindex := match read_rules rfind (fun _ => true) rtext with Ok (Some ri) => ri | _ => empty_index end.
Lemma rindex_read : read_rules rfind (fun _ => true) rtext = Ok (Some rindex_ex).
Proof. vm_compute. reflexivity. Qed.
Definition entry_dumpable_b (e : rentry) : bool :=
  match e with
  | ERule r => match r_account r with Some a => negb (Nat.eqb (List.length a) 0) && forallb acc_char a && negb (eqb_bytes a (B "--")) && existsb (eqb_bytes a) rnames && forallb lchar (r_pattern r) | None => false end
  | ESet _ => true
  end.
Lemma entry_dumpable_ok es : forallb entry_dumpable_b es = true -> Forall (entry_dumpable rfind) es.
Proof.
  intros H. apply Forall_forall. intros e I. apply (proj1 (forallb_forall _ _) H) in I. destruct e as [r|n]; [|exact Logic.I]. cbn [entry_dumpable_b entry_dumpable] in *. destruct (r_account r) as [a|]; [|discriminate].
  rewrite !andb_true_iff, !negb_true_iff in I. destruct I as ((((I1 & I2) & I3) & I4) & I5). exists a. split; [reflexivity|]. split; [split; [intros ->; discriminate|exact I2]|]. split; [intros ->; discriminate|].
  split; [unfold rfind; rewrite I4; reflexivity|apply line_text_b, I5].
Qed.
Example C80_example : dumpable rfind rindex_ex /\ ri_accounts rindex_ex <> [].
Proof.
  split; [|vm_compute; discriminate]. split; [|split].
  - vm_compute. constructor; [intros []|constructor].
  - intros i s E. destruct i as [|i]; [|destruct i; vm_compute in E; discriminate E].
    injection E as <-. split; [vm_compute; intros [H|[H|[]]]; discriminate|]. apply entry_dumpable_ok. vm_compute. reflexivity.
  - intros id ars I. assert (Hb : forallb (fun ia => negb (Nat.eqb (List.length (ar_account (snd ia))) 0) && forallb acc_char (ar_account (snd ia)) && existsb (eqb_bytes (ar_account (snd ia))) rnames && forallb entry_dumpable_b (ar_rules (snd ia))) (ri_accounts rindex_ex) = true) by (vm_compute; reflexivity).
    apply (proj1 (forallb_forall _ _) Hb) in I. cbn [snd] in I. rewrite !andb_true_iff, !negb_true_iff in I. destruct I as (((I1 & I2) & I3) & I4).
    split; [split; [|exact I2]; intros E; rewrite E in I1; discriminate|]. split; [unfold rfind; rewrite I3; reflexivity|apply entry_dumpable_ok, I4].
Qed.

(** the full property fails: the notes of a rule, which end up on transactions, are not dumped; *)
Definition same_rules (matches : bytes -> bytes -> bool) (ri ri' : rindex) (id : bytes) : Prop :=
  forall payee, match alookup id (ri_accounts ri), alookup id (ri_accounts ri') with
  | Some a, Some a' => rule_for matches 9 (ri_sets ri) payee (ar_rules a) = rule_for matches 9 (ri_sets ri') payee (ar_rules a')
  | None, None => True
  | _, _ => False
  end.
Definition always : bytes -> bytes -> bool := fun _ _ => true.
Definition note_text : bytes := nls ["42 Assets:Bank:Savings"; "  Expenses:Auto  SHELL"; "  ; fuel"]%string.
Theorem C80_notes_refuted : exists ri dump ri', read_rules rfind (fun _ => true) note_text = Ok (Some ri) /\ write_index (ri_accounts ri) ri = Ok dump /\
  read_rules rfind (fun _ => true) dump = Ok (Some ri') /\ ~ same_rules always ri ri' (B "42").
Proof.
  eexists. eexists. eexists. split; [vm_compute; reflexivity|]. split; [vm_compute; reflexivity|]. split; [vm_compute; reflexivity|].
  intros H. specialize (H []). vm_compute in H. discriminate.
Qed.
Print Assumptions C80_notes_refuted.
(** rules that drop transactions cannot be dumped; *)
Theorem C80_drop_panics_refuted : exists ri, read_rules rfind (fun _ => true) (nls ["42 Assets:Bank:Savings"; "  --  TRANSFER"]%string) = Ok (Some ri) /\ write_index (ri_accounts ri) ri = Panic.
Proof. eexists. split; vm_compute; reflexivity. Qed.
Print Assumptions C80_drop_panics_refuted.
(** a set name used twice: accounts written between the two sets get the rules of the second one. *)
Definition twice_text : bytes := nls ["common"; "  Expenses:Auto  SHELL"; "42 Assets:Bank:Savings"; "  @common"; "common"; "  Expenses:Groceries  SHELL"]%string.
Theorem C80_redefined_set_refuted : exists ri dump ri', read_rules rfind (fun _ => true) twice_text = Ok (Some ri) /\ write_index (ri_accounts ri) ri = Ok dump /\
  read_rules rfind (fun _ => true) dump = Ok (Some ri') /\ ~ same_rules always ri ri' (B "42").
Proof.
  eexists. eexists. eexists. split; [vm_compute; reflexivity|]. split; [vm_compute; reflexivity|]. split; [vm_compute; reflexivity|].
  intros H. specialize (H []). vm_compute in H. discriminate.
Qed.
Print Assumptions C80_redefined_set_refuted.
(** an empty line inside a group: the rules below it are read as the names of sets *)
Theorem C56_blank_line_refuted : exists ri ars, read_rules rfind (fun _ => true) (nls ["42 Assets:Bank:Savings"; ""; "  Expenses:Auto  SHELL"]%string) = Ok (Some ri) /\
  alookup (B "42") (ri_accounts ri) = Some ars /\ ar_rules ars = [].
Proof. eexists. eexists. split; [vm_compute; reflexivity|]. split; reflexivity. Qed.
Print Assumptions C56_blank_line_refuted.
