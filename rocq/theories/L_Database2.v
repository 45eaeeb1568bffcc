(** Files of a database, commodities of the amounts read, paths. *)
From Coq Require Import Permutation.
From Verif Require Import Base M_Amount M_Regex M_Date M_Parser M_Writer M_Database S_Ledger S_Database L_Dec L_RoundTrip L_Entries L_Local L_Names L_Report L_Database.

Lemma load_list_app limit w l1 l2 d : load_list limit w (l1 ++ l2) d = obind (load_list limit w l1 d) (load_list limit w l2).
Proof.
  revert d. induction l1 as [|f l1 IH]; intros d; cbn [app load_list]; [reflexivity|].
  destruct (load_file limit w d f) as [[d1| |]|]; cbn [obind]; auto.
Qed.
Lemma obind_assoc {A C D} (x : option (res A)) (f : A -> option (res C)) (g : C -> option (res D)) : obind (obind x f) g = obind x (fun a => obind (f a) g).
Proof. destruct x as [[a| |]|]; reflexivity. Qed.
Lemma obind_ext {A C} (x : option (res A)) (f g : A -> option (res C)) : (forall a, f a = g a) -> obind x f = obind x g.
Proof. intros H. destruct x as [[a| |]|]; cbn; auto. Qed.
Lemma load_one limit w f d : load_list limit w [f] d = load_file limit w d f.
Proof. cbn [load_list]. destruct (load_file limit w d f) as [[d1| |]|]; reflexivity. Qed.
Lemma load_files_list limit w DB : load_files_all limit w DB = load_list limit w (database_files w DB) empty_db.
Proof.
  unfold load_files_all, load_prices, database_files. rewrite !load_list_app, load_one, !obind_assoc.
  apply obind_ext. intros d1. rewrite load_list_app.
  destruct (w_file w (in_dir DB (B "prices.coin"))) as [t1|]; [rewrite load_one|].
  all: apply obind_ext; intros d2; rewrite load_list_app, load_one; apply obind_ext; intros d3;
    destruct (w_file w (in_dir DB (B "transactions.coin"))) as [t2|]; [rewrite load_one|]; reflexivity.
Qed.

(** ** the commodities of the amounts read are known ones *)
Definition com_known (f : bytes -> option commodity) (a : amount) : Prop := exists id, f id = Some (a_com a).
Definition oknown (f : bytes -> option commodity) (a : option amount) : Prop := forall q, a = Some q -> com_known f q.
Lemma parse_amount_com s c a : parse_amount s c = Ok a -> a_com a = c.
Proof. unfold parse_amount. intros H. repeat match type of H with (match ?x with _ => _ end) = _ => destruct x | bind ?x _ = _ => destruct x; cbn [bind] in H | (let _ := ?x in _) = _ => cbn zeta in H end; try discriminate; injection H as <-; reflexivity. Qed.
Lemma must_find_known e id c : must_find e id = Ok c -> e_find e id = Some c.
Proof. unfold must_find. destruct (e_find e id); congruence. Qed.
Lemma read_known e id amt a : (do c <- must_find e id; do a <- parse_amount amt c; Ok (Some a)) = Ok a -> oknown (e_find e) a.
Proof.
  intros H. apply bind_ok in H as (c & E1 & H). apply bind_ok in H as (x & E2 & H). injection H as <-. intros q [= <-].
  exists id. rewrite (parse_amount_com _ _ _ E2). apply must_find_known, E1.
Qed.
Definition pknown f (s : posting) : Prop := oknown f (ps_quantity s) /\ oknown f (ps_balance s).
Lemma add_last_known f ps ns ps' : Forall (pknown f) ps -> add_last_notes ps ns = Ok ps' -> Forall (pknown f) ps'.
Proof.
  intros F. unfold add_last_notes. destruct (rev ps) as [|s r] eqn:E; [discriminate|]. intros [= <-]. apply Forall_rev in F. rewrite E in F. inversion F as [|? ? F1 F2]; subst.
  apply Forall_app. split; [apply Forall_rev, F2|]. constructor; [exact F1|constructor].
Qed.
Lemma tx_loop_known e lines : forall nr tn ps pend r, tx_loop e lines nr tn ps pend = Ok r -> Forall (pknown (e_find e)) ps -> Forall (pknown (e_find e)) (snd (fst (fst r))).
Proof.
  induction lines as [|l rest IH]; intros nr tn ps pend r H F; cbn [tx_loop] in H.
  - injection H as <-. exact F.
  - destruct (rsearch postingREX l) as [[rs cs]|]; [|injection H as <-; exact F]. destruct (cap "note" cs); [|eapply IH; eassumption].
    apply bind_ok in H as (q & E1 & H). apply bind_ok in H as ([tn1 ps1] & E2 & H). apply bind_ok in H as (b & E3 & H).
    eapply IH; [exact H|]. cbn [snd]. apply Forall_app. split.
    + destruct pend; [injection E2 as <- <-; exact F|]. destruct ps as [|p0 ps0]; [injection E2 as <- <-; exact F|].
      apply bind_ok in E2 as (ps' & E4 & E2). injection E2 as <- <-. eapply add_last_known; eassumption.
    + constructor; [|constructor]. split; cbn [ps_quantity ps_balance].
      * destruct (cap "amount1" cs); [injection E1 as <-; intros ? [=]|]. eapply read_known, E1.
      * destruct (cap "amount2" cs); [injection E3 as <-; intros ? [=]|]. eapply read_known, E3.
Qed.
Lemma next_known e p t d q : next e p = Ok (Some (ITransaction t, d, q)) -> Forall (pknown (e_find e)) (t_postings t).
Proof.
  destruct p as [lines nr]. unfold next. cbn [p_lines p_nr]. revert nr. induction lines as [|l rest IH]; intros nr H; [discriminate|]. cbn [next_lines] in H.
  destruct (blank l); [eapply IH; eassumption|]. destruct l as [|c l]; [discriminate|]. destruct (existsb (eqc c) (B ";#%|*")); [eapply IH; eassumption|]. clear IH.
  destruct (has_prefix (B "include") (c :: l)).
  { unfold parse_include in H. destruct (rsearch includeHead (c :: l)) as [[rs cs]|]; discriminate. }
  destruct (has_prefix (B "account") (c :: l)); [unbind H; discriminate|]. destruct (has_prefix (B "commodity ") (c :: l)); [unbind H; discriminate|].
  destruct (has_prefix (B "test ") (c :: l)); [unbind H; discriminate|]. destruct (has_prefix (B "P ") (c :: l)); [unbind H; discriminate|].
  destruct (is_digit c); [|discriminate]. unbind H. injection H as <- _ _. unfold parse_transaction in E. destruct (rsearch transactionREX (c :: l)) as [[rs cs]|]; [|discriminate].
  apply bind_ok in E as (posted & _ & E). apply bind_ok in E as ([[[tn ps] pend] p1] & E1 & E). apply bind_ok in E as (ps' & E2 & E). injection E as <-. cbn [fst t_postings].
  apply tx_loop_known in E1; [|constructor]. cbn [fst snd] in E1. destruct pend; [injection E2 as <-; exact E1|]. eapply add_last_known; eassumption.
Qed.
(** an amount of a transaction of the database is in a commodity known where it stands *)
Definition known_tx (before es : list event) : Prop := forall es1 v es2 t, es = es1 ++ v :: es2 -> ev_item v = ITransaction t ->
  Forall (pknown (known (before ++ es1))) (t_postings t).
Lemma entries_known w :
  (forall before fn es, file_entries w before fn es -> known_tx before es) /\
  (forall before fn p es, text_entries w before fn p es -> known_tx before es) /\
  (forall before files es, all_entries w before files es -> known_tx before es).
Proof.
  assert (Happ : forall before l1 l2, known_tx before l1 -> known_tx (before ++ l1) l2 -> known_tx before (l1 ++ l2)).
  { intros before l1 l2 H1 H2 es1 v es2 t E Ev.
    destruct (app_eq_app _ _ _ _ E) as (m & [[-> E2]|[-> E2]]).
    - destruct m as [|u m]; [cbn [app] in E2; specialize (H2 [] v es2 t (eq_sym E2) Ev); rewrite !app_nil_r in H2; exact H2|].
      injection E2 as <- E2. eapply H1; [reflexivity|exact Ev].
    - rewrite app_assoc. eapply H2; [exact E2|exact Ev]. }
  apply entries_ind; auto.
  - intros before fn p _ es1 v es2 t E. destruct es1; discriminate.
  - intros before fn p i dflt p' es En Ei _ IH. change (mkEvent fn i dflt :: es) with ([mkEvent fn i dflt] ++ es). apply Happ; [|exact IH].
    intros es1 v es2 t E Ev. destruct es1 as [|u es1]; [|destruct es1; discriminate]. injection E as <- _. cbn [ev_item] in Ev. subst i. rewrite app_nil_r.
    apply next_known in En. exact En.
  - intros before es1 v es2 t E. destruct es1; discriminate.
Qed.
Lemma known_single n found es id : List.length (ev_comms es) = O -> known_from n found es id = found.
Proof.
  revert n found. induction es as [|v es IH]; intros n found H; [reflexivity|]. cbn [known_from ev_comms flat_map] in *. destruct (ev_item v); try (apply IH; exact H). discriminate.
Qed.
Lemma known_from_one n found es c : ev_comms es = [c] -> forall id x, known_from n found es id = Some x ->
  x = mkCommodity n (pc_id c) (pc_dec c) \/ found = Some x.
Proof.
  revert n found. induction es as [|v es IH]; intros n found H id x K; [discriminate|]. cbn [known_from ev_comms flat_map] in *.
  destruct (ev_item v); try (eapply IH; [exact H|exact K]). cbn [app] in H. injection H as -> H. rewrite known_single in K; [|unfold ev_comms; rewrite H; reflexivity].
  destruct (eqb_bytes id (pc_id c)); [injection K as <-; auto|auto].
Qed.
Lemma ev_comms_app es1 es2 : ev_comms (es1 ++ es2) = ev_comms es1 ++ ev_comms es2.
Proof. apply flat_map_app. Qed.
Lemma known_prefix_one es1 es2 c id x : ev_comms (es1 ++ es2) = [c] -> known es1 id = Some x -> x = mkCommodity 0 (pc_id c) (pc_dec c).
Proof.
  rewrite ev_comms_app. intros H K. destruct (ev_comms es1) as [|c1 l] eqn:E.
  - unfold known in K. rewrite known_single in K; [discriminate|]. rewrite E. reflexivity.
  - injection H as <- H. apply app_eq_nil in H as [-> _]. destruct (known_from_one 0 None es1 c1 E id x K) as [->|]; [reflexivity|discriminate].
Qed.

(** ** paths *)
Lemma plain_not p : plain_part p -> eqb_bytes p [] = false /\ eqb_bytes p (B ".") = false /\ eqb_bytes p (B "..") = false.
Proof.
  intros (H1 & H2 & H3 & _). repeat split.
  all: match goal with |- ?x = false => destruct x eqn:E; [apply eqb_bytes_eq in E; contradiction|reflexivity] end.
Qed.
Lemma clean_parts_plain r ps : forall out, Forall plain_part ps -> clean_parts r out ps = rev out ++ ps.
Proof.
  induction ps as [|p ps IH]; intros out F; cbn [clean_parts]; [rewrite app_nil_r; reflexivity|]. inversion F as [|? ? F1 F2]; subst.
  destruct (plain_not p F1) as (E1 & E2 & E3). rewrite E1, E2, E3. cbn [orb]. rewrite IH by exact F2. cbn [rev]. rewrite <- app_assoc. reflexivity.
Qed.
Lemma clean_parts_app r out ps qs : clean_parts r out (ps ++ qs) = clean_parts r (rev (clean_parts r out ps)) qs.
Proof.
  revert out. induction ps as [|p ps IH]; intros out; cbn [app clean_parts]; [rewrite rev_involutive; reflexivity|].
  destruct (eqb_bytes p [] || eqb_bytes p (B ".")); [apply IH|]. destruct (eqb_bytes p (B "..")); [|apply IH].
  destruct out as [|q out]; [destruct r; apply IH|]. destruct (eqb_bytes q (B "..")); apply IH.
Qed.
Lemma not_rooted ps : Forall plain_part ps -> is_rooted (join [slash] ps) = false.
Proof.
  destruct ps as [|p ps]; [reflexivity|]. intros F. inversion F as [|? ? F1 F2]; subst. destruct F1 as (H1 & _ & _ & H4). destruct p as [|c p]; [congruence|].
  assert (E : eqc c slash = false). { destruct (eqc c slash) eqn:E; [|reflexivity]. apply Ascii.eqb_eq in E. subst. exfalso. apply H4. left. reflexivity. }
  destruct ps; exact E.
Qed.
Lemma plain_noslash ps : Forall plain_part ps -> Forall (fun p => ~ In slash p) ps.
Proof. apply Forall_impl. intros p (_ & _ & _ & H). exact H. Qed.
Lemma clean_plain ps : ps <> [] -> Forall plain_part ps -> clean (join [slash] ps) = join [slash] ps.
Proof.
  intros N F. unfold clean. rewrite not_rooted, split_join by (auto using plain_noslash). rewrite clean_parts_plain by exact F. cbn [rev app]. destruct ps; [congruence|reflexivity].
Qed.
(** the directory of a relative file name *)
Definition dir_parts (ps : list bytes) : bytes := match ps with [] => B "." | _ => join [slash] ps end.
Lemma join_snoc_empty ps : ps <> [] -> join [slash] ps ++ [slash] = join [slash] (ps ++ [[]]).
Proof.
  induction ps as [|p ps IH]; [congruence|]. intros _. destruct ps as [|q ps]; [reflexivity|]. cbn [app]. change (join [slash] (p :: q :: ps)) with (p ++ [slash] ++ join [slash] (q :: ps)).
  change (join [slash] (p :: q :: ps ++ [[]])) with (p ++ [slash] ++ join [slash] ((q :: ps) ++ [[]])). rewrite <- IH by discriminate. rewrite <- !app_assoc. reflexivity.
Qed.
Lemma dir_plain ps b : Forall plain_part ps -> plain_part b -> dir (join [slash] (ps ++ [b])) = dir_parts ps.
Proof.
  intros F Fb. unfold dir. assert (Fa : Forall plain_part (ps ++ [b])) by (apply Forall_app; auto).
  rewrite split_join by (try (destruct ps; discriminate); auto using plain_noslash). rewrite removelast_last.
  destruct ps as [|p ps]; [reflexivity|]. unfold clean. rewrite join_snoc_empty by discriminate.
  assert (R : is_rooted (join [slash] ((p :: ps) ++ [[]])) = false).
  { rewrite <- join_snoc_empty by discriminate. assert (R := not_rooted (p :: ps) F). destruct (join [slash] (p :: ps)) as [|c s] eqn:Ej; [|exact R].
    exfalso. inversion F as [|? ? F1 _]; subst. destruct F1 as (H1 & _). destruct ps; [cbn in Ej; congruence|]. cbn [join] in Ej. destruct p; [congruence|discriminate]. }
  rewrite R, split_join; [|destruct ps; discriminate|]. 2: { apply Forall_app. split; [apply plain_noslash, F|]. constructor; [intros []|constructor]. }
  rewrite clean_parts_app, (clean_parts_plain false (p :: ps) [] F). cbn [rev app]. cbn [clean_parts eqb_bytes orb]. rewrite rev_app_distr, rev_involutive. reflexivity.
Qed.
Lemma join_app_parts ps qs : ps <> [] -> qs <> [] -> join [slash] ps ++ slash :: join [slash] qs = join [slash] (ps ++ qs).
Proof.
  induction ps as [|p ps IH]; [congruence|]. intros _ Nq. destruct ps as [|p2 ps].
  - destruct qs as [|q qs]; [congruence|]. reflexivity.
  - change (join [slash] (p :: p2 :: ps)) with (p ++ [slash] ++ join [slash] (p2 :: ps)).
    change (join [slash] ((p :: p2 :: ps) ++ qs)) with (p ++ [slash] ++ join [slash] ((p2 :: ps) ++ qs)). rewrite <- IH by (try discriminate; exact Nq). rewrite <- !app_assoc. reflexivity.
Qed.
(** "../" [ups] times *)
Definition up (n : nat) (qs : list bytes) : list bytes := repeat (B "..") n ++ qs.
Lemma clean_ups n : forall out qs, Forall plain_part out -> (n <= List.length out)%nat -> Forall plain_part qs ->
  clean_parts false out (up n qs) = rev (skipn n out) ++ qs.
Proof.
  induction n as [|n IH]; intros out qs Fo Hn Fq; cbn [up repeat app skipn]; [apply clean_parts_plain, Fq|].
  destruct out as [|o out]; [cbn in Hn; lia|]. inversion Fo as [|? ? F1 F2]; subst. cbn [clean_parts eqb_bytes orb]. 
  destruct (plain_not o F1) as (_ & _ & E3).
  replace (eqb_bytes (B "..") [] || eqb_bytes (B "..") (B ".")) with false by reflexivity. replace (eqb_bytes (B "..") (B "..")) with true by reflexivity. rewrite E3.
  apply IH; [exact F2|cbn in Hn; lia|exact Fq].
Qed.
(** the same below the root of the file system, where ".." stays *)
Lemma clean_ups_root n : forall out qs, Forall plain_part out -> Forall plain_part qs -> clean_parts true out (up n qs) = rev (skipn n out) ++ qs.
Proof.
  induction n as [|n IH]; intros out qs Fo Fq; cbn [up repeat app skipn]; [apply clean_parts_plain, Fq|]. cbn [clean_parts].
  replace (eqb_bytes (B "..") [] || eqb_bytes (B "..") (B ".")) with false by reflexivity. replace (eqb_bytes (B "..") (B "..")) with true by reflexivity.
  destruct out as [|o out]; [change (clean_parts true [] (up n qs) = [] ++ qs); rewrite (IH [] qs) by assumption; rewrite skipn_nil; reflexivity|]. inversion Fo as [|? ? F1 F2]; subst.
  destruct (plain_not o F1) as (_ & _ & E3). rewrite E3. apply IH; assumption.
Qed.
Lemma split_root x : split_on slash (slash :: x) = [] :: split_on slash x.
Proof. cbn [split_on]. unfold eqc. rewrite Ascii.eqb_refl. reflexivity. Qed.
Lemma split_parts ps : Forall plain_part ps -> split_on slash (join [slash] ps) = match ps with [] => [[]] | _ => ps end.
Proof. intros F. destruct ps; [reflexivity|]. apply split_join; [discriminate|apply plain_noslash, F]. Qed.
Lemma clean_root x : clean (slash :: x) = slash :: join [slash] (clean_parts true [] (split_on slash x)).
Proof.
  unfold clean. rewrite split_root. replace (is_rooted (slash :: x)) with true by reflexivity. cbv zeta. cbn [clean_parts].
  replace (eqb_bytes [] [] || eqb_bytes [] (B ".")) with true by reflexivity. reflexivity.
Qed.
Lemma clean_parts_empty r out ps : clean_parts r out ([] :: ps) = clean_parts r out ps.
Proof. reflexivity. Qed.
Lemma dir_root ps b : Forall plain_part ps -> plain_part b -> dir (slash :: join [slash] (ps ++ [b])) = slash :: join [slash] ps.
Proof.
  intros F Fb. unfold dir. assert (Fa : Forall plain_part (ps ++ [b])) by (apply Forall_app; auto).
  rewrite split_root, split_parts by exact Fa. destruct (ps ++ [b]) as [|x l] eqn:E; [destruct ps; discriminate|]. rewrite <- E in *. clear E x l.
  change ([] :: ps ++ [b]) with (([] :: ps) ++ [b]). rewrite removelast_last. cbv iota beta.
  destruct ps as [|p ps]; [reflexivity|]. 
  change (join [slash] ([] :: p :: ps) ++ [slash]) with (slash :: (join [slash] (p :: ps) ++ [slash])). rewrite clean_root. f_equal. f_equal.
  change (join [slash] (p :: ps) ++ [slash]) with (join [slash] (p :: ps) ++ slash :: []). rewrite L_Report.split_app, split_parts by exact F. rewrite clean_parts_app, (clean_parts_plain true (p :: ps) [] F).
  change (rev [] ++ p :: ps) with (p :: ps). cbn [split_on]. rewrite clean_parts_empty. cbn [clean_parts]. rewrite rev_involutive. reflexivity.
Qed.
Lemma join_dotdot_root ps b n qs : Forall plain_part ps -> plain_part b -> Forall plain_part qs -> qs <> [] ->
  join_path (dir (slash :: join [slash] (ps ++ [b]))) (join [slash] (up n qs)) = slash :: join [slash] (firstn (List.length ps - n) ps ++ qs).
Proof.
  intros F Fb Fq Nq. rewrite dir_root by assumption.
  assert (Fu : Forall (fun p => ~ In slash p) (up n qs)).
  { unfold up. apply Forall_app. split; [|apply plain_noslash, Fq]. apply Forall_forall. intros x Hx. apply repeat_spec in Hx. subst x. intros [K|[K|[]]]; discriminate. }
  assert (Nu : up n qs <> []) by (unfold up; destruct n; [exact Nq|discriminate]).
  assert (E : clean ((slash :: join [slash] ps) ++ slash :: join [slash] (up n qs)) = slash :: join [slash] (firstn (List.length ps - n) ps ++ qs)).
  { change ((slash :: join [slash] ps) ++ slash :: join [slash] (up n qs)) with (slash :: (join [slash] ps ++ slash :: join [slash] (up n qs))). rewrite clean_root. f_equal. f_equal.
    rewrite L_Report.split_app, (split_join slash (up n qs) Nu Fu), clean_parts_app, split_parts by exact F.
    assert (C : clean_parts true [] match ps with [] => [[]] | _ => ps end = ps) by (destruct ps as [|p ps]; [reflexivity|]; rewrite clean_parts_plain by exact F; reflexivity).
    rewrite C, clean_ups_root by (try apply Forall_rev; assumption). rewrite skipn_rev, rev_involutive. reflexivity. }
  unfold join_path. destruct (join [slash] (up n qs)) as [|c0 s0] eqn:Ej; [|exact E]. exfalso.
  assert (S : split_on slash (join [slash] (up n qs)) = up n qs) by (apply split_join; assumption). rewrite Ej in S. cbn in S. unfold up in S. destruct n; [cbn in S|discriminate].
  destruct qs as [|q qs]; [congruence|]. injection S as <- _. inversion Fq as [|? ? G _]; subst. destruct G as [G _]. congruence.
Qed.
Lemma join_dotdot ps b n qs : Forall plain_part ps -> plain_part b -> Forall plain_part qs -> qs <> [] -> (n <= List.length ps)%nat ->
  join_path (dir (join [slash] (ps ++ [b]))) (join [slash] (up n qs)) = join [slash] (firstn (List.length ps - n) ps ++ qs).
Proof.
  intros F Fb Fq Nq Hn. rewrite dir_plain by assumption.
  assert (Nu : up n qs <> []) by (unfold up; destruct n; [exact Nq|discriminate]).
  assert (Nj : join [slash] (up n qs) <> []).
  { assert (H1 : up n qs <> []) by exact Nu. intros E. assert (S : split_on slash (join [slash] (up n qs)) = up n qs).
    { apply split_join; [exact Nu|]. unfold up. apply Forall_app. split; [|apply plain_noslash, Fq]. apply Forall_forall. intros x Hx. apply repeat_spec in Hx. subst x. intros [K|[K|[]]]; discriminate. }
    rewrite E in S. cbn in S. unfold up in S. destruct n; [cbn in S|discriminate]. destruct qs as [|q qs]; [discriminate|]. injection S as <- _. inversion Fq as [|? ? G _]; subst. destruct G as [G _]. congruence. }
  unfold join_path. destruct (join [slash] (up n qs)) as [|c0 s0] eqn:Ej; [congruence|]. rewrite <- Ej. clear Ej c0 s0 Nj.
  assert (Fu : Forall (fun p => ~ In slash p) (up n qs)).
  { unfold up. apply Forall_app. split; [|apply plain_noslash, Fq]. apply Forall_forall. intros x Hx. apply repeat_spec in Hx. subst x. intros [K|[K|[]]]; discriminate. }
  assert (Res : firstn (List.length ps - n) ps ++ qs <> []) by (destruct qs; [congruence|]; intros E; apply app_eq_nil in E as [_ E]; discriminate).
  destruct ps as [|p ps].
  - assert (n = 0)%nat by (cbn in Hn; lia). subst n. cbn [dir_parts List.length Nat.sub firstn app up repeat].
    unfold clean. cbn [B list_ascii_of_string app is_rooted]. replace (eqc "."%char slash) with false by reflexivity.
    change ("."%char :: slash :: join [slash] qs) with (B "." ++ slash :: join [slash] qs). rewrite split_on_cons by (intros c [<-|[]]; discriminate). cbn [clean_parts].
    replace (eqb_bytes (B ".") [] || eqb_bytes (B ".") (B ".")) with true by reflexivity. rewrite split_join by (auto using plain_noslash). rewrite clean_parts_plain by exact Fq.
    cbn [rev app]. destruct qs; [congruence|reflexivity].
  - cbn [dir_parts]. rewrite join_app_parts by (try discriminate; exact Nu). unfold clean.
    assert (R : is_rooted (join [slash] ((p :: ps) ++ up n qs)) = false).
    { rewrite <- join_app_parts by (try discriminate; exact Nu). assert (R := not_rooted (p :: ps) F). destruct (join [slash] (p :: ps)) as [|c s] eqn:Ej; [|exact R].
      exfalso. inversion F as [|? ? F1 _]; subst. destruct F1 as (H1 & _). destruct ps; [cbn in Ej; congruence|]. cbn [join] in Ej. destruct p; [congruence|discriminate]. }
    rewrite R, split_join; [|discriminate|apply Forall_app; split; [apply plain_noslash, F|exact Fu]].
    rewrite clean_parts_app, (clean_parts_plain false (p :: ps) [] F). cbn [rev app]. change (rev ps ++ [p]) with (rev (p :: ps)).
    rewrite clean_ups; [|apply Forall_rev, F|rewrite rev_length; exact Hn|exact Fq].
    rewrite skipn_rev, rev_involutive. destruct (firstn (List.length (p :: ps) - n) (p :: ps) ++ qs); [congruence|reflexivity].
Qed.
