(** Lemmas for C103: what is exported is loaded. *)
From Coq Require Import Permutation Sorted.
From Verif Require Import Base M_Amount M_Date M_Parser M_Writer M_Names M_Tags M_Ledger S_Books S_Names L_Sort L_Names L_Tags L_Dec L_Listing L_Resolve L_Entries L_Tree L_Listing2 M_Csv L_Csv2 M_Json L_Json M_Web L_Web M_Page S_Page.
Local Open Scope Z_scope.

Ltac jg := repeat (progress (cbn [app jget]; repeat match goal with |- context [eqb_bytes (B ?x) (B ?y)] =>
   let b := eval vm_compute in (eqb_bytes (B x) (B y)) in change (eqb_bytes (B x) (B y)) with b end; cbv iota)).

(** ** amounts *)
Definition page_com (c : commodity) : commodity := mkCommodity 0 (c_id c) (c_dec c).
Definition page_amount (a : amount) : amount := mkAmount (a_int a) (page_com (a_com a)).
Lemma page_same a : same_amount a (page_amount a).
Proof. repeat split. Qed.
Lemma page_text a : web_string false a = web_string false (page_amount a).
Proof. reflexivity. Qed.
Lemma com_by_id_in coms id c : com_by_id coms id = Some c -> In c coms /\ c_id c = id.
Proof.
  induction coms as [|k coms IH]; [discriminate|]. cbn [com_by_id]. destruct (eqb_bytes (c_id k) id) eqn:E.
  - intros H. injection H as <-. apply eqb_bytes_eq in E. split; [left; reflexivity|exact E].
  - intros H. destruct (IH H). split; [right; assumption|assumption].
Qed.
Lemma com_by_id_found coms c : NoDup (map c_id coms) -> In c coms -> com_by_id coms (c_id c) = Some c.
Proof.
  intros N I. destruct (com_by_id coms (c_id c)) as [k|] eqn:E.
  - f_equal. apply com_by_id_in in E as [E1 E2]. clear - N I E1 E2. induction coms as [|x coms IH]; [destruct I|]. cbn [map] in N. inversion_clear N as [|? ? N1 N2].
    destruct I as [->|I], E1 as [->|E1]; auto; exfalso; apply N1; [rewrite <- E2|rewrite E2]; apply in_map; assumption.
  - exfalso. clear N. induction coms as [|x coms IH]; [destruct I|]. cbn [com_by_id] in E. destruct (eqb_bytes (c_id x) (c_id c)) eqn:Ex; [discriminate|].
    destruct I as [->|I]; [rewrite eqb_bytes_refl in Ex; discriminate|auto].
Qed.

(** ** commodities *)
Lemma load_commodity_json code name location c : load_commodity (commodity_json code name location c) = Ok (page_com c).
Proof.
  unfold load_commodity, commodity_json, need_text, text_field, field.
  destruct code as [|c1 code], location as [|c2 location]; cbn [entry]; jg; cbn [bind]; jg; cbn [bind]; rewrite Nat2Z.id; reflexivity.
Qed.
Lemma data_parse v : json_parse (data_text v) = Some v.
Proof. unfold data_text. apply json_round_trip; reflexivity. Qed.
Lemma loaded_commodities about coms : NoDup (map c_id coms) ->
  exists l, load_commodities (data_text (commodities_json about coms)) = Ok l /\ forall c, In c coms -> page_find l (c_id c) = Some (page_com c).
Proof.
  intros N. unfold load_commodities, commodities_json. rewrite data_parse. cbn [values bind]. rewrite map_map. cbn [snd].
  set (ids := sort_strings (map c_id coms)).
  assert (P : Permutation ids (map c_id coms)) by (symmetry; apply sort_strings_perm).
  assert (F : forall l, (forall id, In id l -> In id (map c_id coms)) -> exists ks, res_map load_commodity (map (fun id => match com_by_id coms id with
     | Some c => let '(code, name, location) := about c in commodity_json code name location c | None => JNull end) l) = Ok ks /\
     map c_id ks = l /\ Forall (fun k => exists c, In c coms /\ k = page_com c) ks).
  { induction l as [|id l IH]; intros H; [exists []; repeat split; constructor|]. destruct IH as (ks & E1 & E2 & E3); [intros; apply H; right; assumption|].
    assert (I : In id (map c_id coms)) by (apply H; left; reflexivity). apply in_map_iff in I as (c & <- & I).
    cbn [map res_map]. rewrite (com_by_id_found _ _ N I). destruct (about c) as [[code name] location]. rewrite load_commodity_json. cbn [bind]. rewrite E1. cbn [bind].
    exists (page_com c :: ks). split; [reflexivity|]. split; [cbn [map]; rewrite E2; reflexivity|]. constructor; eauto. }
  destruct (F ids) as (ks & E1 & E2 & E3); [intros id I; eapply Permutation_in; [exact P|exact I]|].
  exists ks. split; [exact E1|]. intros c I. unfold page_find.
  change (c_id c) with (c_id (page_com c)). apply com_by_id_found.
  - rewrite map_rev. eapply Permutation_NoDup; [apply Permutation_rev|]. rewrite E2. eapply Permutation_NoDup; [symmetry; exact P|exact N].
  - apply in_rev. rewrite rev_involutive. assert (Ik : In (c_id c) (map c_id ks)) by (rewrite E2; eapply Permutation_in; [symmetry; exact P|apply in_map, I]).
    apply in_map_iff in Ik as (k & Ek & Ik). rewrite Forall_forall in E3. destruct (E3 k Ik) as (c' & I' & ->). cbn [c_id page_com] in Ek.
    assert (c' = c) as ->; [|exact Ik]. pose proof (com_by_id_found _ _ N I) as X1. pose proof (com_by_id_found _ _ N I') as X2. congruence.
Qed.

(** ** fields *)
Lemma account_name T info a : text_field (B "name") (account_json T info a) = Ok (Some (snd (parent_and_name a))).
Proof. unfold text_field, field, account_json. destruct (in_closed _), (in_code _), (in_location _), (t_parent T a); cbn [entry]; jg; reflexivity. Qed.
Lemma account_full T info a : need_text (B "fullName") (account_json T info a) = Ok a.
Proof. unfold need_text, text_field, field, account_json. destruct (in_closed _), (in_code _), (in_location _), (t_parent T a); cbn [entry]; jg; reflexivity. Qed.
Lemma account_com T info a : need_text (B "commodity") (account_json T info a) = Ok (c_id (in_com (info a))).
Proof. unfold need_text, text_field, field, account_json. destruct (in_closed _), (in_code _), (in_location _), (t_parent T a); cbn [entry]; jg; reflexivity. Qed.
Lemma account_parent T info a : text_field (B "parent") (account_json T info a) = Ok (t_parent T a).
Proof. unfold text_field, field, account_json. destruct (in_closed _), (in_code _), (in_location _), (t_parent T a); cbn [entry]; jg; reflexivity. Qed.
Lemma account_closed T info a : text_field (B "closed") (account_json T info a) = Ok (match in_closed (info a) with Some d => Some (format_date d) | None => None end).
Proof. unfold text_field, field, account_json. destruct (in_closed _), (in_code _), (in_location _), (t_parent T a); cbn [entry]; jg; reflexivity. Qed.
Definition opt_text (s : bytes) : option bytes := match s with [] => None | _ => Some s end.
Lemma account_location T info a : text_field (B "location") (account_json T info a) = Ok (opt_text (in_location (info a))).
Proof. unfold text_field, field, account_json. destruct (in_closed _), (in_code _), (in_location _), (t_parent T a); cbn [entry]; jg; reflexivity. Qed.
Lemma date_text d : plain_year d -> js_date (format_date d) = Ok d.
Proof. intros H. unfold js_date. apply parse_ymd_ok. split; [reflexivity|exact H]. Qed.

(** ** accounts *)
Lemma leaf_of_name n : leaf_of n (snd (parent_and_name n)).
Proof.
  unfold parent_and_name. cbn [snd]. destruct (split_last_cases n) as [[N1 E]|(p & l & E1 & N2 & E2)].
  - rewrite E. cbn [last]. split; [exact N1|left; reflexivity].
  - rewrite E2, last_last. split; [exact N2|right; exists p; exact E1].
Qed.
Lemma prefix_less p s : s <> [] -> less_bytes p (p ++ s) = true.
Proof.
  intros N. induction p as [|c p IH]; [destruct s; [congruence|reflexivity]|]. cbn [app less_bytes]. rewrite Z.ltb_irrefl, Z.eqb_refl, IH. reflexivity.
Qed.
Lemma parent_less n p : parent_of n p -> p <> B "Root" -> less_bytes p n = true.
Proof.
  intros [(leaf & -> & _)|[E _]] N; [|congruence]. apply prefix_less. discriminate.
Qed.
Lemma earlier l1 a l2 p : sorted_by less_bytes (l1 ++ a :: l2) -> In p (l1 ++ a :: l2) -> less_bytes p a = true -> In p l1.
Proof.
  intros S I E. apply in_app_or in I as [I|[->|I]]; [exact I|rewrite less_bytes_irrefl in E; discriminate|]. exfalso.
  clear - S I E. induction l1 as [|x l1 IH]; cbn [app] in S; inversion_clear S as [|? ? S1 S2].
  - rewrite Forall_forall in S2. rewrite (S2 p I) in E. discriminate.
  - exact (IH S1).
Qed.

Section Accounts.
Variable coms : list commodity.
Variable T : tree.
Variable info : bytes -> account_info.
Variable accounts : list bytes.
Hypothesis Hok : accounts_ok coms T info accounts.
Variable pcoms : list commodity.
Hypothesis Hp : forall c, In c coms -> page_find pcoms (c_id c) = Some (page_com c).

Definition proper (a : bytes) : bool := negb (eqb_bytes a (B "Root")).
Definition top (a : bytes) : bool := proper a && match page_parent T a with None => true | Some _ => false end.
Definition child_of (p a : bytes) : bool := proper a && match page_parent T a with Some q => eqb_bytes q p | None => false end.
Definition acct (a : bytes) : pacct :=
  mkPacct (snd (parent_and_name a)) a (page_com (in_com (info a))) (page_parent T a) (in_closed (info a)) (opt_text (in_location (info a))).
Definition with_accounts (l : list bytes) (ch : bytes -> list bytes) : page :=
  mkPage pcoms (map acct (filter proper l)) (filter top l) ch (fun _ => []) [].
Lemma find_acct l a : find_account (map acct l) a = if existsb (eqb_bytes a) l then Some (acct a) else None.
Proof.
  induction l as [|x l IH]; [reflexivity|]. cbn [map find_account List.find existsb]. unfold find_account in *. cbn [pa_full acct].
  rewrite (eqb_sym a x). destruct (eqb_bytes x a) eqn:E; [apply eqb_bytes_eq in E; subst; reflexivity|]. exact IH.
Qed.
Lemma acct_shows a : In a accounts -> shows_account T info a (acct a).
Proof.
  intros I. repeat split; cbn [acct pa_full pa_name pa_com pa_parent pa_closed pa_location]; try reflexivity.
  - apply (leaf_of_name a).
  - apply (leaf_of_name a).
  - destruct (in_location (info a)); reflexivity.
Qed.
Lemma proper_in a l : existsb (eqb_bytes a) (filter proper l) = true <-> In a l /\ proper a = true.
Proof. rewrite existsb_exists. split; [intros (x & I & E); apply eqb_bytes_eq in E; subst; apply filter_In, I|intros H; exists a; split; [apply filter_In, H|apply eqb_bytes_refl]]. Qed.
Lemma load_account_step l1 a l2 ch : sort_strings accounts = l1 ++ a :: l2 -> (forall p, ch p = filter (child_of p) l1) ->
  exists ch', load_account (with_accounts l1 ch) (account_json T info a) = Ok (with_accounts (l1 ++ [a]) ch') /\ forall p, ch' p = filter (child_of p) (l1 ++ [a]).
Proof.
  intros El Hch. destruct Hok as (N & R & R0 & P & Q & C). assert (Ia : In a accounts).
  { eapply Permutation_in; [symmetry; apply sort_strings_perm|]. rewrite El. apply in_elt. }
  unfold load_account. rewrite account_name. cbn [bind]. destruct (eqb_bytes (snd (parent_and_name a)) (B "Root")) eqn:En.
  - apply eqb_bytes_eq in En. assert (a = B "Root") as -> by (apply Q; [exact Ia|rewrite <- En; apply leaf_of_name]).
    exists ch. split.
    + unfold with_accounts. rewrite !filter_app. change (filter proper [B "Root"]) with (@nil bytes). change (filter top [B "Root"]) with (@nil bytes). rewrite !app_nil_r. reflexivity.
    + intros p. rewrite filter_app. change (filter (child_of p) [B "Root"]) with (@nil bytes). rewrite app_nil_r. apply Hch.
  - assert (Na : a <> B "Root") by (intros ->; discriminate). assert (Pa : proper a = true).
    { unfold proper. destruct (eqb_bytes a (B "Root")) eqn:E; [apply eqb_bytes_eq in E; contradiction|reflexivity]. }
    destruct (P a Ia Na) as (p & Ep & Ip & Rp). destruct (C a Ia) as [C1 C2].
    rewrite account_parent, account_full, account_com, account_closed, account_location. cbn [bind]. cbn [pg_coms with_accounts]. rewrite (Hp _ C1).
    replace (match match in_closed (info a) with Some d => Some (format_date d) | None => None end with Some s => bind (js_date s) (fun d => Ok (Some d)) | None => Ok None end) with (Ok (in_closed (info a))).
    2:{ destruct (in_closed (info a)) as [d|] eqn:E; [|reflexivity]. rewrite date_text by (apply C2; reflexivity). reflexivity. }
    cbn [bind]. rewrite Ep. cbn [pg_accounts with_accounts]. rewrite find_acct.
    assert (EP : (if existsb (eqb_bytes p) (filter proper l1) then Some (acct p) else None) = match page_parent T a with Some q => Some (acct q) | None => None end).
    { unfold page_parent. rewrite Ep. destruct (eqb_bytes p (B "Root")) eqn:Er.
      - apply eqb_bytes_eq in Er. subst p. destruct (existsb _ _) eqn:X; [|reflexivity]. apply proper_in in X as [_ X]. discriminate.
      - replace (existsb (eqb_bytes p) (filter proper l1)) with true; [reflexivity|]. symmetry. apply proper_in. split; [|unfold proper; rewrite Er; reflexivity].
        apply (earlier l1 a l2); [rewrite <- El; apply sort_strings_sorted| |].
        + rewrite <- El. eapply Permutation_in; [apply sort_strings_perm|exact Ip].
        + apply parent_less; [exact Rp|]. intros ->. discriminate. }
    rewrite EP. exists (match page_parent T a with None => ch | Some q => updb ch q (ch q ++ [a]) end). split.
    + unfold with_accounts. rewrite !filter_app, map_app. cbn [filter]. rewrite Pa.
      assert (Ht : top a = match page_parent T a with None => true | Some _ => false end) by (unfold top; rewrite Pa; reflexivity). rewrite Ht. cbn [pg_roots pg_children pg_register pg_txs map].
      change (acct a) with (mkPacct (snd (parent_and_name a)) a (page_com (in_com (info a))) (page_parent T a) (in_closed (info a)) (opt_text (in_location (info a)))). destruct (page_parent T a) as [q|]; cbn [pa_full acct andb]; [rewrite app_nil_r|]; reflexivity.
    + intros q. rewrite filter_app. cbn [filter]. assert (Hc : child_of q a = match page_parent T a with Some r => eqb_bytes r q | None => false end) by (unfold child_of; rewrite Pa; reflexivity). rewrite Hc. destruct (page_parent T a) as [r|]; [|rewrite app_nil_r; apply Hch].
      unfold updb. rewrite (eqb_sym q r). destruct (eqb_bytes r q) eqn:E; [apply eqb_bytes_eq in E; subst; rewrite Hch; reflexivity|rewrite app_nil_r; apply Hch].
Qed.
Lemma load_accounts_all : exists ch, load_accounts (mkPage pcoms [] [] (fun _ => []) (fun _ => []) []) (data_text (accounts_json T info accounts)) =
  Ok (with_accounts (sort_strings accounts) ch) /\ forall p, ch p = filter (child_of p) (sort_strings accounts).
Proof.
  unfold load_accounts. rewrite data_parse. unfold accounts_json. cbn [values bind]. rewrite map_map. cbn [snd].
  assert (G : forall l2 l1 ch, sort_strings accounts = l1 ++ l2 -> (forall p, ch p = filter (child_of p) l1) ->
    exists ch', load_each load_account (with_accounts l1 ch) (map (account_json T info) l2) = Ok (with_accounts (l1 ++ l2) ch') /\ forall p, ch' p = filter (child_of p) (l1 ++ l2)).
  { induction l2 as [|a l2 IH]; intros l1 ch E H.
    - rewrite app_nil_r. exists ch. split; [reflexivity|exact H].
    - cbn [map load_each]. destruct (load_account_step l1 a l2 ch E H) as (ch' & E1 & H1). rewrite E1. cbn [bind].
      destruct (IH (l1 ++ [a]) ch') as (ch2 & E2 & H2); [rewrite <- app_assoc; exact E|exact H1|]. exists ch2. rewrite <- app_assoc in E2, H2. split; [exact E2|exact H2]. }
  destruct (G (sort_strings accounts) [] (fun _ => []) eq_refl (fun _ => eq_refl)) as (ch & E & H). exists ch. split; [exact E|exact H].
Qed.
End Accounts.

(** ** transactions *)
Section Transactions.
Variable coms : list commodity.
Variable accounts : list bytes.
Variable L : ledger.
Variable location : rtx -> bytes.
Hypothesis Hc : coms_ok coms.
Variable pg0 : page.
Hypothesis Hp : forall c, In c coms -> page_find (pg_coms pg0) (c_id c) = Some (page_com c).
Hypothesis Ha : forall a, In a accounts -> a <> B "Root" -> exists pa, find_account (pg_accounts pg0) a = Some pa /\ pa_full pa = a.

Definition some_amount (o : option amount) : amount := match o with Some a => page_amount a | None => mkAmount 0 (mkCommodity 0 [] 0) end.
Definition opt_list {A} (l : list A) : option (list A) := match l with [] => None | _ => Some l end.
Definition sorted_tags (t : tags) : list (bytes * bytes) := map (fun k => (k, match tag_get k t with Some v => v | None => [] end)) (tag_keys t).
Definition shown (i : nat) (p : nat) : pposting :=
  let v := heap L p in
  mkPpost i (rp_date v) (rp_acc v) (some_amount (rp_qty v)) (some_amount (rp_bal v)) (rp_asserted v) (opt_list (rp_notes v)) (Some (sorted_tags (parse_tags (rp_notes v)))).
Lemma parse_exportable q : exportable coms q -> marshal_amount q = Ok (web_string false q) /\ web_parse (page_find (pg_coms pg0)) (web_string false q) = Ok (page_amount q).
Proof.
  intros (H1 & H2 & H3). split; [apply marshal_text, H1|]. rewrite page_text, web_read.
  - change (a_int (page_amount q)) with (a_int q). rewrite to_num_exact by exact H2. reflexivity.
  - intros x I. exact (proj2 Hc _ x H3 I).
  - exact (Hp _ H3).
  - left. reflexivity.
Qed.
Lemma texts_json l : texts (strings_json l) = Ok l.
Proof. unfold texts, strings_json. induction l as [|x l IH]; [reflexivity|]. cbn [map res_map bind]. rewrite IH. reflexivity. Qed.
Lemma tags_parse ks (f : bytes -> bytes) : res_map (fun kv : bytes * json => match snd kv with JStr s => Ok (fst kv, s) | _ => Panic end) (map (fun k => (k, JStr (f k))) ks) = Ok (map (fun k => (k, f k)) ks).
Proof. induction ks as [|x l IH]; [reflexivity|]. cbn [map res_map bind snd fst]. rewrite IH. reflexivity. Qed.
(** pages that differ from pg0 only in the registers and transactions *)
Definition at_page (r : bytes -> list pposting) (ts : list ptx) : page := mkPage (pg_coms pg0) (pg_accounts pg0) (pg_roots pg0) (pg_children pg0) r ts.
Definition add_posts (r : bytes -> list pposting) (l : list pposting) : bytes -> list pposting := fun a => r a ++ filter (fun p => eqb_bytes (pp_account p) a) l.

Lemma posting_step r ts i p : posting_ok coms accounts L p -> exists v r', posting_json (heap L p) = Ok v /\
  load_posting (at_page r ts) i (rp_date (heap L p)) v = Ok (at_page r' ts, shown i p) /\ forall a, r' a = add_posts r [shown i p] a.
Proof.
  intros (H1 & H2 & (q & Eq & Xq) & (b & Eb & Xb)).
  destruct (parse_exportable q Xq) as [M1 M2]. destruct (parse_exportable b Xb) as [M3 M4].
  destruct (Ha _ H1 H2) as (pa & F1 & F2).
  unfold posting_json. rewrite Eq, Eb, M1, M3. cbn [bind]. eexists _, _. split; [reflexivity|]. split.
  - unfold load_posting, need_text, text_field, texts_field, tags_field, field.
    set (TG := tags_json (parse_tags (rp_notes (heap L p)))).
    assert (TGP : TG = JObj (map (fun k => (k, JStr (match tag_get k (parse_tags (rp_notes (heap L p))) with Some v => v | None => [] end))) (tag_keys (parse_tags (rp_notes (heap L p)))))) by reflexivity.
    clearbody TG.
    set (NT := match rp_notes (heap L p) with [] => [] | n => [(B "notes", strings_json n)] end).
    assert (N1 : jget (B "notes") (NT ++ [(B "quantity", JStr (web_string false q)); (B "tags", TG)]) = match rp_notes (heap L p) with [] => None | n => Some (strings_json n) end).
    { unfold NT. destruct (rp_notes (heap L p)); jg; reflexivity. }
    assert (N2 : jget (B "quantity") (NT ++ [(B "quantity", JStr (web_string false q)); (B "tags", TG)]) = Some (JStr (web_string false q))).
    { unfold NT. destruct (rp_notes (heap L p)); jg; reflexivity. }
    assert (N3 : jget (B "tags") (NT ++ [(B "quantity", JStr (web_string false q)); (B "tags", TG)]) = Some TG).
    { unfold NT. destruct (rp_notes (heap L p)); jg; reflexivity. }
    clearbody NT. jg. cbn [bind]. cbn [pg_accounts at_page]. rewrite F1. rewrite N2. cbn [bind pg_coms at_page]. rewrite M2. cbn [bind]. rewrite M4. cbn [bind].
    rewrite N1, N3. rewrite TGP.
    replace (match match rp_notes (heap L p) with [] => None | n => Some (strings_json n) end with Some j => bind (texts j) (fun t => Ok (Some t)) | None => Ok None end) with (Ok (opt_list (rp_notes (heap L p)))).
    2:{ destruct (rp_notes (heap L p)); [reflexivity|]. rewrite texts_json. reflexivity. }
    cbn [bind]. rewrite tags_parse. cbn [bind]. rewrite F2. unfold at_page. cbn [pg_coms pg_accounts pg_roots pg_children pg_register pg_txs]. unfold shown. rewrite Eq, Eb. reflexivity.
  - intros a. unfold updb, add_posts. cbn [filter]. cbn [pp_account shown pg_register at_page]. rewrite (eqb_sym a). destruct (eqb_bytes (rp_acc (heap L p)) a) eqn:E; [apply eqb_bytes_eq in E; subst a; unfold shown; rewrite Eq, Eb; reflexivity|rewrite app_nil_r; reflexivity].
Qed.
Lemma postings_step i d ps : (forall p, In p ps -> rp_date (heap L p) = d /\ posting_ok coms accounts L p) -> forall r ts,
  exists vs r', all_json (fun p => posting_json (heap L p)) ps = Ok vs /\ List.length vs = List.length ps /\
  load_postings (at_page r ts) i d vs = Ok (at_page r' ts, map (shown i) ps) /\ forall a, r' a = add_posts r (map (shown i) ps) a.
Proof.
  induction ps as [|p ps IH]; intros H r ts.
  - exists [], r. repeat split. intros a. unfold add_posts. cbn [map filter]. rewrite app_nil_r. reflexivity.
  - destruct (H p (or_introl eq_refl)) as [Hd Hq]. destruct (posting_step r ts i p Hq) as (v & r1 & E1 & E2 & E3). rewrite Hd in E2.
    destruct (IH (fun x I => H x (or_intror I)) r1 ts) as (vs & r2 & F1 & F2 & F3 & F4).
    exists (v :: vs), r2. cbn [all_json]. rewrite E1. cbn [bind]. rewrite F1. cbn [bind]. split; [reflexivity|]. split; [cbn [List.length]; rewrite F2; reflexivity|]. split.
    + cbn [load_postings]. rewrite E2. cbn [bind fst snd]. rewrite F3. reflexivity.
    + intros a. rewrite F4. unfold add_posts in *. rewrite E3. cbn [map filter]. rewrite <- app_assoc. destruct (eqb_bytes (pp_account (shown i p)) a); reflexivity.
Qed.
Definition shown_tx (i : nat) (x : rtx) : ptx := mkPtx (x_posted x) (x_desc x) (opt_list (x_notes x)) (opt_text (x_code x)) (opt_text (location x)) (map (shown i) (x_posts x)).
Lemma tx_step r ts x : tx_ok coms accounts L x -> exists v r', tx_json L location x = Ok v /\
  load_tx (at_page r ts) v = Ok (at_page r' (ts ++ [shown_tx (List.length ts) x])) /\ forall a, r' a = add_posts r (map (shown (List.length ts)) (x_posts x)) a.
Proof.
  intros (H1 & H2 & H3). destruct (postings_step (List.length ts) (x_posted x) (x_posts x) H3 r ts) as (vs & r' & E1 & E2 & E3 & E4).
  unfold tx_json. rewrite E1. cbn [bind]. eexists _, r'. split; [reflexivity|]. split; [|exact E4].
  assert (Ev : slice_json vs = JArr vs) by (destruct vs; [destruct (x_posts x); [congruence|discriminate]|reflexivity]). rewrite Ev. clear Ev.
  set (PJ := JArr vs). assert (HPJ : PJ = JArr vs) by reflexivity. clearbody PJ.
  set (TG := match parse_tags (x_notes x) with [] => [] | t => [(B "tags", tags_json t)] end).
  set (PS := JStr (format_date (x_posted x))). assert (HPS : PS = JStr (format_date (x_posted x))) by reflexivity. clearbody PS.
  set (obj := entry (B "code") (x_code x) ++ _).
  assert (G : forall k, jget k TG = None \/ k = B "tags").
  { intros k. unfold TG. destruct (parse_tags (x_notes x)) as [|t0 t]; [left; reflexivity|]. cbn [jget]. destruct (eqb_bytes (B "tags") k) eqn:E; [apply eqb_bytes_eq in E; right; auto|left; reflexivity]. }
  assert (O1 : jget (B "posted") obj = Some PS) by (unfold obj; destruct (x_code x), (location x), (x_notes x); cbn [entry]; jg; reflexivity).
  assert (O2 : jget (B "description") obj = Some (JStr (x_desc x))) by (unfold obj; destruct (x_code x), (location x), (x_notes x); cbn [entry]; jg; reflexivity).
  assert (O3 : jget (B "notes") obj = match x_notes x with [] => None | n => Some (strings_json n) end).
  { unfold obj. clearbody TG. destruct (x_code x), (location x), (x_notes x); cbn [entry]; jg; try reflexivity; (destruct (G (B "notes")) as [G1|G1]; [exact G1|discriminate]). }
  assert (O4 : jget (B "code") obj = match opt_text (x_code x) with Some s => Some (JStr s) | None => None end).
  { unfold obj. clearbody TG. destruct (x_code x), (location x), (x_notes x); cbn [entry]; jg; try reflexivity; (destruct (G (B "code")) as [G1|G1]; [exact G1|discriminate]). }
  assert (O5 : jget (B "location") obj = match opt_text (location x) with Some s => Some (JStr s) | None => None end).
  { unfold obj. clearbody TG. destruct (x_code x), (location x), (x_notes x); cbn [entry]; jg; try reflexivity; (destruct (G (B "location")) as [G1|G1]; [exact G1|discriminate]). }
  assert (O6 : jget (B "postings") obj = Some PJ) by (unfold obj; destruct (x_code x), (location x), (x_notes x); cbn [entry]; jg; reflexivity).
  clearbody obj. unfold load_tx, need_text, text_field, texts_field, field. rewrite O1, HPS. cbn [bind]. rewrite date_text by exact H1. cbn [bind]. rewrite O2. cbn [bind]. rewrite O3.
  replace (match match x_notes x with [] => None | n => Some (strings_json n) end with Some j => bind (texts j) (fun t => Ok (Some t)) | None => Ok None end) with (Ok (opt_list (x_notes x))).
  2:{ destruct (x_notes x); [reflexivity|]. rewrite texts_json. reflexivity. }
  cbn [bind]. rewrite O4, O5, O6, HPJ.
  replace (match match opt_text (x_code x) with Some s => Some (JStr s) | None => None end with Some (JStr s) => Ok (Some s) | None => Ok None | _ => Panic end) with (Ok (opt_text (x_code x))) by (destruct (opt_text (x_code x)); reflexivity).
  replace (match match opt_text (location x) with Some s => Some (JStr s) | None => None end with Some (JStr s) => Ok (Some s) | None => Ok None | _ => Panic end) with (Ok (opt_text (location x))) by (destruct (opt_text (location x)); reflexivity).
  cbn [bind]. change (pg_txs (at_page r ts)) with ts. rewrite E3. cbn [bind fst snd]. reflexivity.
Qed.
Fixpoint shown_txs (i : nat) (xs : list rtx) : list ptx := match xs with [] => [] | x :: r => shown_tx i x :: shown_txs (S i) r end.
Definition shown_posts (l : list ptx) : list pposting := flat_map pt_postings l.
Lemma txs_step xs : Forall (tx_ok coms accounts L) xs -> forall r ts, exists vs r', all_json (tx_json L location) xs = Ok vs /\ List.length vs = List.length xs /\
  load_each load_tx (at_page r ts) vs = Ok (at_page r' (ts ++ shown_txs (List.length ts) xs)) /\ forall a, r' a = add_posts r (shown_posts (shown_txs (List.length ts) xs)) a.
Proof.
  induction 1 as [|x xs Hx F IH]; intros r ts.
  - exists [], r. repeat split; [rewrite app_nil_r; reflexivity|]. intros a. unfold add_posts. cbn. rewrite app_nil_r. reflexivity.
  - destruct (tx_step r ts x Hx) as (v & r1 & E1 & E2 & E3). destruct (IH r1 (ts ++ [shown_tx (List.length ts) x])) as (vs & r2 & F1 & F2 & F3 & F4).
    exists (v :: vs), r2. cbn [all_json]. rewrite E1. cbn [bind]. rewrite F1. cbn [bind]. split; [reflexivity|]. split; [cbn [List.length]; rewrite F2; reflexivity|].
    rewrite app_length, Nat.add_1_r, <- app_assoc in F3. rewrite app_length in F4. rewrite Nat.add_1_r in F4. split.
    + cbn [load_each]. rewrite E2. cbn [bind]. rewrite F3. reflexivity.
    + intros a. rewrite F4. unfold add_posts in *. rewrite E3. cbn [shown_txs shown_posts flat_map pt_postings shown_tx]. rewrite filter_app, <- app_assoc. reflexivity.
Qed.
Lemma sorted_tags_in t k v : NoDup (map fst t) -> In (k, v) (sorted_tags t) <-> tag_get k t = Some v.
Proof.
  intros N. unfold sorted_tags. rewrite in_map_iff. split.
  - intros (x & E & I). injection E as -> E. unfold tag_keys in I. eapply Permutation_in in I; [|symmetry; apply sort_strings_perm]. apply in_map_iff in I as ([k' v'] & Ek & I). cbn in Ek. subst k'.
    apply tag_get_in in I; [|exact N]. rewrite I in E. congruence.
  - intros G. exists k. rewrite G. split; [reflexivity|]. unfold tag_keys. eapply Permutation_in; [apply sort_strings_perm|]. apply tag_get_in in G; [|exact N]. apply in_map_iff. exists (k, v). auto.
Qed.
Lemma shown_shows i p : posting_ok coms accounts L p -> shows L p (shown i p).
Proof.
  intros (_ & _ & (q & Eq & _) & (b & Eb & _)). unfold shows, shown. rewrite Eq, Eb. cbn.
  repeat split; try (eexists; split; [reflexivity|apply page_same]).
  - destruct (rp_notes (heap L p)); reflexivity.
  - intros G. apply sorted_tags_in in G; [exact G|]. apply parse_tags_nodup.
  - intros G. apply sorted_tags_in; [apply parse_tags_nodup|exact G].
Qed.
Lemma shown_txs_shows xs : Forall (tx_ok coms accounts L) xs -> forall i, Forall2 (shows_tx L) xs (shown_txs i xs).
Proof.
  induction 1 as [|x xs (_ & _ & Hx) F IH]; intros i; constructor; [|apply IH]. unfold shows_tx, shown_tx. cbn. repeat split.
  - destruct (x_code x); reflexivity.
  - destruct (x_notes x); reflexivity.
  - induction (x_posts x) as [|p l IHl]; constructor; [apply shown_shows, Hx; left; reflexivity|]. apply IHl. intros q I. apply Hx. right. exact I.
Qed.
Lemma shown_filter xs : Forall (tx_ok coms accounts L) xs -> forall i a, Forall2 (shows L) (made_to L a xs) (filter (fun p => eqb_bytes (pp_account p) a) (shown_posts (shown_txs i xs))).
Proof.
  unfold made_to. induction 1 as [|x xs (_ & _ & Hx) F IH]; intros i a; [constructor|]. cbn [flat_map shown_txs shown_posts pt_postings shown_tx]. rewrite !filter_app. apply Forall2_app; [|apply IH].
  induction (x_posts x) as [|p l IHl]; [constructor|]. cbn [map filter]. change (pp_account (shown i p)) with (rp_acc (heap L p)).
  assert (Hl : forall q, In q l -> rp_date (heap L q) = x_posted x /\ posting_ok coms accounts L q) by (intros q I; apply Hx; right; exact I).
  destruct (eqb_bytes (rp_acc (heap L p)) a); [|apply IHl, Hl]. constructor; [apply shown_shows, Hx; left; reflexivity|apply IHl, Hl].
Qed.
End Transactions.
