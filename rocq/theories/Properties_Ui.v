(** C114-C115: the controls of the coin2html page. *)
From Coq Require Import Permutation.
From Verif Require Import Base M_Amount S_Amount S_Decimal L_Dec M_Date S_Date M_Parser M_Names M_Tags M_Ledger S_Books L_Sort L_Resolve L_Load
  Properties_Tree Properties_Ledger M_Json M_Web L_Web M_Page S_Page L_Page Properties_Page M_Views S_Views L_Views L_Views2 Properties_Views M_Ui S_Ui L_Ui.
Local Open Scope Z_scope.

(** ** C114 *)
(** one action keeps the controls consistent *)
Lemma handle_ok mid pg s e : page_tree pg -> known_roots pg -> ui_ok pg s -> possible pg s e ->
  snd (handle mid pg s e) = false /\ ui_ok pg (fst (handle mid pg s e)).
Proof.
  intros T K Hs P. destruct Hs as (a & r & pr & l & E & R & F & C & V & Ag & L & U & FL & PT & FE).
  assert (Go : forall s', pre_ok pg s' -> snd (update_view pg s') = false /\ ui_ok pg (fst (update_view pg s'))).
  { intros s' H. destruct (update_view_ok pg T s' H) as (H1 & H2 & _). auto. }
  assert (Root : forall s' b, u_sel s' = Some b -> (exists pb, find_account (pg_accounts pg) b = Some pb) -> snd (update_accounts mid pg s') = false /\ ui_ok pg (fst (update_accounts mid pg s'))).
  { intros s' b H1 H2. destruct (update_accounts_ok mid pg T s' b K H1 H2) as (X1 & X2 & _). auto. }
  assert (Acc : forall b, under pg l b -> snd (update_account pg (set_sel s (Some b))) = false /\ ui_ok pg (fst (update_account pg (set_sel s (Some b))))).
  { intros b Ub. assert (Rb : root_above pg b r) by (apply (root_above_under pg T l b r Ub), (root_above_under pg T l a r U), R).
    destruct (update_account_ok pg T (set_sel s (Some b)) b r pr l) as (X1 & X2 & _); cbn; auto. }
  assert (KA : exists pa, find_account (pg_accounts pg) a = Some pa) by (eapply root_known; eassumption).
  assert (KL : forall b, In b (u_list s) -> exists pb, find_account (pg_accounts pg) b = Some pb).
  { intros b I. rewrite Forall_forall in FL. eapply under_known; [exact T|exact (FL b I)|]. eapply under_up; [exact T|exact U|exact KA]. }
  destruct e; cbn [handle possible] in *.
  - apply (Root _ a0); [reflexivity|]. destruct (proj1 T a0 P) as (pa & Fa & _). eauto.
  - apply Acc. rewrite Forall_forall in FL. exact (FL a0 P).
  - apply (Root _ a0); [reflexivity|]. exact (KL a0 P).
  - apply (path_under pg T _ _ PT) in P. change (u_root (set_sel s (Some a0))) with (u_root s). rewrite L.
    destruct (is_parent_of pg (height l) a0 l) eqn:Ip.
    + apply (Root _ a0); [reflexivity|]. eapply under_up; [exact T|exact P|exact KA].
    + apply Acc. destruct (linear pg T a0 l a P U) as [X|X]; [|exact X]. destruct (under_cases pg a0 l X) as [->|St]; [constructor|].
      apply (is_parent_spec pg T (height l)) in St; [congruence|unfold height; lia|]. eapply under_up; [exact T|exact U|exact KA].
  - destruct P as (x & Ex & Ux). rewrite E in Ex. injection Ex as <-. apply Acc. eapply under_trans; eassumption.
  - apply Go. exists a, r, pr, l. cbn. repeat (split; [assumption|]). assumption.
  - apply Go. exists a, r, pr, l. unfold update_aggregation. cbn. destruct (u_agg s); cbn; repeat (split; [assumption|]); assumption.
  - apply Go. exists a, r, pr, l. unfold update_aggregation. cbn. destruct (u_agg s); cbn; repeat (split; [assumption|]); assumption.
  - apply (Root _ a); [exact E|exact KA].
  - apply Go. exists a, r, pr, l. cbn. repeat (split; [assumption|]). assumption.
  - apply Go. exists a, r, pr, l. cbn. repeat (split; [assumption|]). assumption.
  - apply Go. exists a, r, pr, l. cbn. repeat (split; [assumption|]). assumption.
  - apply Go. exists a, r, pr, l. cbn. repeat (split; [assumption|]). assumption.
  - apply Go. exists a, r, pr, l. cbn. repeat (split; [assumption|]). assumption.
  - apply Go. exists a, r, pr, l. cbn. repeat (split; [assumption|]). assumption.
  - apply Go. exists a, r, pr, l. cbn. repeat (split; [assumption|]). assumption.
  - destruct P as (x & Ex & Ux). rewrite E in Ex. injection Ex as <-. apply Go. exists a, r, pr, l. cbn. repeat (split; [assumption|]). apply Forall_app. auto.
  - apply Go. exists a, r, pr, l. cbn. repeat (split; [assumption|]). rewrite Forall_forall in *. intros x I. apply FE. eapply remove_first_in; exact I.
Qed.
Lemma history_ok mid pg s es s' : page_tree pg -> known_roots pg -> history mid pg s es s' -> ui_ok pg s -> ui_ok pg s'.
Proof. intros T K H. induction H as [|s e es s' P H IH]; intros O1; [exact O1|]. apply IH. apply handle_ok; assumption. Qed.
(** Whatever the user does, the controls stay consistent and no action fails - if there is an account Assets and the roots have the names the page knows. *)
Theorem C114_controls_agree_partial : forall mid pg start stop es s, page_tree pg -> known_roots pg ->
  (exists pa, find_account (pg_accounts pg) (B "Assets") = Some pa) -> history mid pg (fst (init_ui mid pg start stop)) es s ->
  snd (init_ui mid pg start stop) = false /\ ui_ok pg s /\ forall e, possible pg s e -> snd (handle mid pg s e) = false.
Proof.
  intros mid pg start stop es s T K (pa & Fa) H.
  assert (X : snd (init_ui mid pg start stop) = false /\ ui_ok pg (fst (init_ui mid pg start stop))).
  { unfold init_ui. rewrite Fa. assert (Ef : pa_full pa = B "Assets") by (apply find_some in Fa as [_ Fa]; apply eqb_bytes_eq in Fa; exact Fa).
    destruct (update_accounts_ok mid pg T (mkUi (Some (pa_full pa)) None [] [] Balances [] (Some start) (Some stop) false false [] false None (Some 5) true false (Some 3)) (pa_full pa) K eq_refl) as (X1 & X2 & _); [rewrite Ef; eauto|]. auto. }
  destruct X as [X1 X2]. split; [exact X1|]. pose proof (history_ok mid pg _ _ _ T K H X2) as Y. split; [exact Y|]. intros e P. apply handle_ok; assumption.
Qed.
(** Whatever the state of the page - after an action that failed, too - selecting a root whose name the page knows puts it in order. *)
Theorem C114_select_root_recovers : forall mid pg s r, page_tree pg -> known_roots pg -> In r (pg_roots pg) ->
  snd (handle mid pg s (SelectRoot r)) = false /\ ui_ok pg (fst (handle mid pg s (SelectRoot r))) /\ u_sel (fst (handle mid pg s (SelectRoot r))) = Some r.
Proof.
  intros mid pg s r T K I. destruct (proj1 T r I) as (pa & Fa & _). destruct (update_accounts_ok mid pg T (set_sel s (Some r)) r K eq_refl) as (X1 & X2 & X3 & _); [eauto|]. auto.
Qed.
(** An action changes the setting it is about and no other one; a range of dates chooses the aggregation only if there is one, the bar chart
    only if there is none. *)
Definition settings (s : ui) := (u_start s, u_end s, u_closed s, u_sub s, u_notes s, u_location s, u_flows s, u_max s, u_depth s).
Definition changed (s : ui) (e : event) : ui :=
  match e with
  | SetStart d => set_start s (option_map utc_midnight d) | SetEnd d => set_end s (option_map utc_midnight d)
  | ShowClosed b => set_closed s b | SubAccounts b => set_sub s b | Notes b => set_notes s b | Location b => set_location s b
  | Style f => set_flows s f | SubAccountMax n => set_max s n | Depth n => set_depth s n
  | _ => s
  end.
Definition keeps (s s' : ui) : Prop := settings s' = settings s /\ (u_agg s' = u_agg s \/ (u_agg s = None /\ u_view s' = BarChart)).
Lemma update_view_keeps pg s : keeps s (fst (update_view pg s)).
Proof.
  unfold update_view. destruct (root_views pg s); [|split; auto]. destruct (existsb (view_eqb (u_view s)) l); [|split; auto].
  destruct (u_view s) eqn:V; try (split; auto; fail). destruct (u_agg s) eqn:A; [split; auto|]. unfold update_aggregation. cbn. split; [reflexivity|right; split; [exact A|exact V]].
Qed.
Lemma update_account_keeps pg s : keeps s (fst (update_account pg s)).
Proof.
  unfold update_account. cbn. destruct (u_sel s); [|split; auto]. match goal with |- keeps _ (fst (update_view _ ?x)) => destruct (update_view_keeps pg x) as [K1 K2] end.
  split; [exact K1|exact K2].
Qed.
Lemma update_accounts_keeps mid pg s : keeps s (fst (update_accounts mid pg s)).
Proof.
  unfold update_accounts. destruct (root_views pg (set_offered s [])); [|split; auto].
  match goal with |- keeps _ (fst (update_account _ ?x)) => destruct (update_account_keeps pg x) as [K1 K2] end.
  destruct (existsb (view_eqb (u_view (set_offered s []))) l); split; [exact K1|exact K2|exact K1|exact K2].
Qed.
Theorem C114_one_setting : forall mid pg s e, let s' := fst (handle mid pg s e) in
  settings s' = settings (changed s e) /\
  (forall k, e = Aggregate k -> u_agg s' = k \/ (k = None /\ u_view s' = BarChart)) /\
  ((forall k, e <> Aggregate k) -> u_agg s = None -> u_agg s' = None \/ u_view s' = BarChart) /\
  ((forall k, e <> Aggregate k) -> (forall d, e <> SetStart d) -> (forall d, e <> SetEnd d) -> u_agg s <> None -> u_agg s' = u_agg s) /\
  (forall d, e = SetStart d \/ e = SetEnd d -> u_agg s <> None -> u_agg s' = Some (range_interval (u_start s') (u_end s'))).
Proof.
  intros mid pg s e. cbv zeta.
  assert (Go : forall x s', settings x = settings (changed s e) -> keeps x s' ->
    (forall k, e = Aggregate k -> u_agg x = k) -> ((forall k, e <> Aggregate k) -> u_agg s = None -> u_agg x = None) ->
    ((forall k, e <> Aggregate k) -> (forall d, e <> SetStart d) -> (forall d, e <> SetEnd d) -> u_agg x = u_agg s) ->
    (forall d, e = SetStart d \/ e = SetEnd d -> u_agg s <> None -> u_agg x = Some (range_interval (u_start x) (u_end x))) ->
    settings s' = settings (changed s e) /\
    (forall k, e = Aggregate k -> u_agg s' = k \/ (k = None /\ u_view s' = BarChart)) /\
    ((forall k, e <> Aggregate k) -> u_agg s = None -> u_agg s' = None \/ u_view s' = BarChart) /\
    ((forall k, e <> Aggregate k) -> (forall d, e <> SetStart d) -> (forall d, e <> SetEnd d) -> u_agg s <> None -> u_agg s' = u_agg s) /\
    (forall d, e = SetStart d \/ e = SetEnd d -> u_agg s <> None -> u_agg s' = Some (range_interval (u_start s') (u_end s')))).
  { intros x s' H1 [K1 K2] H2 H3 H4 H5. split; [congruence|]. split; [|split; [|split]].
    - intros k E. specialize (H2 k E). destruct K2 as [K2|[K2 K3]]; [left; congruence|right; split; [congruence|exact K3]].
    - intros N A. specialize (H3 N A). destruct K2 as [K2|[_ K2]]; [left; congruence|right; exact K2].
    - intros N1 N2 N3 A. specialize (H4 N1 N2 N3). destruct K2 as [K2|[K2 _]]; congruence.
    - intros d E A. specialize (H5 d E A). unfold settings in K1. injection K1 as Q1 Q2 _ _ _ _ _ _ _. destruct K2 as [K2|[K2 _]]; [|congruence]. rewrite K2, H5, Q1, Q2. reflexivity. }
  destruct e; cbn [handle changed] in *.
  all: try (match goal with |- context [fst (update_accounts ?m ?q ?x)] => apply (Go x); [reflexivity|apply update_accounts_keeps|..]; cbn; intros; try congruence; intuition congruence end; fail).
  all: try (match goal with |- context [fst (update_view ?q ?x)] => apply (Go x); [unfold update_aggregation; cbn; destruct (u_agg s); reflexivity|apply update_view_keeps|..]; unfold update_aggregation; cbn; intros; destruct (u_agg s) eqn:A; cbn in *; try congruence; intuition congruence end; fail).
  all: try (match goal with |- context [fst (update_account ?q ?x)] => apply (Go x); [reflexivity|apply update_account_keeps|..]; cbn; intros; try congruence; intuition congruence end; fail).
  { destruct (u_root (set_sel s (Some a))) as [b|]; [|apply (Go (set_sel s (Some a))); [reflexivity|split; auto|..]; cbn; intros; try congruence; intuition congruence].
  destruct (is_parent_of pg (height b) a b);
    [match goal with |- context [fst (update_accounts mid pg ?x)] => apply (Go x); [reflexivity|apply update_accounts_keeps|..]; cbn; intros; try congruence; intuition congruence end
    |match goal with |- context [fst (update_account pg ?x)] => apply (Go x); [reflexivity|apply update_account_keeps|..]; cbn; intros; try congruence; intuition congruence end]. }
  - apply (Go (update_aggregation (set_start s (option_map utc_midnight d)))); [unfold update_aggregation; cbn; destruct (u_agg s); reflexivity|apply update_view_keeps| | | |].
    + intros k E. discriminate.
    + intros _ A. unfold update_aggregation. cbn. rewrite A. exact A.
    + intros _ N1 N2. exfalso. exact (N1 d eq_refl).
    + intros d' _ A. unfold update_aggregation. cbn. destruct (u_agg s); [reflexivity|congruence].
  - apply (Go (update_aggregation (set_end s (option_map utc_midnight d)))); [unfold update_aggregation; cbn; destruct (u_agg s); reflexivity|apply update_view_keeps| | | |].
    + intros k E. discriminate.
    + intros _ A. unfold update_aggregation. cbn. rewrite A. exact A.
    + intros _ N1 N2. exfalso. exact (N2 d eq_refl).
    + intros d' _ A. unfold update_aggregation. cbn. destruct (u_agg s); [reflexivity|congruence].
  - apply (Go (set_agg s k)); [reflexivity|apply update_view_keeps| | | |].
    + intros k' E. cbn. congruence.
    + intros N _. exfalso. exact (N k eq_refl).
    + intros N _ _. exfalso. exact (N k eq_refl).
    + intros d [E|E]; discriminate.
Qed.
Print Assumptions C114_one_setting.
(** The pages made of the books are such trees. *)
Theorem C114_page_tree : forall about coms T info accounts L location xs e pg,
  coms_ok coms -> accounts_ok coms T info accounts -> xs <> [] -> Forall (tx_ok coms accounts L) xs ->
  export_page about coms T info accounts L location xs = Ok e -> load_page e = Ok pg ->
  page_tree pg /\
  ((forall a, In a accounts -> t_parent T a = Some (B "Root") -> In a [B "Assets"; B "Liabilities"; B "Income"; B "Expenses"; B "Equity"; B "Unbalanced"]) -> known_roots pg) /\
  (In (B "Assets") accounts -> exists pa, find_account (pg_accounts pg) (B "Assets") = Some pa).
Proof.
  intros about coms T info accounts L location xs e pg Hc Ha Nx TX He Hp.
  destruct (C106_page_tree about coms T info accounts L location xs e pg Hc Ha Nx TX He Hp) as (m & _ & NT).
  destruct (C103_page_has_the_books_partial about coms T info accounts L location xs Hc Ha Nx TX) as (e' & pg' & E1 & E2 & FA & RT & _ & CH & _).
  rewrite He in E1. injection E1 as <-. rewrite Hp in E2. injection E2 as <-. destruct Ha as (ND & IR & PR & PA & _).
  assert (Back : forall a pa, find_account (pg_accounts pg) a = Some pa -> In a accounts /\ a <> B "Root" /\ shows_account T info a pa).
  { intros a pa E. unfold find_account in E. apply find_some in E as [Ipa Ea]. apply eqb_bytes_eq in Ea.
    assert (G : exists n, In n (filter (fun a => negb (eqb_bytes a (B "Root"))) (sort_strings accounts)) /\ shows_account T info n pa).
    { clear -FA Ipa. induction FA as [|n y l l' H F IH]; [destruct Ipa|]. destruct Ipa as [->|I]; [exists n; split; [left; reflexivity|exact H]|]. destruct (IH I) as (z & I1 & I2). exists z. split; [right; exact I1|exact I2]. }
    destruct G as (n & In' & S). assert (Ena : n = a) by (destruct S as (S1 & _); congruence). rewrite Ena in S, In'. apply filter_In in In' as [I2 N2].
    split; [eapply Permutation_in; [symmetry; apply sort_strings_perm|exact I2]|]. split; [intros ->; rewrite eqb_bytes_refl in N2; discriminate|exact S]. }
  assert (Forth : forall a, In a accounts -> a <> B "Root" -> exists pa, find_account (pg_accounts pg) a = Some pa).
  { intros a I N. assert (In a (filter (fun a => negb (eqb_bytes a (B "Root"))) (sort_strings accounts))) as J.
    { apply filter_In. split; [eapply Permutation_in; [apply sort_strings_perm|exact I]|]. destruct (eqb_bytes a (B "Root")) eqn:X; [apply eqb_bytes_eq in X; contradiction|reflexivity]. }
    destruct (find_account (pg_accounts pg) a) as [pa|] eqn:E; [eauto|]. exfalso. unfold find_account in E. clear -FA J E.
    induction FA as [|n y l l' H F IH]; [destruct J|]. cbn [find] in E. destruct (eqb_bytes (pa_full y) a) eqn:X; [discriminate|]. destruct J as [->|J]; [|exact (IH J E)].
    destruct H as (H & _). rewrite H, eqb_bytes_refl in X. discriminate. }
  assert (Par : forall a pa, find_account (pg_accounts pg) a = Some pa -> forall p, pa_parent pa = Some p <-> t_parent T a = Some p /\ p <> B "Root").
  { intros a pa E p. destruct (Back a pa E) as (_ & _ & (_ & _ & _ & S4 & _)). rewrite S4. unfold page_parent. destruct (t_parent T a) as [q|]; [|split; [discriminate|intros [X _]; discriminate]].
    destruct (eqb_bytes q (B "Root")) eqn:X.
    - apply eqb_bytes_eq in X. split; [discriminate|]. intros [Y N]. congruence.
    - split; [|intros [Y _]; exact Y]. intros Y. split; [exact Y|]. intros ->. injection Y as ->. rewrite eqb_bytes_refl in X. discriminate. }
  split; [|split].
  - split; [|split].
    + intros r I. apply RT in I as [I Tp]. assert (N : r <> B "Root") by congruence. destruct (Forth r I N) as (pa & E). exists pa. split; [exact E|].
      destruct (pa_parent pa) as [p|] eqn:Ep; [|reflexivity]. apply (Par r pa E) in Ep as [Ep Np]. congruence.
    + intros a b. rewrite CH. split.
      * intros (N & I & Tp). assert (Nb : b <> B "Root") by congruence. destruct (Forth b I Nb) as (pb & E). exists pb. split; [exact E|]. apply (Par b pb E). auto.
      * intros (pb & E & Ep). apply (Par b pb E) in Ep as [Ep Np]. destruct (Back b pb E) as (I & _). auto.
    + intros b pb a E Ep. split; [|exact (NT b pb a E Ep)]. apply (Par b pb E) in Ep as [Ep Np]. destruct (Back b pb E) as (I & Nb & _).
      destruct (PA b I Nb) as (q & Eq & Iq & _). rewrite Ep in Eq. injection Eq as <-. apply Forth; assumption.
  - intros H a pa E Ep. destruct (Back a pa E) as (I & N & (_ & S2 & _)). destruct (PA a I N) as (q & Eq & Iq & _).
    assert (Tq : t_parent T a = Some (B "Root")).
    { rewrite Eq. f_equal. destruct (eqb_bytes q (B "Root")) eqn:X; [apply eqb_bytes_eq in X; exact X|]. exfalso.
      assert (X2 : pa_parent pa = Some q) by (apply (Par a pa E); split; [exact Eq|]; intros ->; rewrite eqb_bytes_refl in X; discriminate). congruence. }
    specialize (H a I Tq). assert (pa_name pa = a) as ->; [|exact H]. apply leaf_name in S2. symmetry in S2. rewrite S2.
    destruct H as [<-|[<-|[<-|[<-|[<-|[<-|[]]]]]]]; vm_compute; reflexivity.
  - intros I. apply Forth; [exact I|discriminate].
Qed.
(** A page without an account Assets stays empty, a root of another name cannot be selected; and then no date can be set, either. *)
Definition broken_P (pg : page) : Prop := page_tree pg /\ In (B "B") (pg_roots pg) /\
  forall mid start stop, snd (init_ui mid pg start stop) = true /\ u_list (fst (init_ui mid pg start stop)) = [] /\
    snd (handle mid pg (fst (init_ui mid pg start stop)) (SelectRoot (B "B"))) = true /\
    snd (handle mid pg (fst (handle mid pg (fst (init_ui mid pg start stop)) (SelectRoot (B "B")))) (SetEnd (Some stop))) = true.
Definition pg_export (L : ledger) (xs : list rtx) := export_page (fun _ => ([], B "dollar", [])) [usd; cad] pg_tree pg_info pg_names L (fun _ => B "f:1") xs.
Lemma pg_txs_ok : match pg_load with Ok (L, _, xs) => Forall (tx_ok [usd; cad] pg_names L) xs /\ xs <> [] | _ => False end.
Proof.
  assert (Y : forall y m d, 0 <= year_of (go_date y m d) <= 9999 -> plain_year (go_date y m d)) by (intros; assumption).
  assert (E : exists L xs, pg_load = Ok (L, [], xs) /\ map x_posts xs = [[2; 3]; [0; 1]]%nat /\ map x_posted xs = [go_date 2024 2 28; go_date 2024 3 1] /\
    map (fun p => (rp_date (heap L p), rp_acc (heap L p), rp_qty (heap L p), rp_bal (heap L p))) [0; 1; 2; 3]%nat =
    [(go_date 2024 3 1, B "A:C", Some (mkAmount 700 cad), Some (mkAmount 700 cad)); (go_date 2024 3 1, B "B", Some (mkAmount (-700) cad), Some (mkAmount (-695) cad));
     (go_date 2024 2 28, B "A", Some (mkAmount (-5) cad), Some (mkAmount (-5) cad)); (go_date 2024 2 28, B "B", Some (mkAmount 5 cad), Some (mkAmount 5 cad))]).
  { unfold pg_load. eexists. eexists. split; [vm_compute; reflexivity|]. split; [vm_compute; reflexivity|]. split; vm_compute; reflexivity. }
  destruct E as (L & xs & E & P & D & H). rewrite E. clear E. destruct xs as [|x1 [|x2 [|x3 xs]]]; try discriminate. cbn [map] in P, D. injection P as P1 P2. injection D as D1 D2.
  cbn [map] in H. injection H as d0 a0 q0 b0 d1 a1 q1 b1 d2 a2 q2 b2 d3 a3 q3 b3.
  assert (X : forall z, Z.abs z <= 700 -> exportable [usd; cad] (mkAmount z cad)).
  { intros z Hz. split; [cbn; lia|]. split; [cbn [a_int]; change (2 ^ 53) with 9007199254740992; lia|right; left; reflexivity]. }
  split; [|discriminate]. constructor; [|constructor; [|constructor]].
  - split; [rewrite D1; apply Y; vm_compute; split; discriminate|]. rewrite P1. split; [discriminate|]. intros p [<-|[<-|[]]].
    + split; [congruence|]. unfold posting_ok. rewrite a2, q2, b2. split; [right; left; reflexivity|]. split; [discriminate|]. split; eexists; (split; [reflexivity|apply X; lia]).
    + split; [congruence|]. unfold posting_ok. rewrite a3, q3, b3. split; [right; right; left; reflexivity|]. split; [discriminate|]. split; eexists; (split; [reflexivity|apply X; lia]).
  - split; [rewrite D2; apply Y; vm_compute; split; discriminate|]. rewrite P2. split; [discriminate|]. intros p [<-|[<-|[]]].
    + split; [congruence|]. unfold posting_ok. rewrite a0, q0, b0. split; [right; right; right; left; reflexivity|]. split; [discriminate|]. split; eexists; (split; [reflexivity|apply X; lia]).
    + split; [congruence|]. unfold posting_ok. rewrite a1, q1, b1. split; [right; right; left; reflexivity|]. split; [discriminate|]. split; eexists; (split; [reflexivity|apply X; lia]).
Qed.
Definition page_of (ld : res (ledger * list nat * list rtx)) : res page := match ld with Ok (L, _, xs) => do e <- pg_export L xs; load_page e | _ => Fail end.
Lemma pg_broken : match page_of pg_load with
  | Ok pg => find_account (pg_accounts pg) (B "Assets") = None /\ pg_roots pg = [B "A"; B "B"] /\ option_map pa_name (root_account pg (height (B "B")) (B "B")) = Some (B "B")
  | _ => False end.
Proof. vm_compute. repeat split. Qed.
Lemma broken_from (ld : res (ledger * list nat * list rtx)) : match ld with Ok (_, ws, _) => ws = [] | _ => False end ->
  match ld with Ok (L, _, xs) => Forall (tx_ok [usd; cad] pg_names L) xs /\ xs <> [] | _ => False end ->
  match page_of ld with
  | Ok pg => find_account (pg_accounts pg) (B "Assets") = None /\ pg_roots pg = [B "A"; B "B"] /\ option_map pa_name (root_account pg (height (B "B")) (B "B")) = Some (B "B")
  | _ => False end ->
  exists L xs e pg, ld = Ok (L, [], xs) /\ pg_export L xs = Ok e /\ load_page e = Ok pg /\ broken_P pg.
Proof.
  intros Ew TX PB. destruct ld as [[[L ws] xs]| |]; try contradiction. subst ws.
  destruct TX as [TX Nx]. destruct (C103_page_has_the_books_partial (fun _ => ([], B "dollar", [])) [usd; cad] pg_tree pg_info pg_names L (fun _ => B "f:1") xs pg_coms_ok pg_accounts_ok Nx TX) as (e & pg & E1 & E2 & _).
  fold (pg_export L xs) in E1. unfold page_of in PB. rewrite E1 in PB. cbn [bind] in PB. rewrite E2 in PB. destruct PB as (B1 & B2 & B3).
  exists L, xs, e, pg. split; [reflexivity|]. split; [exact E1|]. split; [exact E2|].
  split; [exact (proj1 (C114_page_tree _ _ _ _ _ _ _ _ _ _ pg_coms_ok pg_accounts_ok Nx TX E1 E2))|]. split; [rewrite B2; right; left; reflexivity|]. intros mid start stop.
  assert (I : init_ui mid pg start stop = (mkUi None None [] [] Balances [] (Some start) (Some stop) false false [] false None (Some 5) true false (Some 3), true)).
  { unfold init_ui. rewrite B1. reflexivity. }
  rewrite I. cbn [fst snd u_list].
  assert (V : forall s, u_sel s = Some (B "B") -> root_views pg s = None).
  { intros s Es. unfold root_views. rewrite Es. destruct (root_account pg (height (B "B")) (B "B")) as [pa|]; [|reflexivity]. injection B3 as B3. rewrite B3. vm_compute. reflexivity. }
  split; [reflexivity|]. split; [reflexivity|]. cbn [handle]. unfold update_accounts. rewrite V by reflexivity. split; [reflexivity|].
  cbn [fst]. unfold update_view. rewrite V by reflexivity. reflexivity.
Qed.
Lemma pg_no_warnings : match pg_load with Ok (_, ws, _) => ws = [] | _ => False end.
Proof. vm_compute. reflexivity. Qed.
Theorem C114_unknown_root_refuted : exists L xs e pg, pg_load = Ok (L, [], xs) /\ pg_export L xs = Ok e /\ load_page e = Ok pg /\ broken_P pg.
Proof. exact (broken_from pg_load pg_no_warnings pg_txs_ok pg_broken). Qed.
(** a case *)
Definition ui_acct (full : bytes) (parent : option bytes) (closed : option Z) : pacct := mkPacct (snd (parent_and_name full)) full cad parent closed None.
Definition ui_page : page := mkPage [cad]
  [ui_acct (B "Assets") None None; ui_acct (B "Assets:Bank") (Some (B "Assets")) None; ui_acct (B "Assets:Bank:Old") (Some (B "Assets:Bank")) (Some 100); ui_acct (B "Equity") None None]
  [B "Assets"; B "Equity"] (fun a => if eqb_bytes a (B "Assets") then [B "Assets:Bank"] else if eqb_bytes a (B "Assets:Bank") then [B "Assets:Bank:Old"] else []) (fun _ => []) [].
Lemma ui_page_tree : page_tree ui_page /\ known_roots ui_page.
Proof.
  assert (Fd : forall a pa, find_account (pg_accounts ui_page) a = Some pa -> In pa (pg_accounts ui_page) /\ pa_full pa = a).
  { intros a pa E. unfold find_account in E. apply find_some in E as [I H]. apply eqb_bytes_eq in H. auto. }
  split; [split; [|split]|].
  - intros r [<-|[<-|[]]]; eexists; split; vm_compute; reflexivity.
  - intros a b. cbn [ui_page pg_children]. split.
    + destruct (eqb_bytes a (B "Assets")) eqn:E1; [apply eqb_bytes_eq in E1; subst a; intros [<-|[]]; eexists; split; vm_compute; reflexivity|].
      destruct (eqb_bytes a (B "Assets:Bank")) eqn:E2; [apply eqb_bytes_eq in E2; subst a; intros [<-|[]]; eexists; split; vm_compute; reflexivity|]. intros [].
    + intros (pb & F & P). apply Fd in F as [I <-]. destruct I as [<-|[<-|[<-|[<-|[]]]]]; cbn [ui_acct pa_parent pa_full] in *; try discriminate; injection P as <-; vm_compute; left; reflexivity.
  - intros b pb a F P. apply Fd in F as [I <-]. destruct I as [<-|[<-|[<-|[<-|[]]]]]; cbn [ui_acct pa_parent pa_full] in *; try discriminate; injection P as <-; (split; [eexists; vm_compute; reflexivity|cbn; lia]).
  - intros a pa F P. apply Fd in F as [I <-]. destruct I as [<-|[<-|[<-|[<-|[]]]]]; cbn [ui_acct pa_parent] in P; try discriminate; vm_compute; tauto.
Qed.
Example C114_example : exists s, history london_utc ui_page (fst (init_ui london_utc ui_page 0 (1440 * 200)))
    [ShowClosed true; DoubleClick (B "Assets:Bank"); SelectView BarChart; Exclude (B "Assets:Bank:Old"); Crumb (B "Assets"); SelectRoot (B "Equity")] s /\
  u_sel s = Some (B "Equity") /\ u_view s = Balances /\ u_agg s = Some Monthly /\ u_exclude s = [].
Proof.
  eexists. split.
  - apply hist_cons; [exact I|]. apply hist_cons; [vm_compute; tauto|]. apply hist_cons; [vm_compute; tauto|].
    apply hist_cons; [exists (B "Assets:Bank"); split; [vm_compute; reflexivity|apply under_one; vm_compute; tauto]|].
    apply hist_cons; [vm_compute; tauto|]. apply hist_cons; [vm_compute; tauto|]. apply hist_nil.
  - vm_compute. repeat split.
Qed.
Print Assumptions C114_controls_agree_partial.

(** ** C115: the list of accounts *)
Lemma longest (l : list pacct) pa : In pa l -> (List.length (pa_full pa) <= fold_right Nat.max 0%nat (map (fun pa => List.length (pa_full pa)) l))%nat.
Proof. induction l as [|x r IH]; [intros []|]. cbn [map fold_right]. intros [->|I]; [lia|]. specialize (IH I). lia. Qed.
Lemma children_short pg a b : page_tree pg -> In b (pg_children pg a) -> (List.length a < List.length b < depth_of_page pg)%nat.
Proof.
  intros T I. apply (child_parent pg T) in I as (pb & F & P). destruct (proj2 (proj2 T) _ _ _ F P) as [_ L]. split; [exact L|]. unfold find_account in F. apply find_some in F as [I H].
  apply eqb_bytes_eq in H. subst b. unfold depth_of_page. pose proof (longest _ _ I). lia.
Qed.
Definition listed (mid : Z -> Z) (pg : page) show stop ex (x : bytes) : list bytes := filter (child_shown mid pg show stop ex) (pg_children pg x).
Lemma all_children_rows mid pg show stop ex : page_tree pg -> forall f a, (depth_of_page pg <= f + List.length a)%nat ->
  rows_list (listed mid pg show stop ex) (listed mid pg show stop ex a) (all_children mid pg f show stop ex a).
Proof.
  intros T. induction f as [|f IH]; intros a L.
  - cbn [all_children]. assert (E : pg_children pg a = []).
    { destruct (pg_children pg a) as [|b r] eqn:E; [reflexivity|]. pose proof (children_short pg a b T) as X. rewrite E in X. specialize (X (or_introl eq_refl)). lia. }
    unfold listed at 2. rewrite E. constructor.
  - cbn [all_children]. unfold listed at 2. pose proof (fun b => children_short pg a b T) as X. induction (pg_children pg a) as [|b r IHr]; [constructor|].
    cbn [filter flat_map]. assert (Xr : forall b, In b r -> (List.length a < List.length b < depth_of_page pg)%nat) by (intros; apply X; right; assumption).
    destruct (child_shown mid pg show stop ex b); [|apply IHr, Xr]. constructor; [|apply IHr, Xr]. constructor. apply IH. specialize (X b (or_introl eq_refl)). lia.
Qed.
(** The list at any time - unless the end date was changed since it was made: the accounts beneath its root in the order of the tree, each followed by
    its subaccounts, without the closed ones (unless these are shown, too) and what is beneath them. *)
Definition open_at (mid : Z -> Z) (pg : page) (stop : option Z) (b : bytes) : Prop :=
  forall pb d, find_account (pg_accounts pg) b = Some pb -> pa_closed pb = Some d -> exists e, stop = Some e /\ e < mid d.
Definition list_fresh (mid : Z -> Z) (pg : page) (s : ui) : Prop := exists a vis,
  u_root s = Some a /\ rows_list vis (vis a) (u_list s) /\ (forall x, exists f, vis x = filter f (pg_children pg x)) /\
  forall x b, In b (vis x) <-> In b (pg_children pg x) /\ (u_closed s = true \/ open_at mid pg (u_end s) b).
Lemma list_made mid pg s a : page_tree pg -> u_root s = Some a -> u_list s = all_children mid pg (depth_of_page pg) (u_closed s) (u_end s) [] a -> list_fresh mid pg s.
Proof.
  intros T R E. exists a, (listed mid pg (u_closed s) (u_end s) []). split; [exact R|]. split; [rewrite E; apply all_children_rows; [exact T|lia]|]. split; [eexists; reflexivity|].
  intros x b. unfold listed. rewrite filter_In. unfold child_shown. cbn [existsb negb]. rewrite andb_true_r, orb_true_iff. split; intros [I H]; (split; [exact I|]).
  - destruct H as [H|H]; [auto|]. right. intros pb d F Cl. rewrite F, Cl in H. destruct (u_end s) as [e|]; [|discriminate]. exists e. split; [reflexivity|lia].
  - destruct H as [H|H]; [auto|]. right. destruct (find_account (pg_accounts pg) b) as [pb|] eqn:F; [|reflexivity]. destruct (pa_closed pb) as [d|] eqn:Cl; [|reflexivity].
    destruct (H pb d F Cl) as (e & -> & Hlt). lia.
Qed.
Definition same_list (s s' : ui) : Prop := u_root s' = u_root s /\ u_list s' = u_list s /\ u_closed s' = u_closed s /\ u_end s' = u_end s.
Lemma fresh_same mid pg s s' : same_list s s' -> list_fresh mid pg s -> list_fresh mid pg s'.
Proof. intros (E1 & E2 & E3 & E4) (a & vis & H). exists a, vis. rewrite E1, E2, E3, E4. exact H. Qed.
Lemma update_view_same pg s : same_list s (fst (update_view pg s)).
Proof. unfold update_view. destruct (root_views pg s); [|repeat split]. destruct (existsb _ _); [|repeat split]. cbn [fst]. destruct (u_view s), (u_agg s); repeat split. Qed.
Lemma same_trans s s' s'' : same_list s s' -> same_list s' s'' -> same_list s s''.
Proof. intros (A1 & A2 & A3 & A4) (B1 & B2 & B3 & B4). repeat split; congruence. Qed.
Lemma update_account_same pg s : same_list s (fst (update_account pg s)).
Proof. unfold update_account. cbn [set_exclude u_sel]. destruct (u_sel s); [|repeat split]. eapply same_trans; [|apply update_view_same]. repeat split. Qed.
Definition sets_end (e : event) : bool := match e with SetEnd _ => true | _ => false end.
Theorem C115_account_list_partial : forall mid pg start stop es s, page_tree pg -> known_roots pg ->
  (exists pa, find_account (pg_accounts pg) (B "Assets") = Some pa) -> history mid pg (fst (init_ui mid pg start stop)) es s ->
  existsb sets_end es = false -> list_fresh mid pg s.
Proof.
  intros mid pg start stop es s T K (pa & Fa) H NE.
  assert (Fresh : forall s a, u_sel s = Some a -> (exists pa, find_account (pg_accounts pg) a = Some pa) -> list_fresh mid pg (fst (update_accounts mid pg s))).
  { intros s1 a E1 Ka. destruct (update_accounts_ok mid pg T s1 a K E1 Ka) as (_ & _ & _ & H4 & H5 & H6 & H7). apply (list_made mid pg _ a T H4). rewrite H5, H6, H7. reflexivity. }
  assert (Ef : pa_full pa = B "Assets") by (pose proof Fa as Fb; apply find_some in Fb as [_ Fb]; apply eqb_bytes_eq in Fb; exact Fb).
  assert (Start : list_fresh mid pg (fst (init_ui mid pg start stop)) /\ ui_ok pg (fst (init_ui mid pg start stop))).
  { split.
    - unfold init_ui. rewrite Fa. apply (Fresh _ (pa_full pa)); [reflexivity|]. rewrite Ef. eauto.
    - destruct (C114_controls_agree_partial mid pg start stop [] _ T K (ex_intro _ pa Fa) (hist_nil _ _ _)) as (_ & X & _). exact X. }
  destruct Start as [S1 S2]. revert S1 S2 NE. induction H as [s|s e es s' P H IH]; intros S1 S2 NE; [exact S1|]. cbn [existsb] in NE. apply orb_false_iff in NE as [N1 N2].
  destruct (handle_ok mid pg s e T K S2 P) as [_ S2']. apply IH; [|exact S2'|exact N2].
  assert (Kn : forall b, under pg b b -> forall l, u_root s = Some l -> under pg l b -> exists pb, find_account (pg_accounts pg) b = Some pb).
  { intros b _ l El Ub. destruct S2 as (a & r & pr & l' & _ & (Ura & X) & F & _ & _ & _ & L & U & _). rewrite El in L. injection L as <-.
    eapply under_known; [exact T|exact Ub|]. eapply under_up; [exact T|exact U|]. eapply under_known; [exact T|exact Ura|eauto]. }
  destruct e; cbn [handle sets_end possible] in *; try discriminate;
    try (eapply fresh_same; [eapply same_trans; [|apply update_view_same]|exact S1]; repeat split; fail);
    try (eapply fresh_same; [eapply same_trans; [|apply update_account_same]|exact S1]; repeat split; fail).
  - apply (Fresh _ a); [reflexivity|]. destruct (proj1 T a P) as (pr & Fr & _). eauto.
  - apply (Fresh _ a); [reflexivity|]. destruct S2 as (x & r & pr & l' & X1 & X2 & X3 & X4 & X5 & X6 & L & U & FL & _). rewrite Forall_forall in FL. apply (Kn a (under_self pg a) l' L). apply FL, P.
  - pose proof S2 as (x & r & pr & l' & X1 & X2 & X3 & X4 & X5 & X6 & L & U & FL & PT & _). change (u_root (set_sel s (Some a))) with (u_root s). rewrite L.
    destruct (is_parent_of pg (height l') a l') eqn:Ip.
    + apply (Fresh _ a); [reflexivity|]. apply (path_under pg T _ _ PT) in P. eapply under_up; [exact T|exact P|]. eapply root_known; eassumption.
    + eapply fresh_same; [eapply same_trans; [|apply update_account_same]|exact S1]. repeat split.
  - eapply fresh_same; [eapply same_trans; [|apply update_view_same]|exact S1]. unfold update_aggregation. cbn. destruct (u_agg s); repeat split.
  - pose proof S2 as (x & r & pr & l' & X1 & X2 & _). apply (Fresh _ x); [exact X1|]. eapply root_known; eassumption.
Qed.
(** changing the end date leaves the list as it was: an account closed by the new date is still listed (or an open one is missing) *)
Theorem C115_end_date_refuted : exists s, history london_utc ui_page (fst (init_ui london_utc ui_page 0 (1440 * 200))) [SetEnd (Some 50)] s /\
  u_list s = [B "Assets:Bank"] /\ ~ list_fresh london_utc ui_page s.
Proof.
  eexists. split; [apply hist_cons; [exact I|apply hist_nil]|]. split; [vm_compute; reflexivity|]. intros (a & vis & R & RL & Hf & Hv).
  assert (Ea : a = B "Assets") by (vm_compute in R; injection R as <-; reflexivity). subst a.
  assert (EL : u_list (fst (handle london_utc ui_page (fst (init_ui london_utc ui_page 0 (1440 * 200))) (SetEnd (Some 50)))) = [B "Assets:Bank"]) by (vm_compute; reflexivity). rewrite EL in RL. clear EL R.
  assert (EE : u_end (fst (handle london_utc ui_page (fst (init_ui london_utc ui_page 0 (1440 * 200))) (SetEnd (Some 50)))) = Some (1440 * 50)) by (vm_compute; reflexivity). rewrite EE in Hv. clear EE.
  assert (O1 : open_at london_utc ui_page (Some (1440 * 50)) (B "Assets:Bank:Old")).
  { intros pb d F Cl. vm_compute in F. injection F as <-. cbn in Cl. injection Cl as <-. exists (1440 * 50). split; [reflexivity|]. vm_compute. reflexivity. }
  assert (I1 : In (B "Assets:Bank:Old") (vis (B "Assets:Bank"))) by (apply Hv; split; [vm_compute; tauto|right; exact O1]).
  assert (Root : rows_of vis (B "Assets") (B "Assets" :: [B "Assets:Bank"])) by (constructor; exact RL).
  assert (I2 : In (B "Assets:Bank") (vis (B "Assets"))).
  { apply Hv. split; [vm_compute; tauto|]. right. intros pb d F Cl. vm_compute in F. injection F as <-. discriminate. }
  assert (Bn : beneath vis (B "Assets") (B "Assets:Bank:Old")) by (eapply beneath_child; [eapply beneath_child; [constructor|exact I2]|exact I1]).
  destruct (rows_below _ _ _ Root _ Bn) as [[X|[X|[]]] _]; discriminate.
Qed.
(** The list and the balances view show the same accounts, if neither the account nor one above it is closed. *)
Lemma closed_child mid pg t a b : page_tree pg -> In b (pg_children pg a) -> ~ closed_by mid (pg_accounts pg) t a ->
  (closed_by mid (pg_accounts pg) t b <-> exists pb d, find_account (pg_accounts pg) b = Some pb /\ pa_closed pb = Some d /\ mid d <= t).
Proof.
  intros T I N. apply (child_parent pg T) in I as (pb & F & P). split.
  - intros H. inversion H as [x pa d F' Cl Le|x pa p F' P' Up]; subst x; [eauto|]. rewrite F in F'. injection F' as <-. rewrite P in P'. injection P' as <-. contradiction.
  - intros (pb' & d & F' & Cl & Le). eapply closed_own; eassumption.
Qed.
Lemma hidden_shown mid pg show t depth a b : page_tree pg -> (depth_of_page pg <= depth)%nat -> In b (pg_children pg a) -> (show = true \/ ~ closed_by mid (pg_accounts pg) t a) ->
  hidden mid pg show t depth b = negb (child_shown mid pg show (Some t) [] b) /\ (hidden mid pg show t depth b = false -> show = true \/ ~ closed_by mid (pg_accounts pg) t b).
Proof.
  intros T D I H. unfold hidden, child_shown. cbn [existsb negb]. rewrite andb_true_r. destruct show; [split; [reflexivity|auto]|]. destruct H as [H|H]; [discriminate|]. cbn [negb andb orb].
  assert (CA : closed_at mid depth (pg_accounts pg) b t = true <-> closed_by mid (pg_accounts pg) t b).
  { apply closed_at_spec; [intros x px p F P; exact (proj2 (proj2 (proj2 T) x px p F P))|]. pose proof (children_short pg a b T I). lia. }
  pose proof (closed_child mid pg t a b T I H) as CC. split.
  - destruct (find_account (pg_accounts pg) b) as [pb|] eqn:F.
    + destruct (pa_closed pb) as [d|] eqn:Cl.
      * destruct (closed_at mid depth (pg_accounts pg) b t) eqn:E.
        { destruct (proj1 CC (proj1 CA eq_refl)) as (pb' & d' & F' & Cl' & Le). injection F' as <-. rewrite Cl in Cl'. injection Cl' as <-. lia. }
        { destruct (t <? mid d) eqn:L; [reflexivity|]. exfalso. assert (X : false = true); [|discriminate]. apply CA, CC. exists pb, d. repeat split; [exact Cl|lia]. }
      * destruct (closed_at mid depth (pg_accounts pg) b t) eqn:E; [|reflexivity]. destruct (proj1 CC (proj1 CA eq_refl)) as (pb' & d' & F' & Cl' & _). injection F' as <-. congruence.
    + destruct (closed_at mid depth (pg_accounts pg) b t) eqn:E; [|reflexivity]. destruct (proj1 CC (proj1 CA eq_refl)) as (pb' & d' & F' & _). discriminate.
  - intros E. right. intros X. apply CA in X. congruence.
Qed.
Theorem C115_list_and_balances : forall mid conv pg show t depth fuel a rows, page_tree pg -> (depth_of_page pg <= depth)%nat ->
  (show = true \/ ~ closed_by mid (pg_accounts pg) t a) -> all_balances mid conv pg show t depth fuel a = Ok rows ->
  map r_acc rows = a :: all_children mid pg (depth_of_page pg) show (Some t) [] a.
Proof.
  intros mid conv pg show t depth fuel a rows T D H E.
  assert (G : forall fuel a rows f, (depth_of_page pg <= f + List.length a)%nat -> (show = true \/ ~ closed_by mid (pg_accounts pg) t a) ->
    all_balances mid conv pg show t depth fuel a = Ok rows -> map r_acc rows = a :: all_children mid pg f show (Some t) [] a).
  { clear a rows fuel H E. induction fuel as [|fuel IH]; intros a rows f Lf H E; [discriminate|]. cbn [all_balances] in E.
    match type of E with context [child_loop ?m ?c ?p ?s ?t ?d ?g ?l ?r ?b] => destruct (child_loop m c p s t d g l r b) as [[rs tot]| |] eqn:E1 end; try discriminate. cbn [bind fst snd] in E. injection E as <-. cbn [map r_acc]. f_equal.
    destruct f as [|f].
    - cbn [all_children]. assert (EN : pg_children pg a = []).
      { destruct (pg_children pg a) as [|b r] eqn:EN; [reflexivity|]. pose proof (children_short pg a b T) as X. rewrite EN in X. specialize (X (or_introl eq_refl)). lia. }
      rewrite EN in E1. cbn [child_loop] in E1. injection E1 as <- _. reflexivity.
    - cbn [all_children].
      assert (K : forall l rs0 tot0, (forall b, In b l -> In b (pg_children pg a)) -> child_loop mid conv pg show t depth (all_balances mid conv pg show t depth fuel) l rs0 tot0 = Ok (rs, tot) ->
        map r_acc rs = map r_acc rs0 ++ flat_map (fun b => if child_shown mid pg show (Some t) [] b then b :: all_children mid pg f show (Some t) [] b else []) l).
      { clear E1. induction l as [|b l IHl]; intros rs0 tot0 Sub E; cbn [child_loop flat_map] in *.
        - injection E as <- _. rewrite app_nil_r. reflexivity.
        - assert (Ib : In b (pg_children pg a)) by (apply Sub; left; reflexivity). destruct (hidden_shown mid pg show t depth a b T D Ib H) as [Eh Hn].
          destruct (hidden mid pg show t depth b) eqn:Hb.
          + destruct (child_shown mid pg show (Some t) [] b); [discriminate|]. cbn [app]. apply (IHl rs0 tot0); [intros; apply Sub; right; assumption|exact E].
          + destruct (child_shown mid pg show (Some t) [] b); [|discriminate]. destruct (all_balances mid conv pg show t depth fuel b) as [cb| |] eqn:Ecb; try discriminate. cbn [bind] in E.
            destruct cb as [|first rest]; [discriminate|]. destruct (web_add (conv t) tot0 (r_total first)) as [tot1| |]; try discriminate. cbn [bind] in E.
            rewrite (IHl _ _ (fun b I => Sub b (or_intror I)) E), map_app, <- app_assoc. f_equal. f_equal.
            apply IH; [pose proof (children_short pg a b T Ib); lia|apply Hn; reflexivity|exact Ecb]. }
      rewrite (K (pg_children pg a) [] _ (fun b I => I) E1). reflexivity. }
  apply (G fuel a rows _); [lia|exact H|exact E].
Qed.
(** a closed account: the list still shows what is beneath it, the balances view does not *)
Definition shut_page : page := mkPage [cad]
  [ui_acct (B "Assets") None None; ui_acct (B "Assets:Bank") (Some (B "Assets")) (Some 100); ui_acct (B "Assets:Bank:Old") (Some (B "Assets:Bank")) None]
  [B "Assets"] (pg_children ui_page) (fun _ => []) [].
Theorem C115_closed_account_refuted : all_children london_utc shut_page (depth_of_page shut_page) false (Some (1440 * 200)) [] (B "Assets:Bank") = [B "Assets:Bank:Old"] /\
  match all_balances london_utc (fun _ _ _ _ => Fail) shut_page false (1440 * 200) (depth_of_page shut_page) 3 (B "Assets:Bank") with Ok rows => map r_acc rows = [B "Assets:Bank"] | _ => False end.
Proof. vm_compute. split; reflexivity. Qed.
Example C115_example : ~ closed_by london_utc (pg_accounts ui_page) (1440 * 200) (B "Assets") /\
  match all_balances london_utc (fun _ _ _ _ => Fail) ui_page false (1440 * 200) (depth_of_page ui_page) 4 (B "Assets") with Ok rows => map r_acc rows = [B "Assets"; B "Assets:Bank"] | _ => False end.
Proof.
  split; [|vm_compute; reflexivity]. intros H. inversion H as [x pa d F Cl Le|x pa p F P Up]; subst x; vm_compute in F; injection F as <-; discriminate.
Qed.
Print Assumptions C115_list_and_balances.
