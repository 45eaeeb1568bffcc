(** What the coin2html page shows (C104-C110). *)
From Coq Require Import Permutation Sorted.
From Verif Require Import Base M_Amount S_Amount S_Decimal L_Dec L_Amount S_Date M_Date L_Date M_Parser M_Names M_Tags M_Ledger S_Books S_DateText L_DateText L_Csv2 L_Sort L_Registers L_Resolve L_Load L_Gnucash4
  Properties_Ledger M_Json M_Web L_Web M_Page S_Page Properties_Page M_Views S_Views L_Views L_Views2.
Local Open Scope Z_scope.

(** ** C104: displayed dates *)
Lemma pad_inj w a b x y : 0 <= a < 10 ^ Z.of_nat w -> 0 <= b < 10 ^ Z.of_nat w -> (0 < w)%nat ->
  pad_zero w (print_nat a) ++ x = pad_zero w (print_nat b) ++ y -> a = b /\ x = y.
Proof.
  intros Ha Hb Hw E. destruct (pad_zero_digits w a Ha Hw) as (ds & [D1 D2] & <- & E1). destruct (pad_zero_digits w b Hb Hw) as (es & [D3 D4] & <- & E2).
  rewrite E1, E2 in E. clear E1 E2. unfold dtext in E.
  assert (G : forall (u v : list ascii) p q, List.length u = List.length v -> u ++ p = v ++ q -> u = v /\ p = q).
  { clear. induction u as [|c u IH]; intros [|d v] p q L E; try discriminate; [auto|]. cbn [app] in E. injection E as -> E. cbn [List.length] in L. injection L as L. destruct (IH v p q L E) as [-> ->]. auto. }
  apply G in E as [E ->]; [|rewrite !map_length; congruence]. split; [|reflexivity]. f_equal.
  assert (I : forall u v, digits_ok u -> digits_ok v -> map digit_char u = map digit_char v -> u = v).
  { clear. induction u as [|c u IH]; intros [|d v] Hu Hv E; try discriminate; [reflexivity|]. inversion_clear Hu as [|? ? Hu1 Hu2]. inversion_clear Hv as [|? ? Hv1 Hv2]. cbn [map] in E. injection E as E1 E2. f_equal; [apply digit_char_inj; [lia|lia|exact E1]|apply IH; assumption]. }
  apply I; assumption.
Qed.
Lemma iso_inj n m : plain_year n -> plain_year m -> iso_text n = iso_text m -> n = m.
Proof.
  unfold plain_year. intros Hn Hm E. unfold iso_text in E. pose proof (civil_valid n) as Vn. pose proof (civil_valid m) as Vm. unfold valid_date in Vn, Vm.
  pose proof (month_days_range (year_of n) (month_of n)). pose proof (month_days_range (year_of m) (month_of m)).
  rewrite !app_assoc in E. rewrite <- !app_assoc in E.
  apply pad_inj in E as [E1 E]; [|cbn; lia|cbn; lia|lia]. apply app_inv_head in E. apply pad_inj in E as [E2 E]; [|cbn; lia|cbn; lia|lia]. apply app_inv_head in E.
  assert (E' : pad_zero 2 (print_nat (day_of n)) ++ [] = pad_zero 2 (print_nat (day_of m)) ++ []) by (rewrite !app_nil_r; exact E).
  apply pad_inj in E' as [E3 _]; [|cbn; lia|cbn; lia|lia]. rewrite <- (go_date_civil n), <- (go_date_civil m), E1, E2, E3. reflexivity.
Qed.
Theorem C104_shown_date_partial : forall mid d, zone_ok mid -> plain_year d -> plain_year (d - 1) ->
  (date_to_string (mid d) = iso_text d <-> utc_midnight d <= mid d).
Proof.
  intros mid d Z H1 H2. unfold date_to_string, utc_midnight. destruct Z as [Z _]. specialize (Z d). split; intros H.
  - destruct (Z_le_gt_dec (1440 * d) (mid d)) as [L|L]; [exact L|]. exfalso.
    assert (E : utc_day (mid d) = d - 1) by (symmetry; apply Z.div_unique with (mid d - 1440 * (d - 1)); lia).
    rewrite E in H. apply iso_inj in H; auto. lia.
  - f_equal. symmetry. apply Z.div_unique with (mid d - 1440 * d); lia.
Qed.
(** every time zone east of UTC: the day before is shown *)
Theorem C104_east_refuted : forall mid d, zone_ok mid -> mid d < utc_midnight d -> date_to_string (mid d) = iso_text (d - 1).
Proof.
  intros mid d [Z _] H. specialize (Z d). unfold date_to_string, utc_midnight in *. f_equal. symmetry. apply Z.div_unique with (mid d - 1440 * (d - 1)); lia.
Qed.
Definition toronto (d : Z) : Z := 1440 * d + 300.
Definition berlin (d : Z) : Z := 1440 * d - 60.
Definition london_utc (d : Z) : Z := 1440 * d.
Lemma zones_ok : zone_ok toronto /\ zone_ok berlin /\ zone_ok london_utc.
Proof. repeat split; unfold toronto, berlin, london_utc; intros; lia. Qed.
Example C104_example : date_to_string (toronto (go_date 2024 3 1)) = B "2024-03-01" /\ date_to_string (berlin (go_date 2024 3 1)) = B "2024-02-29".
Proof. vm_compute. auto. Qed.

(** ** C105: date ranges *)
Lemma trim_day (mid : Z -> Z) ps start stop (f : pposting -> bool) : zone_ok mid -> by_day ps ->
  (forall p, (start <=? mid (pp_date p)) && (mid (pp_date p) <=? stop) = f p) -> trim_range mid ps start stop = filter f ps.
Proof. intros Z S H. rewrite trim_filter_key by (apply by_day_posted; assumption). apply filter_ext. exact H. Qed.
Theorem C105_range_partial : forall mid ps s e, zone_ok mid -> by_day ps -> (forall d, mid d = utc_midnight d) ->
  trim_range mid ps (utc_midnight s) (utc_midnight e) = filter (between s e) ps.
Proof. intros mid ps s e Z S H. apply trim_day; [exact Z|exact S|]. intros p. rewrite H. unfold utc_midnight, between. lia. Qed.
Theorem C105_west_refuted : forall mid ps s e, zone_ok mid -> by_day ps -> (forall d, utc_midnight d < mid d) ->
  trim_range mid ps (utc_midnight s) (utc_midnight e) = filter (between s (e - 1)) ps.
Proof. intros mid ps s e Z S H. apply trim_day; [exact Z|exact S|]. intros p. specialize (H (pp_date p)). destruct Z as [Z _]. specialize (Z (pp_date p)). unfold utc_midnight, between in *. lia. Qed.
Theorem C105_east_refuted : forall mid ps s e, zone_ok mid -> by_day ps -> (forall d, mid d < utc_midnight d) ->
  trim_range mid ps (utc_midnight s) (utc_midnight e) = filter (between (s + 1) e) ps.
Proof. intros mid ps s e Z S H. apply trim_day; [exact Z|exact S|]. intros p. specialize (H (pp_date p)). destruct Z as [Z _]. specialize (Z (pp_date p)). unfold utc_midnight, between in *. lia. Qed.
(** the page opens with all postings, in every time zone *)
Theorem C105_start_range : forall mid ps today epoch txs, zone_ok mid -> by_day ps -> (forall p, In p ps -> exists x, In x txs /\ pp_date p = pt_posted x) ->
  let r := start_range mid today epoch txs in trim_range mid ps (fst r) (snd r) = ps.
Proof.
  intros mid ps today epoch txs Z S H r. rewrite trim_filter_key by (apply by_day_posted; assumption). apply filter_all. intros p I. destruct (H p I) as (x & Ix & E).
  unfold r, start_range, posted. cbn [fst snd]. pose proof (min_date_spec txs today) as [_ Mi]. pose proof (max_date_spec txs epoch) as [_ Ma]. specialize (Mi x Ix). specialize (Ma x Ix).
  fold (min_date today txs) in Mi. fold (max_date epoch txs) in Ma. rewrite <- E in Mi, Ma.
  pose proof (proj2 (mid_le mid Z _ _) (year_start (pp_date p) _ (year_mono _ _ Mi))). pose proof (proj2 (mid_le mid Z _ _) (year_end (pp_date p) _ (year_mono _ _ Ma))). lia.
Qed.
(** the registers of a loaded page are in date order, so the above applies to every exported ledger *)
Lemma shown_by_day L ids pps : Forall2 (shows L) ids pps -> in_date_order (dates L) ids -> by_day pps.
Proof.
  intros F S. eapply forall2_sorted; [exact F| |exact S]. intros p q pp qq (E1 & _) (E2 & _) H. cbn beta in *. rewrite E1, E2. exact H.
Qed.
Theorem C105_registers_in_order : forall about coms T info accounts find comm conv ts L ws xs location e pg,
  coms_ok coms -> accounts_ok coms T info accounts ->
  load_transactions find comm conv accounts true empty_ledger ts = Ok (L, ws, xs) ->
  (forall n a, find n = Ok a -> In a accounts /\ a <> B "Root") ->
  ts <> [] -> Forall (fun t => plain_year (t_posted t) /\ t_postings t <> []) ts ->
  (forall p q, In p (flat_map x_posts xs) -> rp_qty (heap L p) = Some q \/ rp_bal (heap L p) = Some q -> exportable coms q) ->
  export_page about coms T info accounts L location xs = Ok e -> load_page e = Ok pg ->
  forall a, by_day (pg_register pg a) /\ forall p, In p (pg_register pg a) -> exists x, In x (pg_txs pg) /\ pp_date p = pt_posted x.
Proof.
  intros about coms T info accounts find comm conv ts L ws xs location e pg Hc Ha Hl Hf Ne Ht Hx He Hp a.
  destruct (C103_loaded_ledger_partial about coms T info accounts find comm conv ts L ws xs location Hc Ha Hl Hf Ne Ht Hx) as (e' & pg' & E1 & E2 & TX & RG & PM).
  rewrite He in E1. injection E1 as <-. rewrite Hp in E2. injection E2 as <-. specialize (RG a).
  assert (Na : NoDup accounts) by apply Ha. destruct (register_made _ _ _ _ _ _ _ _ _ Na Hl) as [DO _]. split; [apply (shown_by_day L _ _ RG (DO a))|].
  intros p Ip.
  assert (G : exists q, In q (made_to L a xs) /\ shows L q p) by (clear -RG Ip; induction RG as [|q y l l' H F IH]; [destruct Ip|]; destruct Ip as [->|I]; [exists q; split; [left; reflexivity|exact H]|destruct (IH I) as (z & I1 & I2); exists z; split; [right; exact I1|exact I2]]).
  destruct G as (q & Iq & (D1 & _)). unfold made_to in Iq. apply filter_In in Iq as [Iq _]. apply in_flat_map in Iq as (x & Ix & Iq).
  assert (G : exists t, In t (pg_txs pg) /\ shows_tx L x t) by (clear -TX Ix; induction TX as [|y t l l' H F IH]; [destruct Ix|]; destruct Ix as [->|I]; [exists t; split; [left; reflexivity|exact H]|destruct (IH I) as (z & I1 & I2); exists z; split; [right; exact I1|exact I2]]).
  destruct G as (t & It & (P1 & _ & _ & _ & F)). exists t. split; [exact It|].
  destruct (load_inv _ _ _ _ _ _ _ _ _ _ empty_ok Na Hl) as (_ & xs0 & n & _ & Es & _ & _ & R & _).
  pose proof (stable_sort_perm (tx_less L) xs0) as P. rewrite <- Es in P. assert (Ix0 : In x xs0) by (eapply Permutation_in; [symmetry; exact P|exact Ix]).
  assert (G : exists t, In t ts /\ resolved find comm conv L t x).
  { clear - R Ix0. induction R as [|u y us ys H R IH]; [destruct Ix0|]. destruct Ix0 as [->|I]; [exists u; split; [left; reflexivity|exact H]|]. destruct (IH I) as (t' & I' & H'). exists t'. split; [right; exact I'|exact H']. }
  destruct G as (u & _ & (U1 & _ & _ & _ & U2 & _)).
  assert (Rp : exists s, resolves find L (t_posted u) s q) by (clear - U2 Iq; induction U2 as [|s q' l1 l2 H F IH]; [destruct Iq|]; destruct Iq as [->|I]; eauto).
  destruct Rp as (s & R1 & _). congruence.
Qed.
Print Assumptions C105_registers_in_order.

(** ** C106: balances *)
Lemma split_at {A} (key : A -> Z) d l : StronglySorted (fun x y => key x <= key y) l ->
  exists lo hi, l = lo ++ hi /\ (forall x, In x lo -> key x <= d) /\ (forall x, In x hi -> d < key x).
Proof.
  induction 1 as [|x l S IH F]; [exists [], []; repeat split; intros ? []|]. destruct (Z_le_gt_dec (key x) d) as [L|L].
  - destruct IH as (lo & hi & -> & H1 & H2). exists (x :: lo), hi. split; [reflexivity|]. split; [|exact H2]. intros y [<-|I]; [exact L|apply H1, I].
  - exists [], (x :: l). split; [reflexivity|]. split; [intros ? []|]. rewrite Forall_forall in F. intros y [<-|I]; [lia|]. specialize (F y I). lia.
Qed.
Lemma find_last_split {A} (f : A -> bool) lo x hi : f x = true -> (forall y, In y hi -> f y = false) -> find_last f ((lo ++ [x]) ++ hi) = Some x.
Proof.
  intros H1 H2. unfold find_last. rewrite !rev_app_distr. cbn [rev app].
  assert (G : forall l k, (forall y, In y l -> f y = false) -> List.find f (l ++ k) = List.find f k).
  { clear. induction l as [|y l IH]; intros k H; [reflexivity|]. cbn [app List.find]. rewrite (H y (or_introl eq_refl)). apply IH. intros; apply H; right; assumption. }
  rewrite G by (intros y I; apply H2, in_rev, I). cbn [List.find app]. rewrite H1. reflexivity.
Qed.
Lemma find_last_none {A} (f : A -> bool) l : (forall y, In y l -> f y = false) -> find_last f l = None.
Proof.
  intros H. unfold find_last. destruct (List.find f (rev l)) as [x|] eqn:E; [|reflexivity]. apply find_some in E as [I E]. rewrite (H x) in E; [discriminate|apply in_rev, I].
Qed.
Theorem C106_balance_partial : forall about coms T info accounts find comm conv ts L xs location e pg,
  coms_ok coms -> accounts_ok coms T info accounts ->
  load_transactions find comm conv accounts true empty_ledger ts = Ok (L, [], xs) ->
  (forall n a, find n = Ok a -> In a accounts /\ a <> B "Root") ->
  ts <> [] -> Forall (fun t => plain_year (t_posted t) /\ t_postings t <> []) ts ->
  (forall p q, In p (flat_map x_posts xs) -> rp_qty (heap L p) = Some q \/ rp_bal (heap L p) = Some q -> exportable coms q) ->
  export_page about coms T info accounts L location xs = Ok e -> load_page e = Ok pg ->
  assertions_last ts ->
  forall a, In a accounts ->
  Forall (fun q => a_com q = comm a) (quantities L (reg L a)) ->
  (forall p b, In p (reg L a) -> rp_asserted (heap L p) = true -> rp_bal (heap L p) = Some b -> a_com b = comm a) ->
  forall mid c d, zone_ok mid ->
  a_int (balance_at mid (pg_register pg a) c (mid d)) = zsum (map a_int (quantities L (filter (fun p => dates L p <=? d) (reg L a)))).
Proof.
  intros about coms T info accounts find comm conv ts L xs location e pg Hc Ha Hl Hf Ne Ht Hx He Hp AL a Ia Hq Hb mid c d Z.
  destruct (C103_loaded_ledger_partial about coms T info accounts find comm conv ts L [] xs location Hc Ha Hl Hf Ne Ht Hx) as (e' & pg' & E1 & E2 & TX & RG & PM).
  rewrite He in E1. injection E1 as <-. rewrite Hp in E2. injection E2 as <-. specialize (RG a).
  assert (Na : NoDup accounts) by apply Ha. destruct (register_made _ _ _ _ _ _ _ _ _ Na Hl) as [DO RM]. specialize (RM AL a). specialize (DO a). rewrite <- RM in RG, DO.
  destruct (C36_one_commodity _ _ _ _ _ _ _ _ a Na Ia Hl Hq) as [_ CB]. destruct (C36_running_balances _ _ _ _ _ _ _ _ Na Hl) as [CR _]. destruct (CR a Ia) as [_ CR2]. clear CR.
  destruct (split_at (dates L) d (reg L a) DO) as (lo & hi & Er & Hlo & Hhi).
  rewrite Er. rewrite filter_app, (L_Views.filter_all _ lo), (L_Views.filter_none _ hi) by (intros y I; first [specialize (Hlo y I)|specialize (Hhi y I)]; lia). rewrite app_nil_r.
  rewrite Er in RG. apply Forall2_app_inv_l in RG as (plo & phi & F1 & F2 & Ep).
  assert (Pd : forall q, In q phi -> posted mid q <=? mid d = false).
  { intros q Iq. assert (G : exists p, In p hi /\ shows L p q) by (clear -F2 Iq; induction F2 as [|p y l l' H F IH]; [destruct Iq|]; destruct Iq as [->|I]; [exists p; split; [left; reflexivity|exact H]|destruct (IH I) as (z & I1 & I2); exists z; split; [right; exact I1|exact I2]]).
    destruct G as (p & Ip & (D & _)). specialize (Hhi p Ip). unfold posted. rewrite D. unfold dates in Hhi. pose proof (mid_lt mid Z d (rp_date (heap L p))). lia. }
  unfold balance_at. rewrite Ep. destruct lo as [|p0 lo0] using rev_ind.
  - inversion F1; subst plo. cbn [app]. rewrite find_last_none by exact Pd. reflexivity.
  - apply Forall2_app_inv_l in F1 as (plo1 & pl & F3 & F4 & ->). inversion F4 as [|? pp ? ? S4 F5]; subst. inversion F5; subst.
    rewrite find_last_split; [|destruct S4 as (D & _); unfold posted; rewrite D; specialize (Hlo p0); rewrite Z.leb_le; apply (mid_le mid Z), Hlo, in_or_app; right; left; reflexivity|exact Pd].
    destruct S4 as (_ & _ & _ & (b & Eb & (Sb & _)) & _). rewrite Sb.
    assert (Er' : reg L a = lo0 ++ p0 :: hi) by (rewrite Er, <- app_assoc; reflexivity).
    destruct (CB lo0 p0 hi Er') as (B1 & _ & B3).
    destruct (rp_asserted (heap L p0)) eqn:As.
    + assert (Cb : a_com b = comm a) by (apply (Hb p0 b); [rewrite Er'; apply in_or_app; right; left; reflexivity|exact As|exact Eb]).
      specialize (B3 b eq_refl Eb Cb). destruct (Z.eq_dec (a_int b) (zsum (map a_int (quantities L (lo0 ++ [p0]))))) as [Q|Q]; [exact Q|]. apply B3 in Q. destruct Q.
    + specialize (B1 eq_refl). rewrite Eb in B1. injection B1 as ->. reflexivity.
Qed.
Print Assumptions C106_balance_partial.

(** the balances view: an account is followed by the accounts beneath it that are shown; its total is the sum of their balances *)
Theorem C106_balances_table : forall mid conv pg show t depth m,
  names_tree pg m -> (m < depth)%nat ->
  exists vis fuel,
    (forall x, exists f, vis x = filter f (pg_children pg x)) /\
    (forall x b, In b (vis x) <-> In b (pg_children pg x) /\ (show = true \/ ~ closed_by mid (pg_accounts pg) t b)) /\
    forall a c, (forall b, beneath (pg_children pg) a b -> a_com (page_balance mid pg t b) = c) ->
    exists rows, all_balances mid conv pg show t depth fuel a = Ok rows /\
      rows_of vis a (map r_acc rows) /\ (forall b, In b (map r_acc rows) <-> beneath vis a b) /\
      (forall r, In r rows -> r_bal r = page_balance mid pg t (r_acc r)) /\
      (small (map (fun r => a_int (r_bal r)) rows) ->
       forall l1 r l2, rows = l1 ++ r :: l2 -> exists sub rest, r :: l2 = sub ++ rest /\ rows_of vis (r_acc r) (map r_acc sub) /\
         r_total r = mkAmount (zsum (map (fun x => a_int (page_balance mid pg t (r_acc x))) sub)) c).
Proof.
  intros mid conv pg show t depth m [T1 T2] D. exists (vis mid pg show t depth), (S (S m)). split; [|split].
  - intros x. eexists. reflexivity.
  - intros x b. unfold vis. rewrite filter_In. split; intros [I H]; (split; [exact I|]).
    + unfold hidden in H. destruct show; [left; reflexivity|]. right. cbn [negb andb] in H. intros C. apply (closed_at_spec mid _ t T2 depth b) in C; [rewrite C in H; discriminate|]. specialize (T1 x b I). lia.
    + unfold hidden. destruct show; [reflexivity|]. destruct H as [H|H]; [discriminate|]. cbn [negb andb]. destruct (closed_at mid depth (pg_accounts pg) b t) eqn:E; [|reflexivity]. exfalso. apply H. apply (closed_at_spec mid _ t T2 depth b) in E; [exact E|]. specialize (T1 x b I). lia.
  - intros a c Hc. assert (Hk : forall x y, beneath (pg_children pg) a x -> In y (pg_children pg x) -> beneath (pg_children pg) a y) by (intros x y H I; econstructor; eassumption).
    destruct (all_balances_total mid conv pg show t depth c (beneath (pg_children pg) a) Hk Hc m T1 a (beneath_self _ _)) as (rows & E). exists rows. split; [exact E|].
    destruct (all_balances_spec mid conv pg show t depth c (beneath (pg_children pg) a) Hk Hc (S (S m)) a rows (beneath_self _ _) E) as (R1 & R2 & R3). rewrite Forall_forall in R2.
    split; [exact R1|]. split; [|split; [exact R2|]].
    + intros b. split; [apply (rows_in _ _ _ R1)|]. intros Bn. apply (rows_below _ _ _ R1 b Bn).
    + intros Hs. apply R3. unfold nums. erewrite map_ext_in; [exact Hs|]. intros r I. cbn beta. rewrite (R2 r I). reflexivity.
Qed.
Print Assumptions C106_balances_table.
(** the pages made of loaded ledgers are such trees *)
Lemma parent_shorter n p : parent_of n p -> p <> B "Root" -> (List.length p < List.length n)%nat.
Proof. intros [(leaf & -> & _ & _)|[-> _]] N; [|congruence]. rewrite !app_length. cbn. lia. Qed.
Theorem C106_page_tree : forall about coms T info accounts L location xs e pg,
  coms_ok coms -> accounts_ok coms T info accounts -> xs <> [] -> Forall (tx_ok coms accounts L) xs ->
  export_page about coms T info accounts L location xs = Ok e -> load_page e = Ok pg -> exists m, names_tree pg m.
Proof.
  intros about coms T info accounts L location xs e pg Hc Ha Nx TX He Hp.
  destruct (C103_page_has_the_books_partial about coms T info accounts L location xs Hc Ha Nx TX) as (e' & pg' & E1 & E2 & FA & _ & _ & CH & _).
  rewrite He in E1. injection E1 as <-. rewrite Hp in E2. injection E2 as <-. destruct Ha as (_ & _ & PR & PA & _).
  exists (list_max (map (@List.length ascii) accounts)). split.
  - intros a b I. apply CH in I as (N & Ib & Tp).
    assert (Nb : b <> B "Root") by congruence. destruct (PA b Ib Nb) as (p & Ep & _ & Pp). rewrite Tp in Ep. injection Ep as <-. split; [apply parent_shorter; assumption|].
    pose proof (list_max_le (map (@List.length ascii) accounts) (list_max (map (@List.length ascii) accounts))) as [LM _]. specialize (LM (Nat.le_refl _)). rewrite Forall_forall in LM. apply LM. apply in_map. exact Ib.
  - intros a pa p E Ep. unfold find_account in E. apply find_some in E as [Ipa Ea]. apply eqb_bytes_eq in Ea.
    assert (G : exists n, In n (filter (fun a => negb (eqb_bytes a (B "Root"))) (sort_strings accounts)) /\ shows_account T info n pa).
    { clear -FA Ipa. induction FA as [|n y l l' H F IH]; [destruct Ipa|]. destruct Ipa as [->|I]; [exists n; split; [left; reflexivity|exact H]|]. destruct (IH I) as (z & I1 & I2). exists z. split; [right; exact I1|exact I2]. }
    destruct G as (n & In' & (S1 & _ & _ & S4 & _)). assert (Ena : n = a) by congruence. rewrite Ena in S4, In'. rewrite S4 in Ep. unfold page_parent in Ep.
    destruct (t_parent T a) as [q|] eqn:Eq; [|discriminate]. destruct (eqb_bytes q (B "Root")) eqn:Er; [discriminate|]. injection Ep as <-.
    apply filter_In in In' as [I2 N2]. assert (Ia : In a accounts) by (eapply Permutation_in; [symmetry; apply sort_strings_perm|exact I2]).
    assert (Na : a <> B "Root") by (intros ->; rewrite eqb_bytes_refl in N2; discriminate).
    destruct (PA a Ia Na) as (p & Ep2 & _ & Pp). rewrite Eq in Ep2. injection Ep2 as <-. apply parent_shorter; [exact Pp|]. intros ->. rewrite eqb_bytes_refl in Er. discriminate.
Qed.
(** a transaction asserting a balance before another of the day: the page shows the asserted balance instead of the last *)
Definition loads_and_shows (ld : res (ledger * list nat * list rtx)) (ex : ledger -> list rtx -> res export) (P : ledger -> list nat -> page -> Prop) : Prop :=
  match ld with Ok (L, ws, xs) => match ex L xs with Ok e => match load_page e with Ok pg => P L ws pg | _ => False end | _ => False end | _ => False end.
Lemma unpack ld ex P : loads_and_shows ld ex P ->
  exists L ws xs e pg, ld = Ok (L, ws, xs) /\ ex L xs = Ok e /\ load_page e = Ok pg /\ P L ws pg.
Proof.
  unfold loads_and_shows. destruct ld as [[[L ws] xs]| |]; try contradiction. destruct (ex L xs) as [e| |] eqn:E; try contradiction. destruct (load_page e) as [pg| |] eqn:E2; try contradiction. intros H. exists L, ws, xs, e, pg. auto.
Qed.
Definition wrong_ts : list transaction := [tr (go_date 2024 3 1) [ps "A" (Some 500) (Some 500); ps "B" None None]; tr (go_date 2024 3 1) [ps "A" (Some 300) None; ps "B" None None]].
Definition wrong_load := load_transactions ex_find ex_comm ex_conv pg_names true empty_ledger wrong_ts.
Definition wrong_ex (L : ledger) (xs : list rtx) := export_page (fun _ => ([], B "dollar", [])) [usd; cad] pg_tree pg_info pg_names L (fun _ => B "f:1") xs.
Definition wrong_P (L : ledger) (ws : list nat) (pg : page) : Prop := ws = [] /\ map a_int (quantities L (reg L (B "A"))) = [500; 300] /\
  a_int (balance_at london_utc (pg_register pg (B "A")) cad (london_utc (go_date 2024 3 1))) = 500.
Lemma wrong_facts : loads_and_shows wrong_load wrong_ex wrong_P.
Proof. vm_compute. repeat split. Qed.
Theorem C106_assertion_first_refuted : exists L xs e pg,
  wrong_load = Ok (L, [], xs) /\ wrong_ex L xs = Ok e /\ load_page e = Ok pg /\
  map a_int (quantities L (reg L (B "A"))) = [500; 300] /\
  a_int (balance_at london_utc (pg_register pg (B "A")) cad (london_utc (go_date 2024 3 1))) = 500.
Proof.
  destruct (unpack wrong_load wrong_ex wrong_P wrong_facts) as (L & ws & xs & e & pg & H1 & H2 & H3 & H). destruct H as (H0 & H4 & H5). subst ws. exists L, xs, e, pg. split; [exact H1|]. split; [exact H2|]. split; [exact H3|]. split; [exact H4|exact H5].
Qed.
(** a case that meets the hypotheses of the guarded theorem *)
Example C106_example : assertions_last pg_ts /\ match pg_load, pg_loaded with
  | Ok (L, ws, _), Ok pg => ws = [] /\ a_int (balance_at toronto (pg_register pg (B "B")) cad (toronto (go_date 2024 3 1))) = -695 /\
      a_int (balance_at toronto (pg_register pg (B "B")) cad (toronto (go_date 2024 2 29))) = 5
  | _, _ => False end.
Proof.
  split; [|vm_compute; repeat split]. constructor; [constructor; [constructor|constructor]|]. constructor; [|constructor]. intros E. vm_compute in E. discriminate.
Qed.

(** ** C107: registers *)
Theorem C107_running_totals : forall mid conv c ps, in_commodity c ps -> small (ints ps) ->
  exists l, running mid conv (mkAmount 0 c) ps = Ok l /\ map fst l = ps /\
    forall l1 p x l2, l = l1 ++ (p, x) :: l2 -> x = mkAmount (zsum (ints (map fst l1 ++ [p]))) c.
Proof. intros mid conv c ps H Hs. apply (running_spec mid conv c ps [] (mkAmount 0 c) H eq_refl eq_refl Hs). Qed.
(** the register with subaccounts: the postings of the accounts in the range, by date, those of a day in the order of the accounts *)
Lemma filter_concat {A} (f : A -> bool) l : filter f (concat l) = concat (map (filter f) l).
Proof. induction l as [|x l IH]; [reflexivity|]. cbn [concat map]. rewrite filter_app, IH. reflexivity. Qed.
Theorem C107_subaccounts : forall mid regs start stop, zone_ok mid -> Forall by_day regs ->
  let shown := all_postings mid regs start stop in
  let chosen := filter (fun p => (start <=? mid (pp_date p)) && (mid (pp_date p) <=? stop)) (concat regs) in
  by_day shown /\ Permutation chosen shown /\ forall d, filter (fun p => pp_date p =? d) shown = filter (fun p => pp_date p =? d) chosen.
Proof.
  intros mid regs start stop Z F shown chosen.
  assert (E : concat (map (fun ps => trim_range mid ps start stop) regs) = chosen).
  { unfold chosen. rewrite filter_concat. f_equal. apply map_ext_in. intros ps I. rewrite Forall_forall in F. apply trim_filter_key, by_day_posted; auto. }
  assert (W : weak_order (fun p q => posted mid p <? posted mid q)) by (split; intros; lia).
  unfold shown, all_postings. rewrite E. split; [|split].
  - pose proof (stable_sort_sorted (fun p q => posted mid p <? posted mid q) chosen W) as S. unfold sorted_by in S. unfold by_day. clear -S Z.
    induction S as [|x l S IH H]; constructor; [exact IH|]. rewrite Forall_forall in *. intros y I. specialize (H y I). apply (mid_le mid Z). unfold posted in *. lia.
  - apply stable_sort_perm.
  - intros d.
    pose proof (stable_sort_stable (fun p q => posted mid p <? posted mid q) (fun p => pp_date p =? d) chosen) as S. apply S. intros x y _ _ Hx Hy. unfold posted. apply Z.eqb_eq in Hx, Hy. rewrite Hx, Hy. apply Z.ltb_irrefl.
Qed.
Example C107_example : exists l, running london_utc (fun _ => ex_conv) (mkAmount 0 cad) [mkPpost 0 5 (B "A") (mkAmount 3 cad) (mkAmount 3 cad) false None None; mkPpost 1 6 (B "A") (mkAmount (-7) cad) (mkAmount (-4) cad) false None None] = Ok l /\
  map (fun x => a_int (snd x)) l = [3; -4].
Proof. eexists. split; [vm_compute; reflexivity|reflexivity]. Qed.

(** ** C108: postings by period *)
(** the periods are exactly those beginning in the range, in order *)
Theorem C108_periods : forall mid k start stop, zone_ok mid ->
  StronglySorted Z.lt (ticks mid k start stop) /\ forall d, In d (ticks mid k start stop) <-> floor_day k d = d /\ start <= mid d < stop.
Proof. intros mid k start stop Z. split; [apply ticks_sorted|]. intros d. apply (ticks_in mid k start stop d Z). Qed.
(** the first day of a period, said without the calendar functions *)
Theorem C108_first_days : forall d,
  (floor_day Weekly d <= d < floor_day Weekly d + 7 /\ weekday (floor_day Weekly d) = 0) /\
  civil (floor_day Monthly d) = (year_of d, month_of d, 1) /\ civil (floor_day Yearly d) = (year_of d, 1, 1) /\
  exists m, In m [1; 4; 7; 10] /\ m <= month_of d < m + 3 /\ civil (floor_day Quarterly d) = (year_of d, m, 1).
Proof.
  intros d. pose proof (civil_valid d) as (V1 & V2). split; [|split; [|split]].
  - cbn [floor_day]. unfold weekday. lia.
  - cbn [floor_day]. apply civil_go_date, valid_first. lia.
  - cbn [floor_day]. apply civil_go_date, valid_first. lia.
  - exists (3 * ((month_of d - 1) / 3) + 1). split; [cbn [In]; lia|]. split; [lia|]. cbn [floor_day]. apply civil_go_date, valid_first. lia.
Qed.
(** every group has the postings of its period, their sum, the sum up to here and the last balance up to here *)
Theorem C108_groups : forall mid conv k ps c start stop, zone_ok mid -> by_day ps -> in_commodity c ps -> small (ints ps) ->
  exists gs, group_by mid conv k ps c start stop = Ok gs /\ map g_date gs = ticks mid k start stop /\
    concat (map g_posts gs) = filter (fun p => (start <=? mid (floor_day k (pp_date p))) && (mid (floor_day k (pp_date p)) <? stop)) ps /\
    forall g1 g g2, gs = g1 ++ g :: g2 ->
      g_posts g = filter (fun p => floor_day k (pp_date p) =? g_date g) ps /\
      g_sum g = mkAmount (zsum (ints (g_posts g))) c /\
      g_total g = mkAmount (zsum (ints (concat (map g_posts (g1 ++ [g]))))) c /\
      g_bal g = last_balance c (concat (map g_posts (g1 ++ [g]))).
Proof.
  intros mid conv k ps c start stop Z S Hc Hs.
  assert (Fl : Forall (fun d => floor_day k d = d) (ticks mid k start stop)) by (rewrite Forall_forall; intros d I; apply (ticks_in mid k start stop d Z) in I as [I _]; exact I).
  destruct (group_loop_spec mid conv k ps c Z Hc (ticks mid k start stop) [] (mkAmount 0 c) (mkAmount 0 c) Fl eq_refl eq_refl) as (gs & E1 & E2 & E3).
  { cbn [app]. rewrite concat_periods by (auto using ticks_sorted). apply small_filter, Hs. }
  cbn [app] in E3. exists gs. split; [exact E1|]. split; [exact E2|]. split; [|exact E3].
  assert (E4 : map g_posts gs = map (fun d => filter (in_period k d) ps) (ticks mid k start stop)).
  { rewrite <- E2, map_map. apply map_ext_in. intros g I. apply in_split in I as (g1 & g2 & I). apply (E3 _ _ _ I). }
  rewrite E4, concat_periods by (auto using ticks_sorted). apply filter_ext. intros p.
  destruct (existsb (Z.eqb (floor_day k (pp_date p))) (ticks mid k start stop)) eqn:Ex.
  - apply existsb_exists in Ex as (d & I & Ed). apply Z.eqb_eq in Ed. apply (ticks_in mid k start stop d Z) in I as [_ I]. rewrite Ed. lia.
  - symmetry. apply not_true_is_false. intros H. assert (I : In (floor_day k (pp_date p)) (ticks mid k start stop)) by (apply (ticks_in mid k start stop _ Z); split; [apply floor_idem|lia]).
    assert (T : existsb (Z.eqb (floor_day k (pp_date p))) (ticks mid k start stop) = true) by (apply existsb_exists; eexists; split; [exact I|apply Z.eqb_refl]). congruence.
Qed.
Print Assumptions C108_groups.
(** a range from the first day of a period to just before the first day of another covers its postings exactly *)
Theorem C108_whole_periods : forall mid conv k ps c s e, zone_ok mid -> by_day ps -> in_commodity c ps -> small (ints ps) ->
  floor_day k s = s -> floor_day k e = e ->
  exists gs, group_by mid conv k ps c (mid s) (mid e) = Ok gs /\ concat (map g_posts gs) = filter (between s (e - 1)) ps /\
    zsum (map (fun g => a_int (g_sum g)) gs) = zsum (ints (filter (between s (e - 1)) ps)).
Proof.
  intros mid conv k ps c s e Z S Hc Hs Fs Fe. destruct (C108_groups mid conv k ps c (mid s) (mid e) Z S Hc Hs) as (gs & E1 & E2 & E3 & E4). exists gs. split; [exact E1|].
  assert (E5 : concat (map g_posts gs) = filter (between s (e - 1)) ps).
  { rewrite E3. apply filter_ext. intros p. unfold between. pose proof (mid_le mid Z s (floor_day k (pp_date p))). pose proof (mid_lt mid Z (floor_day k (pp_date p)) e).
    pose proof (floor_le k (pp_date p)). pose proof (floor_mono k s (pp_date p)). pose proof (floor_mono k e (pp_date p)). lia. }
  split; [exact E5|]. rewrite <- E5. assert (G : forall g, In g gs -> a_int (g_sum g) = zsum (ints (g_posts g))) by (intros g I; apply in_split in I as (g1 & g2 & I); destruct (E4 _ _ _ I) as (_ & -> & _); reflexivity).
  clear -G. induction gs as [|g gs IH]; [reflexivity|]. cbn [map concat]. rewrite ints_app, zsum_app. unfold zsum at 1. cbn [fold_right]. fold (zsum (map (fun g => a_int (g_sum g)) gs)). rewrite IH by (intros; apply G; right; assumption). rewrite (G g (or_introl eq_refl)). reflexivity.
Qed.
(** otherwise: postings of the first, incomplete period of the range are in no group; periods before the first posting of the range show the
    balance zero, whatever the account had before *)
Definition gp (d q b : Z) : pposting := mkPpost 0 d (B "A") (mkAmount q cad) (mkAmount b cad) false None None.
Definition gp_posts := [gp (go_date 2024 1 10) 100 100; gp (go_date 2024 3 20) 7 107; gp (go_date 2024 5 2) 1 108].
Theorem C108_first_period_refuted : exists gs,
  group_by london_utc (fun _ => ex_conv) Monthly gp_posts cad (london_utc (go_date 2024 3 15)) (london_utc (go_date 2024 6 1)) = Ok gs /\
  filter (between (go_date 2024 3 15) (go_date 2024 5 31)) gp_posts = [gp (go_date 2024 3 20) 7 107; gp (go_date 2024 5 2) 1 108] /\
  concat (map g_posts gs) = [gp (go_date 2024 5 2) 1 108].
Proof. eexists. split; [vm_compute; reflexivity|]. split; vm_compute; reflexivity. Qed.
Theorem C108_opening_balance_refuted : exists gs,
  group_by london_utc (fun _ => ex_conv) Monthly gp_posts cad (london_utc (go_date 2024 2 1)) (london_utc (go_date 2024 4 1)) = Ok gs /\
  map (fun g => (g_date g, a_int (g_bal g))) gs = [(go_date 2024 2 1, 0); (go_date 2024 3 1, 107)] /\
  a_int (balance_at london_utc gp_posts cad (london_utc (go_date 2024 2 29))) = 100.
Proof. eexists. split; [vm_compute; reflexivity|]. split; vm_compute; reflexivity. Qed.
(** east of UTC a range typed in from the first of a month loses the whole month *)
Theorem C108_typed_range_refuted : exists gs,
  group_by berlin (fun _ => ex_conv) Monthly gp_posts cad (utc_midnight (go_date 2024 3 1)) (utc_midnight (go_date 2024 6 1)) = Ok gs /\
  concat (map g_posts gs) = [gp (go_date 2024 5 2) 1 108].
Proof. eexists. split; [vm_compute; reflexivity|]. vm_compute. reflexivity. Qed.
Example C108_example : by_day gp_posts /\ in_commodity cad gp_posts /\ small (ints gp_posts).
Proof.
  split; [|split].
  - repeat (constructor; [|repeat (constructor; [vm_compute; discriminate|]); constructor]). constructor.
  - repeat constructor.
  - vm_compute. discriminate.
Qed.

(** ** C109: columns of subaccounts *)
Lemma skipn_nonempty {A} n (l : list A) : (n < List.length l)%nat -> skipn n l <> [].
Proof. intros H E. apply (f_equal (@List.length _)) in E. rewrite skipn_length in E. cbn in E. lia. Qed.
Lemma rows_small_app a b : rows_small (a ++ b) -> rows_small a /\ rows_small b.
Proof.
  intros H. split; intros i; destruct (H i) as (H1 & H2 & H3); rewrite map_app in H1, H2, H3; apply small_app in H1, H2, H3; intuition.
Qed.
(** for every order of the accounts: the first n - 1 are shown unchanged, the others in one column; the rows keep their sums and postings *)
Theorem C109_other_keeps_totals : forall mid conv c l n sorted, (1 <= n)%nat -> Forall (fun x => column_ok c l (snd x)) sorted -> rows_small (map snd sorted) ->
  exists cols, top_columns mid conv c n sorted = Ok cols /\ List.length cols = Nat.min n (List.length sorted) /\
    Forall (fun x => column_ok c l (snd x)) cols /\
    (forall i x, (i < n - 1)%nat -> nth_error sorted i = Some x -> nth_error cols i = Some (Some (fst x), snd x)) /\
    forall i, zsum (map (fun x => at_row g_sum i (snd x)) cols) = zsum (map (fun x => at_row g_sum i (snd x)) sorted) /\
              zsum (map (fun x => at_row g_bal i (snd x)) cols) = zsum (map (fun x => at_row g_bal i (snd x)) sorted) /\
              zsum (map (fun x => at_row g_total i (snd x)) cols) = zsum (map (fun x => at_row g_total i (snd x)) sorted) /\
              concat (map (fun x => posts_at i (snd x)) cols) = concat (map (fun x => posts_at i (snd x)) sorted).
Proof.
  intros mid conv c l n sorted Hn F Hs. unfold top_columns. destruct (n <? List.length sorted)%nat eqn:E.
  - apply Nat.ltb_lt in E. rewrite <- (firstn_skipn (n - 1) sorted) in F, Hs. rewrite map_app in Hs. apply rows_small_app in Hs as [_ Hs]. apply Forall_app in F as [F1 F2].
    destruct (sum_all_spec mid conv c l (map snd (skipn (n - 1) sorted))) as (o & O1 & O2 & O3); [| |exact Hs|].
    { intros X. apply map_eq_nil in X. revert X. apply skipn_nonempty. lia. }
    { rewrite Forall_map. exact F2. }
    rewrite O1. cbn [bind]. eexists. split; [reflexivity|]. split; [|split; [|split]].
    + rewrite app_length, map_length, firstn_length. cbn [List.length]. lia.
    + apply Forall_app. split; [|constructor; [exact O2|constructor]]. rewrite Forall_map. exact F1.
    + intros i x Hi Hx. rewrite nth_error_app1 by (rewrite map_length, firstn_length; lia). rewrite nth_error_map.
      assert (G : nth_error (firstn (n - 1) sorted) i = Some x).
      { rewrite <- Hx. clear -Hi. revert i Hi. generalize (n - 1)%nat as k. induction sorted as [|y s IH]; intros [|k] [|i] H; cbn [firstn nth_error]; try reflexivity; try lia. apply IH. lia. }
      rewrite G. reflexivity.
    + intros i. destruct (O3 i) as (P1 & P2 & P3 & P4). rewrite <- (firstn_skipn (n - 1) sorted) at 2 4 6 8.
      rewrite !map_app, !map_map, !zsum_app, !concat_app. cbn [map snd concat zsum fold_right fst]. rewrite P1, P2, P3, P4, !map_map, app_nil_r, !Z.add_0_r. auto.
  - apply Nat.ltb_ge in E. eexists. split; [reflexivity|]. split; [rewrite map_length; lia|]. split; [rewrite Forall_map; exact F|]. split.
    + intros i x _ Hx. rewrite nth_error_map, Hx. reflexivity.
    + intros i. rewrite !map_map. cbn [snd]. auto.
Qed.
Print Assumptions C109_other_keeps_totals.
(** the table: a row for each period, the cells of its columns and their sum *)
Theorem C109_table : forall mid conv flows c l cols, Forall (column_ok c l) cols -> rows_small cols ->
  exists rows, table mid conv flows c cols 0 (mkAmount 0 c) l = Ok rows /\ map tr_date rows = l /\
    forall i r, nth_error rows i = Some r ->
      tr_cells r = map (fun gs => mkAmount (at_row (if flows then g_sum else g_bal) i gs) c) cols /\
      a_int (tr_total r) = zsum (map a_int (tr_cells r)) /\ a_com (tr_total r) = c.
Proof.
  intros mid conv flows c l cols F Hs. destruct (table_spec mid conv flows c l cols F Hs l 0 (mkAmount 0 c) eq_refl eq_refl) as (rows & R1 & R2 & R3). exists rows. split; [exact R1|]. split; [exact R2|].
  intros i r Er. destruct (R3 i r Er) as (C1 & C2 & _). rewrite C2. cbn [Nat.add] in *. split; [exact C1|]. split; [|reflexivity]. rewrite C1, map_map. reflexivity.
Qed.
(** the column headed Cum.Total repeats the total of the period: for every table, not the running total *)
Theorem C109_cumulative_refuted : (forall mid conv flows c l cols, Forall (column_ok c l) cols -> rows_small cols ->
    exists rows, table mid conv flows c cols 0 (mkAmount 0 c) l = Ok rows /\ forall r, In r rows -> tr_cum r = tr_total r) /\
  exists rows, table london_utc (fun _ => ex_conv) true cad [[mkGroup 31 [] (mkAmount 5 cad) (mkAmount 5 cad) (mkAmount 5 cad); mkGroup 60 [] (mkAmount 2 cad) (mkAmount 7 cad) (mkAmount 7 cad)]] 0 (mkAmount 0 cad) [31; 60] = Ok rows /\
    map (fun r => (a_int (tr_total r), a_int (tr_cum r))) rows = [(5, 5); (2, 2)].
Proof.
  split; [|eexists; split; [vm_compute; reflexivity|reflexivity]].
  intros mid conv flows c l cols F Hs. destruct (table_spec mid conv flows c l cols F Hs l 0 (mkAmount 0 c) eq_refl eq_refl) as (rows & R1 & R2 & R3). exists rows. split; [exact R1|].
  intros r I. apply In_nth_error in I as (i & I). apply (R3 i r I).
Qed.

(** ** C110: the other account *)
Lemma same_sign_sum (s : Z) l : s <> 0 -> (forall x, In x l -> Z.sgn x = s) -> l <> [] -> zsum l <> 0.
Proof.
  intros Hs H N. assert (G : forall l, (forall x, In x l -> Z.sgn x = s) -> l <> [] -> (s = 1 /\ 0 < zsum l) \/ (s = -1 /\ zsum l < 0)).
  { clear l H N. induction l as [|x l IH]; intros H N; [congruence|]. unfold zsum in *. cbn [fold_right]. pose proof (H x (or_introl eq_refl)) as Hx.
    destruct l as [|y l]; [cbn [fold_right]; lia|]. specialize (IH (fun z I => H z (or_intror I))). destruct IH as [IH|IH]; [discriminate| |]; lia. }
  destruct (G l H N); lia.
Qed.
Theorem C110_other_account : forall c l i p, in_commodity c l -> zsum (ints l) = 0 -> (2 <= List.length l)%nat -> nth_error l i = Some p ->
  exists j q, other_posting l i = Ok q /\ j <> i /\ nth_error l j = Some q /\
    (Z.sgn (a_int (pp_qty q)) <> Z.sgn (a_int (pp_qty p)) \/ a_int (pp_qty p) = 0) /\
    forall j' q', (j' < j)%nat -> j' <> i -> nth_error l j' = Some q' -> Z.sgn (a_int (pp_qty q')) = Z.sgn (a_int (pp_qty p)) /\ a_int (pp_qty p) <> 0.
Proof.
  intros c l i p Hc Hz Hl Hp. unfold other_posting. rewrite Hp. pose proof (other_from_spec i (sign p) l 0) as S. destruct (other_from 0 i (sign p) l) as [q| |].
  - destruct S as (k & S1 & S2 & S3 & S4). exists k, q. split; [reflexivity|]. split; [exact S2|]. split; [exact S1|]. unfold sign in *. split; [lia|].
    intros j' q' L N E. destruct (S4 j' q' L E N). lia.
  - exfalso. cbn [Nat.add] in S.
    assert (E : exists k q, k <> i /\ nth_error l k = Some q).
    { destruct i as [|i]; [exists 1%nat|exists 0%nat]; destruct l as [|x [|y l]]; cbn [List.length] in Hl; try lia; cbn [nth_error]; [exists y|exists x]; split; auto. }
    destruct E as (k & q & N & E). destruct (S k q E N) as [_ Hs]. revert Hz. apply (same_sign_sum (sign p)); [exact Hs| |].
    + intros x I. unfold ints in I. apply in_map_iff in I as (y & <- & I). apply In_nth_error in I as (m & I). destruct (Nat.eq_dec m i) as [->|Nm]; [assert (y = p) by congruence; subst y; reflexivity|]. apply (S m y I Nm).
    + destruct l; [cbn in Hl; lia|discriminate].
  - destruct S.
Qed.
(** with accounts of different commodities both amounts can have the same sign; a transaction can have one posting of zero: no row can be made *)
Definition two_ts := [tr (go_date 2024 3 1) [ps "A" (Some 500) None; mkPosting (B "U") (Some (mkAmount 300 usd)) None []]; tr (go_date 2024 3 2) [ps "A" (Some 0) None]].
Definition two_names := [B "Root"; B "A"; B "U"].
Definition two_load := load_transactions ex_find ex_comm ex_conv two_names true empty_ledger two_ts.
Definition two_ex (L : ledger) (xs : list rtx) := export_page (fun _ => ([], B "dollar", [])) [usd; cad] pg_tree pg_info two_names L (fun _ => B "f:1") xs.
Definition two_P (L : ledger) (ws : list nat) (pg : page) : Prop := ws = [] /\ map (fun x => map (fun i => other_posting (pt_postings x) i) (seq 0 (List.length (pt_postings x)))) (pg_txs pg) = [[Fail; Fail]; [Fail]].
Lemma two_facts : loads_and_shows two_load two_ex two_P.
Proof. vm_compute. split; reflexivity. Qed.
Theorem C110_same_sign_refuted : exists L xs e pg, two_load = Ok (L, [], xs) /\ two_ex L xs = Ok e /\ load_page e = Ok pg /\
  map (fun x => map (fun i => other_posting (pt_postings x) i) (seq 0 (List.length (pt_postings x)))) (pg_txs pg) = [[Fail; Fail]; [Fail]].
Proof.
  destruct (unpack two_load two_ex two_P two_facts) as (L & ws & xs & e & pg & H1 & H2 & H3 & H). destruct H as (H0 & H4). subst ws. exists L, xs, e, pg. split; [exact H1|]. split; [exact H2|]. split; [exact H3|exact H4].
Qed.
